(** Model of the report of a counting experiment: /repo/src/cut/CutLog.cpp:60-139 (AsString, SaveAs),
    /repo/src/count/CountingResult.cpp:15-31, 60-65, 84-190 (AddBackground, SetDataLog, SetObservedCounts, SetSignal, SaveAs, AsString),
    /repo/src/count/CountingExperiment.cpp:8-87 (which hands the cut logs and the signal name to the result; Model/Count.v leaves them out).
    Simplifications: a report is the numbers and names printed, in order; the widths, the precision (3 digits for percentages, 6 elsewhere),
    rulers, headings and the time stamp are left out.  A file is the last text written to it.  A rate that is not finite makes the whole
    report NonFinite (the code passes NaN to std::sort).  DataSet* by value, as in Model/Count.v. *)
From Coq Require Import ZArith Reals.
From Verif Require Import Base.Res Base.Num Base.RNum Base.SMap Model.Axis Model.Event Model.Hist Model.Cut Model.Fill Model.Count.
Local Open Scope Qc_scope.
Local Open Scope res_scope.

(** one line of CutLog::AsString: the cut, its count, its percentage, the remainder, its percentage *)
Record logrow := mkRow { rwCut : string; rwCount : Z; rwPct : res Qc; rwRem : Z; rwRemPct : res Qc }.
(** CutLog.cpp:8-29 and 88-103: the loops of CalculateMeta and AsString; with no events the percentages are 0/0 *)
Fixpoint log_rows (n rem : Z) (names : list string) (counts : list Z) : list logrow :=
  match names, counts with
  | nm :: names, c :: counts =>
      let rem' := (rem - c)%Z in
      mkRow nm c (qdiv (qz c * qz 100) (qz n)) rem' (qdiv (qz rem' * qz 100) (qz n)) :: log_rows n rem' names counts
  | _, _ => []
  end.
(** CutLog.cpp:60-105 AsString *)
Definition log_table (l : cutlog) : res (list logrow) :=
  if Nat.eqb (List.length (lCounts l)) 0 then Ok []
  else if negb (Nat.eqb (List.length (lCounts l)) (List.length (lNames l))) then Throw LogicError
  else Ok (log_rows (lN l) (lN l) (lNames l) (lCounts l)).
(** CutLog.cpp:113-139 SaveAs.  [writable] says which paths can be opened; the test is_open() is made before open() *)
Definition files (A : Type) := string -> option A.
Definition write {A} (writable : string -> bool) (fs : files A) (path : string) (x : A) : files A :=
  if writable path then fun p => if String.eqb p path then Some x else fs p else fs.
Definition log_saveAs (writable : string -> bool) (fs : files (string * list logrow)) (title path : string) (l : cutlog)
  : files (string * list logrow) * res unit :=
  let is_open := false in
  if is_open then (fs, Throw IOError)
  else match log_table l with
       | Ok t => (write writable fs path (title, t), Ok tt)
       | Throw e => (fs, Throw e) | UB => (fs, UB) | NonFinite => (fs, NonFinite) | Diverge => (fs, Diverge)
       end.

(** CountingExperiment.h:24-34 with CountingResult.h:27-35: [reExp] is what Model/Count.v keeps; fSignalName of the experiment;
    fBackgroundLogs, (fSignalName, fSignalLog) and fDataLog of the result *)
Record rexp := mkRe { reExp : cexp; reName : string; reBgLogs : list cutlog; reSig : string * cutlog; reData : cutlog }.
(** CutLog.h:9 the default log *)
Definition no_log : cutlog := mkLog [] [] [] [] [] 0.
Definition re_new : rexp := mkRe ce_new ""%string [] (""%string, no_log) no_log.
Definition re_withExp (s : rexp) (e : cexp) : rexp := mkRe e (reName s) (reBgLogs s) (reSig s) (reData s).
(** CountingExperiment.cpp:58-75, 83-87 *)
Definition re_addCut (s : rexp) (c : cut) : rexp := re_withExp s (ce_addCut (reExp s) c).
Definition re_addSys (s : rexp) (y : evsys) : rexp := re_withExp s (ce_addSys (reExp s) y).
Definition re_addBg (s : rexp) (data : list event) (rate : Qc) (n : string) : rexp := re_withExp s (ce_addBg (reExp s) data rate n).
Definition re_setSignal (s : rexp) (data : list event) (n : string) : rexp :=
  mkRe (ce_setSignal (reExp s) data) n (reBgLogs s) (reSig s) (reData s).

(** the loop of CountData, CountBackgrounds and CountSignal: how many events pass, and the log *)
Definition count_logged (s : cexp) (data : list event) : res (Z * cutlog) :=
  foldM (fun (acc : Z * cutlog) i =>
            do e0 <- get_entry data i;
            do e <- esm_apply (ceSys s) e0;
            match passesCutsLog (ceCuts s) e (snd acc) with
            | (l, r) => do pass <- r; Ok (if pass then (fst acc + 1)%Z else fst acc, l)
            end)
         (seq 0 (List.length data)) (0%Z, mk_log (map cutName (ceCuts s))).
(** CountingExperiment.cpp:8-20 CountData with CountingResult.cpp:23-31 *)
Definition re_countData (s : rexp) (data : list event) : rexp * res unit :=
  obind s (count_logged (reExp s) data) (fun p =>
    let r := ceRes (reExp s) in
    (mkRe (ce_setRes (reExp s) (mkCr (fst p) (crEff r) (crRates r) (crErrs r) (crNames r))) (reName s) (reBgLogs s) (reSig s) (snd p), Ok tt)).
(** CountingExperiment.cpp:22-44 CountBackgrounds with CountingResult.cpp:15-21 AddBackground *)
Definition re_countBgs (s : rexp) : rexp * res unit :=
  iterS (fun s (bg : list event * Qc * string) =>
           obind s (count_logged (reExp s) (fst (fst bg))) (fun p =>
             let N := List.length (fst (fst bg)) in
             let norm := snd (fst bg) in
             let counts := qdiv (qz (fst p) * norm) (qn N) in
             let err := if Nat.eqb N 0 then NonFinite else Ok (sqrt (IZR (fst p)) * qr norm / INR N)%R in
             let r := ceRes (reExp s) in
             (mkRe (ce_setRes (reExp s) (mkCr (crObs r) (crEff r) (crRates r ++ [counts]) (crErrs r ++ [err]) (crNames r ++ [snd bg])))
                   (reName s) (reBgLogs s ++ [snd p]) (reSig s) (reData s), Ok tt)))
        (ceBg (reExp s)) s.
(** CountingExperiment.cpp:46-56 CountSignal with CountingResult.cpp:60-65 SetSignal *)
Definition re_countSignal (s : rexp) : rexp * res unit :=
  match ceSig (reExp s) with
  | None => (s, UB)
  | Some data =>
      obind s (count_logged (reExp s) data) (fun p =>
        let r := ceRes (reExp s) in
        (mkRe (ce_setRes (reExp s) (mkCr (crObs r) (qdiv (qz (fst p)) (qn (List.length data))) (crRates r) (crErrs r) (crNames r)))
              (reName s) (reBgLogs s) (reName s, snd p) (reData s), Ok tt))
  end.

(** the four sections of CountingResult::AsString *)
Record report := mkRep { rpBgs : list (string * list logrow); rpSignal : string * list logrow; rpTest : list logrow;
                         rpSummary : list (string * Qc * R); rpTotal : Qc; rpTotalErr : R; rpEff : res Qc; rpObs : Z }.
(** CountingResult.cpp:113-190 AsString; [srt] is std::sort with PairSortBySecond and std::greater (Comparison.hpp:3-12): any rearrangement
    by decreasing rate.  sortedErrorsByName[name] of a missing name is 0. *)
Definition re_asString (srt : list (string * Qc) -> list (string * Qc)) (s : rexp) : res report :=
  let r := ceRes (reExp s) in
  do bgs <- mapM (fun i => do n <- vat (crNames r) i; do l <- vat (reBgLogs s) i; rmap (fun t => (n, t)) (log_table l))
                 (seq 0 (List.length (reBgLogs s)));
  do sg <- log_table (snd (reSig s));
  do test <- log_table (reData s);
  do rates <- seqM (crRates r);
  do errs <- seqM (crErrs r);
  do sorted <- foldM (fun (acc : list (string * Qc) * smap R) i =>
                        do n <- vat (crNames r) i; do x <- vat rates i; do e <- vat errs i;
                        Ok (fst acc ++ [(n, x)], sset n e (snd acc)))
                     (seq 0 (List.length rates)) ([], sempty);
  do total <- cr_expected r;
  do toterr <- cr_error r;
  Ok (mkRep bgs (fst (reSig s), sg) test
        (map (fun p => (fst p, snd p, match sfind (fst p) (snd sorted) with Some e => e | None => 0%R end)) (srt (fst sorted)))
        total toterr (crEff r) (crObs r)).
(** CountingResult.cpp:84-111 SaveAs *)
Definition re_saveAs (srt : list (string * Qc) -> list (string * Qc)) (writable : string -> bool) (fs : files report) (path : string) (s : rexp)
  : files report * res unit :=
  match re_asString srt s with
  | Ok t => (write writable fs path t, Ok tt)
  | Throw e => (fs, Throw e) | UB => (fs, UB) | NonFinite => (fs, NonFinite) | Diverge => (fs, Diverge)
  end.
