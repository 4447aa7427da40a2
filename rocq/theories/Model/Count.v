(** Model of /repo/src/count/CountingExperiment.cpp and CountingResult.cpp.
    Simplifications: DataSet* by value (the list of events); a stored double that is not finite is
    represented by NonFinite in the list; printing and saving left out; int counters are Z. *)
From Coq Require Import ZArith Reals.
From Verif Require Import Base.Res Base.Num Base.RNum Base.SMap Model.Axis Model.Event Model.Hist Model.Cut Model.Fill.
Local Open Scope Qc_scope.
Local Open Scope res_scope.

(** CountingResult.h:11-36 *)
Record cresult := mkCr { crObs : Z; crEff : res Qc; crRates : list (res Qc); crErrs : list (res R); crNames : list string }.
Definition cr_new : cresult := mkCr (-1) (Ok (qz (-1))) [] [] [].
(** CountingExperiment.h:24-34; fSignalDataSet is uninitialised (None) until SetSignal *)
Record cexp := mkCe { ceCuts : list cut; ceSys : list evsys; ceBg : list (list event * Qc * string);
                      ceSig : option (list event); ceRes : cresult }.
Definition ce_new : cexp := mkCe [] [] [] None cr_new.
(** CountingExperiment.cpp:58-87 *)
Definition ce_addCut (s : cexp) (c : cut) : cexp := mkCe (ceCuts s ++ [c]) (ceSys s) (ceBg s) (ceSig s) (ceRes s).
Definition ce_addSys (s : cexp) (y : evsys) : cexp := mkCe (ceCuts s) (ceSys s ++ [y]) (ceBg s) (ceSig s) (ceRes s).
Definition ce_addBg (s : cexp) (data : list event) (rate : Qc) (n : string) : cexp :=
  mkCe (ceCuts s) (ceSys s) (ceBg s ++ [(data, rate, n)]) (ceSig s) (ceRes s).
Definition ce_setSignal (s : cexp) (data : list event) : cexp := mkCe (ceCuts s) (ceSys s) (ceBg s) (Some data) (ceRes s).
Definition ce_setRes (s : cexp) (r : cresult) : cexp := mkCe (ceCuts s) (ceSys s) (ceBg s) (ceSig s) r.

(** the loop of CountData, CountBackgrounds and CountSignal: how many events pass *)
Definition count_loop (s : cexp) (data : list event) : res Z :=
  rmap fst
    (foldM (fun (acc : Z * cutlog) i =>
              do e0 <- get_entry data i;
              do e <- esm_apply (ceSys s) e0;
              match passesCutsLog (ceCuts s) e (snd acc) with
              | (l, r) => do pass <- r; Ok (if pass then (fst acc + 1)%Z else fst acc, l)
              end)
           (seq 0 (List.length data)) (0%Z, mk_log (map cutName (ceCuts s)))).
(** CountingExperiment.cpp:8-20 CountData; 22-44 CountBackgrounds; 46-56 CountSignal *)
Definition ce_countData (s : cexp) (data : list event) : cexp * res unit :=
  obind s (count_loop s data) (fun n =>
    let r := ceRes s in (ce_setRes s (mkCr n (crEff r) (crRates r) (crErrs r) (crNames r)), Ok tt)).
Definition ce_countBgs (s : cexp) : cexp * res unit :=
  iterS (fun s (bg : list event * Qc * string) =>
           obind s (count_loop s (fst (fst bg))) (fun n =>
             let N := List.length (fst (fst bg)) in
             let norm := snd (fst bg) in
             let counts := qdiv (qz n * norm) (qn N) in
             let err := if Nat.eqb N 0 then NonFinite else Ok (sqrt (IZR n) * qr norm / INR N)%R in
             let r := ceRes s in
             (ce_setRes s (mkCr (crObs r) (crEff r) (crRates r ++ [counts]) (crErrs r ++ [err]) (crNames r ++ [snd bg])), Ok tt)))
        (ceBg s) s.
Definition ce_countSignal (s : cexp) : cexp * res unit :=
  match ceSig s with
  | None => (s, UB)
  | Some data =>
      obind s (count_loop s data) (fun n =>
        let r := ceRes s in
        (ce_setRes s (mkCr (crObs r) (qdiv (qz n) (qn (List.length data))) (crRates r) (crErrs r) (crNames r)), Ok tt))
  end.
(** CountingResult.cpp:33-47 GetExpectedCounts, GetExpectedCountError *)
Definition cr_expected (r : cresult) : res Qc := foldM (fun s x => rmap (fun v => s + v) x) (crRates r) 0.
Definition cr_error (r : cresult) : res R :=
  rmap sqrt (foldM (fun s x => rmap (fun v => s + v * v)%R x) (crErrs r) 0%R).
