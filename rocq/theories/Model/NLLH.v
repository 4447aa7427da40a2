(** Model of /repo/src/teststat/BinnedNLLH.{h,cpp} on top of TestStatistic.{h,cpp}.
    Simplifications: rational quantities are exact rationals and the likelihood, which needs log and sqrt,
    is an exact real; an infinite or NaN likelihood is NonFinite (it never stops the C++ loop, so a later
    bin or constraint can still throw); a Systematic's parameters are a component [nlPar p] and what its
    Construct() does is a function [nlBuild p] of them; debug printing is dropped. *)
From Coq Require Import ZArith Reals.
From Verif Require Import Base.Res Base.Num Base.RNum Base.SMap Model.Axis Model.Event Model.Cut Model.Hist Model.ED
  Model.Param Model.Matrix Model.SystMan Model.Shrink Model.EDMan Model.Fill Model.Constraint.
Local Open Scope Qc_scope.
Local Open Scope res_scope.

(** what a ComponentManager entry points to *)
Inductive cref := RPdfs | RSys (p : nat).

(** BinnedNLLH.h:52-60, TestStatistic.h:74-86.  BinnedNLLH::fCalculatedDataDist shadows the one of
    TestStatistic and is never used. *)
Record nllh := mkNl {
  nlPm : edman; nlSh : shrinker; nlData : bed; nlShrunk : bool; nlGen : list Z; nlBB : bool;
  nlSm : sman; nlCm : cman; nlReg : list cref; nlCalc : bool; nlSet : option (list event); nlCuts : list cut;
  nlLog : cutlog; nlPar : nat -> comp; nlBuild : nat -> comp -> smat * res unit }.
Definition nl_withPm (s : nllh) (p : edman) : nllh :=
  mkNl p (nlSh s) (nlData s) (nlShrunk s) (nlGen s) (nlBB s) (nlSm s) (nlCm s) (nlReg s) (nlCalc s) (nlSet s) (nlCuts s) (nlLog s) (nlPar s) (nlBuild s).
Definition nl_withSh (s : nllh) (x : shrinker) : nllh :=
  mkNl (nlPm s) x (nlData s) (nlShrunk s) (nlGen s) (nlBB s) (nlSm s) (nlCm s) (nlReg s) (nlCalc s) (nlSet s) (nlCuts s) (nlLog s) (nlPar s) (nlBuild s).
Definition nl_withSm (s : nllh) (m : sman) : nllh :=
  mkNl (nlPm s) (nlSh s) (nlData s) (nlShrunk s) (nlGen s) (nlBB s) m (nlCm s) (nlReg s) (nlCalc s) (nlSet s) (nlCuts s) (nlLog s) (nlPar s) (nlBuild s).
Definition nl_withCm (s : nllh) (m : cman) : nllh :=
  mkNl (nlPm s) (nlSh s) (nlData s) (nlShrunk s) (nlGen s) (nlBB s) (nlSm s) m (nlReg s) (nlCalc s) (nlSet s) (nlCuts s) (nlLog s) (nlPar s) (nlBuild s).
Definition nl_withGen (s : nllh) (g : list Z) : nllh :=
  mkNl (nlPm s) (nlSh s) (nlData s) (nlShrunk s) g (nlBB s) (nlSm s) (nlCm s) (nlReg s) (nlCalc s) (nlSet s) (nlCuts s) (nlLog s) (nlPar s) (nlBuild s).
Definition nl_withReg (s : nllh) (l : list cref) : nllh :=
  mkNl (nlPm s) (nlSh s) (nlData s) (nlShrunk s) (nlGen s) (nlBB s) (nlSm s) (nlCm s) l (nlCalc s) (nlSet s) (nlCuts s) (nlLog s) (nlPar s) (nlBuild s).
Definition nl_withData (s : nllh) (b : bed) (calc : bool) : nllh :=
  mkNl (nlPm s) (nlSh s) b (nlShrunk s) (nlGen s) (nlBB s) (nlSm s) (nlCm s) (nlReg s) calc (nlSet s) (nlCuts s) (nlLog s) (nlPar s) (nlBuild s).
Definition nl_withShrunk (s : nllh) (x : shrinker) (b : bed) : nllh :=
  mkNl (nlPm s) x b true (nlGen s) (nlBB s) (nlSm s) (nlCm s) (nlReg s) (nlCalc s) (nlSet s) (nlCuts s) (nlLog s) (nlPar s) (nlBuild s).
Definition nl_withLog (s : nllh) (l : cutlog) : nllh :=
  mkNl (nlPm s) (nlSh s) (nlData s) (nlShrunk s) (nlGen s) (nlBB s) (nlSm s) (nlCm s) (nlReg s) (nlCalc s) (nlSet s) (nlCuts s) l (nlPar s) (nlBuild s).
Definition nl_withPar (s : nllh) (f : nat -> comp) : nllh :=
  mkNl (nlPm s) (nlSh s) (nlData s) (nlShrunk s) (nlGen s) (nlBB s) (nlSm s) (nlCm s) (nlReg s) (nlCalc s) (nlSet s) (nlCuts s) (nlLog s) f (nlBuild s).

(** BinnedNLLH.h:15 and TestStatistic.h:26 constructors; fUseBarlowBeeston = false (h:59) *)
Definition nl_new (names : nat -> string) (par : nat -> comp) (build : nat -> comp -> smat * res unit) : nllh :=
  mkNl em_new sh_new bed0 false [] false (sm_new (fun p => mkSyst (names p) (mat_empty) (build p (par p)))) cman_new []
       false None [] (mk_log []) par build.

(** BinnedNLLH.cpp:238-246, 265-274 AddPdf with systematic groups; 248-263 without ("" only).  The pdf is
    in the pdf manager even when AddDist then throws.  [None] = no generated rate given. *)
Definition nl_addPdf (s : nllh) (b : bed) (groups : list string) (rate : option Z) (st : nfs) : nllh * res unit :=
  if (match rate with None => nlBB s | Some _ => false end) then (s, Throw OXSXException)
  else
    match em_addPdf (nlPm s) b st with
    | (p, r) =>
        let s1 := nl_withPm s p in
        obind s1 r (fun _ =>
        match sm_addDist (nlSm s1) (bdName b) groups with
        | (m, r1) =>
            let s2 := nl_withSm s1 m in
            obind s2 r1 (fun _ =>
              match rate with None => (s2, Ok tt) | Some g => (nl_withGen s2 (nlGen s2 ++ [u32 g]), Ok tt) end)
        end)
    end.
(** BinnedNLLH.cpp:276-280 SetDataDist; TestStatistic.cpp SetDataSet, AddCut, SetCuts *)
Definition nl_setData (s : nllh) (b : bed) : nllh := nl_withData s b true.
Definition nl_setSet (s : nllh) (d : option (list event)) : nllh :=
  mkNl (nlPm s) (nlSh s) (nlData s) (nlShrunk s) (nlGen s) (nlBB s) (nlSm s) (nlCm s) (nlReg s) false d (nlCuts s) (nlLog s) (nlPar s) (nlBuild s).
Definition nl_setCuts (s : nllh) (cs : list cut) : nllh :=
  mkNl (nlPm s) (nlSh s) (nlData s) (nlShrunk s) (nlGen s) (nlBB s) (nlSm s) (nlCm s) (nlReg s) (nlCalc s) (nlSet s) cs (nlLog s) (nlPar s) (nlBuild s).
(** BinnedNLLH.cpp:288-291 SetBarlowBeeston *)
Definition nl_setBB (s : nllh) (b : bool) : nllh :=
  mkNl (nlPm s) (nlSh s) (nlData s) (nlShrunk s) (nlGen s) b (nlSm s) (nlCm s) (nlReg s) (nlCalc s) (nlSet s) (nlCuts s) (nlLog s) (nlPar s) (nlBuild s).
(** BinnedNLLH.cpp:293-312 SetBuffer, SetBufferAsOverflow *)
Definition nl_setBuffer (s : nllh) (n : string) (lo up : Z) : nllh := nl_withSh s (sh_setBuffer (nlSh s) n lo up).
Definition nl_setOver (s : nllh) (b : bool) : nllh := nl_withSh s (sh_setOver (nlSh s) b).
(** BinnedNLLH.cpp:136-139 SetNormalisations *)
Definition nl_setNorms (s : nllh) (l : list Qc) : nllh * res unit :=
  match em_setNorms (nlPm s) l with (p, r) => (nl_withPm s p, r) end.
(** TestStatistic.cpp:50-58 AddSystematic *)
Definition nl_addSys (s : nllh) (p : nat) (g : string) : nllh * res unit :=
  match sm_add (nlSm s) p g with (m, r) => (nl_withSm s m, r) end.

(** BinnedNLLH.cpp:317-336 RegisterFitComponents: the groups in key order, one component per name *)
Definition nl_sysRefs (m : sman) : list cref :=
  fst (fold_left (fun (st : list cref * list string) p =>
         let n := syName (smObj m p) in
         if inb n (snd st) then st else (fst st ++ [RSys p], snd st ++ [n]))
       (List.concat (map snd (smGroups m))) ([], [])).
Definition nl_register (s : nllh) : nllh := nl_withReg s (RPdfs :: nl_sysRefs (nlSm s)).
Definition nl_comp (s : nllh) (c : cref) : comp :=
  match c with RPdfs => CPm (emPm (nlPm s)) | RSys p => nlPar s p end.
Definition nl_putComp (s : nllh) (rc : cref * comp) : nllh :=
  match rc with
  | (RPdfs, CPm p) => nl_withPm s (em_withPm (nlPm s) p)
  | (RPdfs, _) => s
  | (RSys p, c) =>
      let o := smObj (nlSm s) p in
      nl_withPar (nl_withSm s (sm_setObj (nlSm s) p (mkSyst (syName o) (syResp o) (nlBuild s p c))))
                 (fun q => if Nat.eqb q p then c else nlPar s q)
  end.
(** BinnedNLLH.cpp:338-348 SetParameters (a ParameterError is rethrown as a ParameterError), 350-354 *)
Definition nl_setParams (s : nllh) (d : smap Qc) : nllh * res unit :=
  match cm_setAll (map (nl_comp s) (nlReg s)) d with
  | (cs, r) => (fold_left nl_putComp (combine (nlReg s) cs) s, r)
  end.
Definition nl_getParams (s : nllh) : res (smap Qc) := cm_getAll (map (nl_comp s) (nlReg s)).

(** BinnedNLLH.cpp:126-134 BinData *)
Definition nl_binData (s : nllh) : nllh * res unit :=
  obind s (vat (emOrig (nlPm s)) 0) (fun o =>
  match bed_empty o with
  | (b0, r) =>
      let s1 := nl_withData s b0 (nlCalc s) in
      obind s1 r (fun _ =>
      match nlSet s with
      | None => (s1, UB)
      | Some data =>
          match fill_distLog b0 data (nlCuts s) (mk_log (map cutName (nlCuts s))) [] (-1)%Z with
          | ((b1, log), r1) =>
              let s2 := nl_withData s1 b1 (nlCalc s) in
              obind s2 r1 (fun _ => (nl_withLog (nl_withData s2 b1 true) log, Ok tt))
          end
      end)
  end).

(** lifting a call on the pdf manager *)
Definition nl_onPm (s : nllh) (f : edman -> edman * res unit) : nllh * res unit :=
  match f (nlPm s) with (p, r) => (nl_withPm s p, r) end.
Definition chain {A} (x : A * res unit) (f : A -> A * res unit) : A * res unit :=
  match x with (s, Ok _) => f s | _ => x end.

(** BinnedNLLH.cpp:15-36: everything before the loop over the bins, in order *)
Definition nl_needData (s : nllh) : nllh * res unit :=
  if negb (nlCalc s) then match nlSet s with None => (s, Throw LogicError) | Some _ => nl_binData s end
  else (s, Ok tt).
Definition nl_shrinkData (s : nllh) : nllh * res unit :=
  if nlShrunk s then (s, Ok tt)
  else match sh_setBinMap (nlSh s) (nlData s) with
       | (x, r) => let s1 := nl_withSh s x in
           obind s1 r (fun _ =>
           obind s1 (sh_shrink x (nlData s)) (fun b => (nl_withShrunk s1 x b, Ok tt)))
       end.
Definition nl_construct (s : nllh) : nllh * res unit :=
  match sm_construct (nlSm s) with (m, r) => (nl_withSm s m, r) end.
Definition nl_prepare (s : nllh) : nllh * res unit :=
  chain (chain (chain (chain (chain (chain (nl_needData s)
    (fun s => nl_onPm s (em_reassert false)))
    nl_shrinkData)
    nl_construct)
    (fun s => nl_onPm s (fun p => em_systematics p (nlSm s))))
    (fun s => nl_onPm s (fun p => em_dimensions p (osNames (bdObs (nlData s))))))
    (fun s => nl_onPm s (fun p => em_shrink p (nlSh s))).

(** sum of the terms of a double accumulator *)
Definition rlift2 {A} (f : A -> A -> A) (x y : res A) : res A :=
  match x, y with Ok a, Ok b => Ok (f a b) | _, _ => NonFinite end.

(** BinnedNLLH.cpp:72-74: sigma2; a rate of 0 makes it infinite or NaN *)
Definition bb_sigma2 (norms : list Qc) (gen : list Z) (prob : Qc) : res (res Qc) :=
  foldM (fun acc j => do n <- vat norms j; do g <- vat gen j;
                      Ok (rlift2 Qcplus acc (qdiv n (qz g * prob * prob))))
        (seq 0 (List.length norms)) (Ok 0).
(** BinnedNLLH.cpp:88-94: the scale from sigma2, the data content and the expectation.  0 / 0 is NaN *)
Definition bb_beta (s2 n mu : Qc) : res R :=
  let b := (qr mu * qr s2 - 1)%R in
  let det := (b * b + 4 * qr n * qr s2)%R in
  let sign := if Rle_dec 0 b then 1%R else (-1)%R in
  let q := (- (1 / 2) * (b + sign * sqrt det))%R in
  if Req_EM_T q 0 then NonFinite
  else let x2 := (qr n * qr s2 / q)%R in Ok (if Rlt_dec x2 q then q else x2).
(** BinnedNLLH.cpp:97-109: log of a number that is not positive is not finite *)
Definition poisson_term (n : Qc) (newProb penalty : R) : res R :=
  if Rlt_dec 0 newProb then Ok (- qr n * ln newProb + penalty + newProb)%R else NonFinite.
Definition bb_term (s2 n mu : Qc) : res R :=
  match bb_beta s2 n mu with
  | Ok beta => if Req_EM_T (qr s2) 0 then NonFinite
               else poisson_term n (beta * qr mu)%R ((beta - 1) * (beta - 1) / (2 * qr s2))%R
  | _ => NonFinite
  end.
(** BinnedNLLH.cpp:45-109: the contribution of bin i *)
Definition nl_bin (s : nllh) (i : nat) : nllh * res (res R) :=
  match em_binProb (nlPm s) i with
  | (p, r) =>
      let s1 := nl_withPm s p in
      (s1,
       do mu <- r;
       if qeqb mu 0 then Throw std_runtime_error
       else
         do n <- getBinContent (bdHist (nlData s)) i;
         if nlBB s then
           do s2 <- bb_sigma2 (emNorms p) (nlGen s) mu;
           match s2 with
           | Ok x => let b := mu * x - 1 in
                     if qltb (b * b + qz 4 * n * x) 0 then Throw OXSXException else Ok (bb_term x n mu)
           | _ => Ok NonFinite
           end
         else Ok (poisson_term n (qr mu) 0%R))
  end.
Fixpoint nl_loop (s : nllh) (bins : list nat) (acc : res R) : nllh * res (res R) :=
  match bins with
  | [] => (s, Ok acc)
  | i :: t =>
      match nl_bin s i with
      | (s1, Ok x) => nl_loop s1 t (rlift2 Rplus acc x)
      | (s1, Throw e) => (s1, Throw e)
      | (s1, UB) => (s1, UB) | (s1, NonFinite) => (s1, NonFinite) | (s1, Diverge) => (s1, Diverge)
      end
  end.
(** BinnedNLLH.cpp:12-124 Evaluate *)
Definition nl_eval (s : nllh) : nllh * res R :=
  match nl_prepare s with
  | (s1, Ok _) =>
      match nl_loop s1 (seq 0 (hNBins (bdHist (nlData s1)))) (Ok 0%R) with
      | (s2, Ok acc) =>
          (s2, do d <- nl_getParams s2;
               match cman_eval (nlCm s2) d with
               | Ok c => rlift2 Rplus acc (Ok (qr c))
               | NonFinite => NonFinite
               | Throw e => Throw e | UB => UB | Diverge => Diverge
               end)
      | (s2, Throw e) => (s2, Throw e)
      | (s2, UB) => (s2, UB) | (s2, NonFinite) => (s2, NonFinite) | (s2, Diverge) => (s2, Diverge)
      end
  | (s1, Throw e) => (s1, Throw e)
  | (s1, UB) => (s1, UB) | (s1, NonFinite) => (s1, NonFinite) | (s1, Diverge) => (s1, Diverge)
  end.
