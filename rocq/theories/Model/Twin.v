(** Model of copying a BinnedNLLH.  Neither BinnedNLLH (/repo/src/teststat/BinnedNLLH.h:12-61) nor TestStatistic (TestStatistic.h:23-90) declares a
    copy constructor, so the implicit one copies every member: the ComponentManager's pointers (ComponentManager.h:24) still refer to the pdf
    manager of the original, BinnedEDManager's (BinnedEDManager.h:22-78) copies the vectors but its ParameterManager's (ParameterManager.h:18)
    copies nothing, and both statistics hold pointers to the same Systematic objects (SystematicManager.h:64). *)
From Coq Require Import ZArith Reals.
From Verif Require Import Base.Res Base.Num Base.RNum Base.SMap Model.Axis Model.Event Model.Cut Model.Hist Model.ED
  Model.Param Model.Matrix Model.SystMan Model.Shrink Model.EDMan Model.Fill Model.Constraint Model.NLLH.
Local Open Scope Qc_scope.
Local Open Scope res_scope.

(** BinnedEDManager.h:22-78, ParameterManager.h:18 *)
Definition em_copy (m : edman) : edman := mkEm (pm_copy (emPm m)) (emOrig m) (emWork m) (emStat m) (emAllDir m).
Definition nl_copy (s : nllh) : nllh := nl_withPm s (em_copy (nlPm s)).
(** the original (None: destroyed), its copy, and whether the copy has registered its own fit components since *)
Record twin := mkTwin { twA : option nllh; twB : nllh; twOwn : bool }.
Definition tw_copy (s : nllh) : twin := mkTwin (Some s) (nl_copy s) false.
(** the Systematic objects, with their parameters and responses, are the same for both *)
Definition nl_share (from to : nllh) : nllh :=
  nl_withPar (nl_withSm to (mkSman (smObj (nlSm from)) (smNGroups (nlSm to)) (smTotal (nlSm to)) (smGroups (nlSm to)) (smDists (nlSm to)))) (nlPar from).
(** what an entry of the copy's ComponentManager points to; reading a destroyed pdf manager is undefined *)
Definition tw_comp (w : twin) (c : cref) : res comp :=
  match c with
  | RPdfs => if twOwn w then Ok (nl_comp (twB w) RPdfs) else match twA w with Some a => Ok (nl_comp a RPdfs) | None => UB end
  | RSys p => Ok (nlPar (twB w) p)
  end.
Definition tw_put (w : twin) (rc : cref * comp) : twin :=
  match fst rc with
  | RPdfs => if twOwn w then mkTwin (twA w) (nl_putComp (twB w) rc) true else mkTwin (option_map (fun a => nl_putComp a rc) (twA w)) (twB w) false
  | RSys p => mkTwin (option_map (fun a => nl_putComp a rc) (twA w)) (nl_putComp (twB w) rc) (twOwn w)
  end.
(** BinnedNLLH.cpp:338-354 GetParameters and SetParameters of the copy *)
Definition tw_getB (w : twin) : res (smap Qc) := do cs <- mapM (tw_comp w) (nlReg (twB w)); cm_getAll cs.
Definition tw_setB (w : twin) (d : smap Qc) : twin * res unit :=
  obind w (mapM (tw_comp w) (nlReg (twB w))) (fun cs =>
    match cm_setAll cs d with (cs', r) => (fold_left tw_put (combine (nlReg (twB w)) cs') w, r) end).
(** BinnedNLLH.cpp:317-336 RegisterFitComponents of the copy *)
Definition tw_regB (w : twin) : twin := mkTwin (twA w) (nl_register (twB w)) true.
(** BinnedNLLH.cpp:12-124 Evaluate, the parameters given to the constraints (line 116) being read with [get] *)
Definition nl_evalG (get : nllh -> res (smap Qc)) (s : nllh) : nllh * res R :=
  match nl_prepare s with
  | (s1, Ok _) =>
      match nl_loop s1 (seq 0 (hNBins (bdHist (nlData s1)))) (Ok 0%R) with
      | (s2, Ok acc) =>
          (s2, do d <- get s2;
               match cman_eval (nlCm s2) d with
               | Ok c => rlift2 Rplus acc (Ok (qr c))
               | NonFinite => NonFinite
               | Throw e => Throw e | UB => UB | Diverge => Diverge
               end)
      | (s2, Throw e) => (s2, Throw e)
      | (s2, UB) => (s2, UB) | (s2, NonFinite) => (s2, NonFinite) | (s2, Diverge) => (s2, Diverge)
      end
  | (s1, Throw e) => (s1, Throw e)
  | (s1, UB) => (s1, UB) | (s1, NonFinite) => (s1, NonFinite) | (s1, Diverge) => (s1, Diverge)
  end.
Definition tw_evalB (w : twin) : twin * res R :=
  match nl_evalG (fun b => tw_getB (mkTwin (twA w) b (twOwn w))) (twB w) with
  | (b, r) => (mkTwin (option_map (nl_share b) (twA w)) b (twOwn w), r)
  end.
(** BinnedNLLH.cpp:12-124 Evaluate of the original: it constructs the shared systematics *)
Definition tw_evalA (w : twin) : twin * res R :=
  match twA w with
  | None => (w, UB)
  | Some a => match nl_eval a with (a1, r) => (mkTwin (Some a1) (nl_share a1 (twB w)) (twOwn w), r) end
  end.
(** the original is destroyed *)
Definition tw_gone (w : twin) : twin := mkTwin None (twB w) (twOwn w).
