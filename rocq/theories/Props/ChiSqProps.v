(** C111: the chi-squared statistic. *)
From Coq Require Import ZArith.
From Verif Require Import Base.Res Base.Num Base.SMap Model.Axis Model.Event Model.Cut Model.Hist Model.ED Model.Param Model.Matrix Model.SystMan
  Model.Constraint Model.Grid Model.ChiSq Spec.ChiSqSpec Proofs.ChiSqP.
Local Open Scope Qc_scope.

(** C111.  The English claim, that Evaluate gives the sum over the bins of (data - expected)^2 / expected, never holds: whatever public
    calls a program makes, and whatever they were given, Evaluate throws std::out_of_range and changes nothing. *)
Theorem C111_value_refuted : forall obj par calls, cs_eval (program obj par calls) = (program obj par calls, Throw std_out_of_range).
Proof. exact never_pkg. Qed.
Print Assumptions C111_value_refuted.

(** what the statistic tells an optimiser: it has no parameters, and any dictionary is accepted without effect, even after systematics
    with parameters were added and RegisterFitComponents was called *)
Theorem C111_parameters_refuted : forall obj par calls d, let s := program obj par calls in
  cs_getParams s = Ok [] /\ cs_names s = Ok [] /\ cs_count s = Ok 0%nat /\ cs_setParams s d = (s, Ok tt).
Proof. exact params_pkg. Qed.
Print Assumptions C111_parameters_refuted.

(** GetDataSet gives the data set given last (before that, reading it is undefined); a data set given through the base class is kept
    apart and does not reach it *)
Theorem C111_data : forall obj par calls,
  cs_getSet (program obj par calls) = match given calls with None => UB | Some d => Ok d end /\
  tsSet (csBase (program obj par calls)) = base_given calls.
Proof. exact data_pkg. Qed.
Print Assumptions C111_data.

(** the managers a program sees (GetSystematicManager, GetCuts) hold exactly what it added; Evaluate does not use them *)
Theorem C111_kept : forall obj par calls,
  tsSm (csBase (program obj par calls)) = fold_left (fun m c => sys_calls c m) calls (sm_new obj) /\
  tsCuts (csBase (program obj par calls)) = fold_left (fun l c => cut_calls c l) calls [].
Proof. exact kept_pkg. Qed.
Print Assumptions C111_kept.

(** no grid search over it evaluates a single point *)
Theorem C111_grid_refuted : forall obj par calls g fuel r, let s := program obj par calls in
  gOptimise g (fun p => snd (cs_eval (fst (cs_setParams s p)))) fuel = Ok r -> grSeen r = [] /\ grBest r = [].
Proof. exact grid_pkg. Qed.
Print Assumptions C111_grid_refuted.

(** a program that adds a systematic with a parameter (it is accepted), gives two events and registers the components *)
Definition ex_sys : nat -> syst := fun _ => mkSyst "shift"%string mat_empty (mat_empty, Ok tt).
Definition ex_comp : nat -> comp := fun _ => CSingle "shift"%string (qz 2).
Definition ex_events : list event := [mk_event [qz 1]; mk_event [qz 2]].
Definition ex_calls : list cscall := [XSys 7 ""%string; XBaseData (Some []); XData (Some ex_events); XRegister; XParams [("shift"%string, qz 1)]; XEvaluate; XRegister].
Example C111_nonvacuous :
  smGroups (tsSm (csBase (program ex_sys ex_comp ex_calls))) = [(""%string, [7%nat])] /\
  cs_getSet (program ex_sys ex_comp ex_calls) = Ok (Some ex_events) /\
  tsSet (csBase (program ex_sys ex_comp ex_calls)) = Some [] /\
  List.length (csReg (program ex_sys ex_comp ex_calls)) = 2%nat /\
  gOptimise (mkGrid [("a"%string, qz 0)] [("a"%string, qz 2)] [("a"%string, qz 1)] false)
    (fun p => snd (cs_eval (fst (cs_setParams (program ex_sys ex_comp ex_calls) p)))) 9 = Throw std_out_of_range /\
  (exists r, gOptimise (mkGrid [("a"%string, qz 2)] [("a"%string, qz 2)] [("a"%string, qz 1)] false)
    (fun p => snd (cs_eval (fst (cs_setParams (program ex_sys ex_comp ex_calls) p)))) 9 = Ok r).
Proof. repeat split; try (vm_compute; reflexivity). eexists. vm_compute. reflexivity. Qed.
