(** Copies of a statistic: C94. *)
From Coq Require Import ZArith Reals Lia.
From Verif Require Import Base.Res Base.Num Base.RNum Base.SMap Model.Axis Model.Event Model.Cut Model.Hist Model.ED Model.Param
  Model.Matrix Model.SystMan Model.Shrink Model.EDMan Model.Fill Model.Constraint Model.NLLH Model.Twin Spec.AxisSpec Spec.HistSpec Spec.NLLHSpec
  Proofs.TwinP2 Proofs.TwinP3 Props.AxisProps Props.HistProps Props.SystManProps Props.NLLHProps Props.NLLHSysProps.
Local Open Scope Qc_scope.

(** C94.  A copy of a statistic evaluates to what the original evaluates to, and reports its parameters, *)
Theorem C94_same_value_partial : forall names par build ops, let s := nlrun (nl_new names par build) ops in
  snd (tw_evalB (tw_copy s)) = snd (nl_eval s) /\ tw_getB (tw_copy s) = nl_getParams s.
Proof. exact twin_value_pkg. Qed.
Print Assumptions C94_same_value_partial.
(** whichever of the two is evaluated first. *)
Theorem C94_evaluate_both_partial : forall names par build ops, let s := nlrun (nl_new names par build) ops in
  snd (tw_evalA (fst (tw_evalB (tw_copy s)))) = snd (nl_eval s) /\ snd (tw_evalB (fst (tw_evalA (tw_copy s)))) = snd (nl_eval s).
Proof. exact twin_indep_pkg. Qed.
Print Assumptions C94_evaluate_both_partial.
(** The two cannot be fitted independently: setting the parameters of the copy sets those of the original, with the same
    outcome, and leaves the normalisations of the copy alone, *)
Theorem C94_set_refuted : forall s d, let w := fst (tw_setB (tw_copy s) d) in
  snd (tw_setB (tw_copy s) d) = snd (nl_setParams s d) /\ twA w = Some (fst (nl_setParams s d)) /\ nlPm (twB w) = nlPm (nl_copy s).
Proof. exact setB_copy. Qed.
Print Assumptions C94_set_refuted.
(** so that without systematics and constraints the value of the copy never follows its parameters; *)
Theorem C94_stale_refuted : forall names par build ops d x p, let s := nlrun (nl_new names par build) ops in let w := fst (tw_setB (tw_copy s) d) in
  nlReg s = [RPdfs] -> nlCm s = cman_new -> snd (nl_eval s) = Ok x -> tw_getB w = Ok p -> snd (tw_evalB w) = Ok x.
Proof. exact twin_stale_pkg. Qed.
Print Assumptions C94_stale_refuted.
(** registering the components again leaves the copy with the parameters of its systematics only, *)
Theorem C94_register_refuted : forall s, tw_getB (tw_regB (tw_copy s)) = cm_getAll (map (nl_comp s) (nl_sysRefs (nlSm s))) /\
  (sm_count (nlSm s) = 0%nat -> tw_getB (tw_regB (tw_copy s)) = Ok []).
Proof. exact twin_reg_pkg. Qed.
Print Assumptions C94_register_refuted.
(** and once the original is gone the copy has no defined parameters or value. *)
Theorem C94_gone_refuted : forall names par build ops d x, In NReg ops -> let s := nlrun (nl_new names par build) ops in let w := tw_gone (tw_copy s) in
  tw_getB w = UB /\ snd (tw_setB w d) = UB /\ (snd (nl_eval s) = Ok x -> snd (tw_evalB w) = UB).
Proof. exact twin_gone_pkg. Qed.
Print Assumptions C94_gone_refuted.

(** a pdf of four equal bins fitted to a histogram: a finite value, parameters the copy reports, sets in the original and does not see *)
Definition ex_tops := [NAdd ex_p1 [EmptyString] None NIndirect; NData ex_d1; NReg; NPars (sof [("a"%string, qz 2)])].
Definition ex_ts := nlrun ex_nl ex_tops.
Definition ex_td := sof [("a"%string, qz 5)].
Lemma ex_p1_reach : h_reach (bdHist ex_p1) /\ h_reach (bdHist ex_d1).
Proof. split; (apply hr_setBins, hr_new; [apply ar_adds; [constructor|repeat constructor; apply ex_axis_built; lia]|discriminate]). Qed.
Lemma ex_tval : exists x, snd (nl_eval ex_ts) = Ok x.
Proof.
  destruct ex_p1_reach as [R1 R2]. pose proof (C31_value (fun _ => "s"%string) (fun _ => CPm (pm_new (mkMem (fun _ => 0) (fun _ => [])))) (fun _ _ => (mat_empty, Ok tt)) ["x"%string] (firstn 3 ex_tops) (sof [("a"%string, qz 2)]) ex_d1 0) as H. cbv zeta in H.
  change (added (firstn 3 ex_tops)) with [(ex_p1, NIndirect)] in H.
  destruct H as [s [p [E [_ [_ [_ V]]]]]].
  - repeat (apply Forall_cons; [cbn; auto|]). constructor.
  - cbn. tauto.
  - reflexivity.
  - reflexivity.
  - exact R2.
  - repeat constructor; cbn; intuition.
  - intros i j bi bj. destruct j as [|[|j]]; cbn [nth_error]; intros; discriminate.
  - apply Forall_cons; [|constructor]. split; [exact R1|cbn; lia].
  - intros n [<-|[]]. eexists; reflexivity.
  - exists (rsum (map (fun k => poisson_nll (qr (cont (bdHist ex_d1) k)) (qr (expected (sof [("a"%string, qz 2)]) [(ex_p1, NIndirect)] k))) (seq 0 (hNBins (bdHist ex_d1)))) + qr 0)%R.
    cbn [repeat nlrun fold_left] in V. replace ex_ts with s; [apply V|].
    + apply below. repeat (apply Forall_cons; [vm_compute; reflexivity|]). constructor.
    + vm_compute. reflexivity.
    + change ex_ts with (fst (nl_setParams (nlrun ex_nl (firstn 3 ex_tops)) (sof [("a"%string, qz 2)]))). unfold ex_nl. rewrite E. reflexivity.
Qed.
Example C94_nonvacuous : In NReg ex_tops /\ nlReg ex_ts = [RPdfs] /\ nlCm ex_ts = cman_new /\ sm_count (nlSm ex_ts) = 0%nat /\ (exists x, snd (nl_eval ex_ts) = Ok x) /\
  tw_getB (tw_copy ex_ts) = Ok [("a"%string, qz 2)] /\
  (let w := fst (tw_setB (tw_copy ex_ts) ex_td) in tw_getB w = Ok [("a"%string, qz 5)] /\ option_map nl_getParams (twA w) = Some (Ok [("a"%string, qz 5)])).
Proof.
  split; [cbn; tauto|]. split; [reflexivity|]. split; [reflexivity|]. split; [reflexivity|]. split; [exact ex_tval|]. split; [vm_compute; reflexivity|]. split; vm_compute; reflexivity.
Qed.
(** two shared systematics, evaluated in either order *)
Example C94_nonvacuous_systematics : let s := nlrun (nl_new ex_sn ex_sp ex_sb) ex_sops in sm_count (nlSm s) <> 0%nat /\ nl_sysRefs (nlSm s) <> [] /\
  tw_getB (tw_regB (tw_copy s)) <> Ok [].
Proof. split; [vm_compute; discriminate|]. split; vm_compute; discriminate. Qed.
