(** C90: the likelihood is a function of its parameters. *)
From Coq Require Import ZArith Reals Lia.
From Verif Require Import Base.Res Base.Num Base.RNum Base.SMap Model.Axis Model.Event Model.Cut Model.Hist Model.ED Model.Param Model.Matrix Model.SystMan Model.Shrink Model.EDMan
  Model.Fill Model.Constraint Model.NLLH Spec.AxisSpec Spec.HistSpec Spec.ParamSpec Spec.EDManSpec Spec.SystManSpec Spec.NLLHSpec Spec.NLLHSysSpec
  Proofs.ParamP3 Proofs.NLLHP2 Proofs.NLLHS7.
Local Open Scope Qc_scope.
Local Open Scope res_scope.

Lemma pdfs_tuning ts : Forall tuning ts -> forall bb, pdfs_from bb ts = [].
Proof. induction 1 as [|o ts H _ IH]; intros bb; [reflexivity|]. destruct o; cbn in *; try contradiction; apply IH. Qed.
Lemma pdfs_app ops ts : Forall tuning ts -> forall bb, pdfs_from bb (ops ++ ts) = pdfs_from bb ops.
Proof.
  intros H. induction ops as [|o ops IH]; intros bb; [apply pdfs_tuning, H|]. destruct o as [b g [r|] st| | | | | | x | | | | | |]; cbn [app pdfs_from]; rewrite ?IH; auto.
Qed.
Lemma calls_tuning ts : Forall tuning ts -> forall bb, sys_calls bb ts = [].
Proof. induction 1 as [|o ts H _ IH]; intros bb; [reflexivity|]. destruct o; cbn in *; try contradiction; apply IH. Qed.
Lemma calls_app ops ts : Forall tuning ts -> forall bb, sys_calls bb (ops ++ ts) = sys_calls bb ops.
Proof.
  intros H. induction ops as [|o ops IH]; intros bb; [apply calls_tuning, H|]. destruct o as [b g [r|] st| | | | | | x | | | | | |]; cbn [app sys_calls]; rewrite ?IH; auto.
Qed.
Lemma fold_tuning {A} (f : A -> nlop -> A) ts : Forall tuning ts -> (forall a o, tuning o -> f a o = a) -> forall a, fold_left f ts a = a.
Proof. intros H E. induction H as [|o ts H _ IH]; intros a; [reflexivity|]. cbn [fold_left]. rewrite E by exact H. apply IH. Qed.
Lemma tuning_app ops ts : Forall tuning ts ->
  NLLHSpec.added (ops ++ ts) = NLLHSpec.added ops /\ (forall names, sys_accepted names (ops ++ ts) = sys_accepted names ops) /\
  data_in (ops ++ ts) = data_in ops /\ con_in (ops ++ ts) = con_in ops /\ bb_in (ops ++ ts) = bb_in ops /\ (registered ops -> registered (ops ++ ts)) /\
  forall obs, Forall (steady obs) ops -> Forall (steady obs) (ops ++ ts).
Proof.
  intros H. split; [unfold NLLHSpec.added; now rewrite pdfs_app|]. split; [intros names; unfold sys_accepted; now rewrite calls_app|].
  split; [unfold data_in; rewrite fold_left_app; apply fold_tuning; [exact H|]; now intros a []|].
  split; [unfold con_in; rewrite fold_left_app; apply fold_tuning; [exact H|]; now intros a []|].
  split; [unfold bb_in; rewrite fold_left_app; apply fold_tuning; [exact H|]; now intros a []|].
  split.
  - intros [o1 [o2 [-> F]]]. exists o1, (o2 ++ ts). split; [now rewrite <- app_assoc|]. apply Forall_app. split; [exact F|]. eapply Forall_impl; [|exact H]. now intros [].
  - intros obs F. apply Forall_app. split; [exact F|]. eapply Forall_impl; [|exact H]. now intros [].
Qed.

Lemma function_pkg names par build obs ops ts d D m m' : let pdfs := NLLHSpec.added ops in
  (forall q, comp_ok (par q) /\ ~ is_dict (par q)) -> (forall q c c', comp_ok c -> comp_ok c' -> same_params c c' -> build q c = build q c') ->
  Forall (steady obs) ops -> registered ops -> distinct_names names ops -> bb_in ops = false ->
  data_in ops = Some D -> h_reach (bdHist D) -> NoDup (fitted pdfs) -> direct_first pdfs -> covers D pdfs -> swf d ->
  (forall n, In n (fitted pdfs) -> has_key d n) -> (forall q n, is_sys names ops q -> In n (c_names (par q)) -> has_key d n) -> Forall tuning ts ->
  exists s1 s2, nl_setParams (nlrun (nl_new names par build) ops) d = (s1, Ok tt) /\ nl_setParams (nlrun (nl_new names par build) (ops ++ ts)) d = (s2, Ok tt) /\
    ((forall q, is_sys names ops q -> snd (build q (nlPar s1 q)) = Ok tt) -> fits names ops (fun q => fst (build q (nlPar s1 q))) pdfs ->
     let e1 := nlrun s1 (repeat NEval m) in let e2 := nlrun s2 (repeat NEval m') in
     nl_getParams e2 = nl_getParams e1 /\ snd (nl_eval e2) = snd (nl_eval e1)).
Proof.
  cbv zeta. intros Hpar HB F Hreg Hdn Hbb Hdat HD Hnd Hdf Hcov Wd Hk Hks Ht.
  destruct (tuning_app ops ts Ht) as [Ta [Ts [Td [Tc [Tb [Tr Tf]]]]]].
  assert (Gi : forall g, group_in names (ops ++ ts) g = group_in names ops g) by (intros g; unfold group_in; now rewrite Ts).
  assert (Is : forall q, is_sys names (ops ++ ts) q <-> is_sys names ops q) by (intros q; unfold is_sys; split; intros [g H]; exists g; [rewrite <- Gi|rewrite Gi]; exact H).
  assert (Ao : forall b, acting_on names (ops ++ ts) b = acting_on names ops b).
  { intros b. unfold acting_on. rewrite Ts. destruct (regd _ _) as [gs|]; [|reflexivity]. unfold acting. rewrite Gi. f_equal. apply flat_map_ext, Gi. }
  destruct (value_sys_tot names par build obs ops d D) as [s1 [p1 [E1 [O1 [Q1 V1]]]]]; auto.
  { intros q. apply Hpar. }
  { intros q n H _. apply Hks, H. }
  destruct (value_sys_tot names par build obs (ops ++ ts) d D) as [s2 [p2 [E2 [O2 [Q2 V2]]]]]; rewrite ?Ta, ?Tb, ?Td; auto.
  { intros q. apply Hpar. }
  { intros q q' H H'. apply Hdn; now apply Is. }
  { intros q n H _. apply Hks, Is, H. }
  cbv zeta in *. exists s1, s2. split; [exact E1|]. split; [exact E2|]. intros HB1 HF1.
  assert (Eb : forall q, is_sys names ops q -> build q (nlPar s2 q) = build q (nlPar s1 q)).
  { intros q Hq. destruct (O1 q) as [K1 N1]. destruct (O2 q) as [K2 N2]. destruct (Hpar q) as [_ Hd]. specialize (N1 Hd). specialize (N2 Hd).
    apply HB; auto. intros n. destruct (in_dec string_dec n (c_names (par q))) as [Hn|Hn].
    - destruct (Hks q n Hq Hn) as [v Hv]. rewrite (Q1 q n v Hq Hn Hv). apply (Q2 q n v); auto. now apply Is.
    - rewrite (proj2 (comp_get _ K1)) by now rewrite N1. apply (proj2 (comp_get _ K2)). now rewrite N2. }
  assert (HB2 : forall q, is_sys names (ops ++ ts) q -> snd (build q (nlPar s2 q)) = Ok tt) by (intros q H; apply Is in H; rewrite Eb by exact H; now apply HB1).
  destruct HF1 as [HF1 HF1'].
  assert (Ia : forall b q, In q (acting_on names ops b) -> is_sys names ops q).
  { intros b q. unfold acting_on. destruct (regd _ _) as [gs|]; [|intros []]. unfold acting. intros H. apply in_app_or in H as [H|H].
    - destruct (in_dec _ _ _) in H; [destruct H|]. eexists; exact H.
    - apply in_flat_map in H as [g [_ H]]. eexists; exact H. }
  assert (HF2 : fits names (ops ++ ts) (fun q => fst (build q (nlPar s2 q))) (NLLHSpec.added (ops ++ ts))).
  { split.
    - intros g. destruct (HF1 g) as [n Hn]. exists n. rewrite Gi. rewrite Forall_forall in Hn |- *. intros q H. rewrite Eb by (exists g; exact H). now apply Hn.
    - intros p Hp. rewrite Ta in Hp. specialize (HF1' p Hp). rewrite Ao. rewrite Forall_forall in HF1' |- *. intros q H. rewrite Eb by (eapply Ia; exact H). now apply HF1'. }
  destruct (V1 HB1 (conj HF1 HF1') m) as [G1 [W1 [A1 [B1 X1]]]]. destruct (V2 HB2 HF2 m') as [G2 [W2 [A2 [B2 X2]]]].
  assert (Ep : p2 = p1).
  { assert (Hnd1 : forall q, is_sys names ops q -> ~ is_dict (par q)) by (intros q _; apply Hpar).
    assert (Hnd2 : forall q, is_sys names (ops ++ ts) q -> ~ is_dict (par q)) by (intros q _; apply Hpar).
    apply swf_ext; auto. intros n. destruct (sfind n p2) as [v|] eqn:Ev.
    - destruct (B2 Hnd2 n v Ev) as [Hv H]. symmetry. apply A1; [exact Hv|]. rewrite Ta in H. destruct H as [H|[q [H H']]]; [now left|right]. exists q. split; [now apply Is|exact H'].
    - destruct (sfind n p1) as [v|] eqn:Ev'; [|reflexivity]. destruct (B1 Hnd1 n v Ev') as [Hv H]. rewrite (A2 n v) in Ev; [discriminate|exact Hv|].
      rewrite Ta. destruct H as [H|[q [H H']]]; [now left|right]. exists q. split; [now apply Is|exact H']. }
  split; [now rewrite G1, G2, Ep|]. rewrite X1, X2, Ep, Tc, Ta. f_equal. apply FunctionalExtensionality.functional_extensionality. intros k.
  unfold expected_sys. f_equal. apply map_ext. intros b. f_equal. f_equal. unfold responded. rewrite Ao. f_equal. apply map_ext_in. intros q H. rewrite Eb; [reflexivity|]. eapply Ia; exact H.
Qed.
