(** C107: two configurations that mean the same cannot be told apart. *)
From Coq Require Import ZArith Reals Lia Permutation FunctionalExtensionality.
From Verif Require Import Base.Res Base.Num Base.RNum Base.SMap Model.Axis Model.Event Model.Cut Model.Hist Model.ED Model.Param Model.Matrix Model.SystMan Model.Shrink Model.EDMan
  Model.Fill Model.Constraint Model.NLLH Spec.AxisSpec Spec.HistSpec Spec.ParamSpec Spec.EDManSpec Spec.SystManSpec Spec.NLLHSpec Spec.NLLHSysSpec Spec.FitSpec Spec.AsimovSpec Spec.ClientSpec Spec.OrderSpec
  Proofs.ParamP3 Proofs.NLLHP2 Proofs.NLLHS7 Proofs.NLLHS8 Proofs.FitP2 Proofs.AsimovP Proofs.ClientP Proofs.OrderP.
Local Open Scope Qc_scope.
Local Open Scope res_scope.

Lemma perm_fitted p p' : Permutation p p' -> Permutation (fitted p) (fitted p').
Proof.
  induction 1 as [|x l l' _ IH|x y l|l1 l2 l3 _ IH1 _ IH2]; [constructor| | |etransitivity; eassumption].
  - unfold fitted in *. cbn [filter]. destruct (fittable (snd x)); cbn [map]; [now constructor|exact IH].
  - unfold fitted. cbn [filter]. destruct (fittable (snd x)), (fittable (snd y)); cbn [map]; try reflexivity. apply perm_swap.
Qed.
Section Two.
Context (names : nat -> string) (par : nat -> comp) (build : nat -> comp -> smat * res unit) (obs : list string) (ops ops' : list nlop) (D D' : bed).
Hypothesis Perm : Permutation (NLLHSpec.added ops) (NLLHSpec.added ops').
Hypothesis Mean : means_same (sys_accepted names ops) (sys_accepted names ops').
Hypothesis Nb : hNBins (bdHist D') = hNBins (bdHist D).
Hypothesis Cont : forall k, (k < hNBins (bdHist D))%nat -> cont (bdHist D') k = cont (bdHist D) k.
Hypothesis Cons : con_in ops' = con_in ops.
Hypothesis C : configured names par build obs ops D.
Hypothesis C' : configured names par build obs ops' D'.
Lemma two_groups g : group_in names ops' g = group_in names ops g.
Proof. unfold group_in. symmetry. apply Mean. Qed.
Lemma two_sys q : is_sys names ops' q <-> is_sys names ops q.
Proof. unfold is_sys. split; intros [g H]; exists g; [rewrite <- two_groups|rewrite two_groups]; exact H. Qed.
Lemma two_acting b : acting_on names ops' b = acting_on names ops b.
Proof.
  unfold acting_on. rewrite <- (proj2 Mean). destruct (regd _ _) as [gs|]; [|reflexivity]. unfold acting. rewrite two_groups. f_equal. apply flat_map_ext. intros g. apply two_groups.
Qed.
Lemma two_gives d : gives_all names par ops d -> gives_all names par ops' d.
Proof.
  intros [W [G1 G2]]. split; [exact W|]. split.
  - intros n H. apply G1. eapply Permutation_in; [apply Permutation_sym, perm_fitted, Perm|exact H].
  - intros q n H. apply G2. now apply two_sys.
Qed.
Lemma two_point d : gives_all names par ops d -> responds names par build ops d ->
  responds names par build ops' d /\ nl_getParams (at_point names par build ops' d) = nl_getParams (at_point names par build ops d) /\
  value_at names par build ops' d = value_at names par build ops d.
Proof.
  intros G R. pose proof (two_gives d G) as G'. destruct G as [W [Gk Gs]]. destruct G' as [_ [Gk' Gs']].
  destruct C as [Hpar [HB [F [Hdn [Hbb [Hdat [HD [Hnd [Hdf Hcov]]]]]]]]]. destruct C' as [_ [_ [F' [Hdn' [Hbb' [Hdat' [HD' [Hnd' [Hdf' Hcov']]]]]]]]].
  destruct (reg_app ops) as [Ta [Td [Tc [Tb [Tr [Tf Tn]]]]]]. destruct (Tn names) as [Gi [Is Ao]].
  destruct (reg_app ops') as [Ta' [Td' [Tc' [Tb' [Tr' [Tf' Tn']]]]]]. destruct (Tn' names) as [Gi' [Is' Ao']].
  destruct (value_sys_tot names par build obs (ops ++ [NReg]) d D) as [s1 [p1 [E1 [O1 [Q1 V1]]]]]; rewrite ?Ta, ?Tb, ?Td; auto.
  { intros q. apply Hpar. }
  { intros q q' H H'. apply Hdn; now apply Is. }
  { intros q n H _. apply Gs, Is, H. }
  destruct (value_sys_tot names par build obs (ops' ++ [NReg]) d D') as [s2 [p2 [E2 [O2 [Q2 V2]]]]]; rewrite ?Ta', ?Tb', ?Td'; auto.
  { intros q. apply Hpar. }
  { intros q q' H H'. apply Hdn'; now apply Is'. }
  { intros q n H _. apply Gs', Is', H. }
  cbv zeta in *. rewrite ?Ta, ?Tb, ?Td, ?Tc in *. rewrite ?Ta', ?Tb', ?Td', ?Tc' in *.
  assert (A1 : at_point names par build ops d = s1) by (unfold at_point; now rewrite E1).
  assert (A2 : at_point names par build ops' d = s2) by (unfold at_point; now rewrite E2).
  unfold responds, value_at in *. rewrite A1 in R |- *. rewrite A2. cbv zeta in R |- *. destruct R as [HB1 [HF1 HF1']].
  assert (Eb : forall q, is_sys names ops q -> build q (nlPar s2 q) = build q (nlPar s1 q)).
  { intros q Hq. destruct (O1 q) as [K1 N1]. destruct (O2 q) as [K2 N2]. destruct (Hpar q) as [_ Hd]. specialize (N1 Hd). specialize (N2 Hd).
    apply HB; auto. intros n. destruct (in_dec string_dec n (c_names (par q))) as [Hn|Hn].
    - destruct (Gs q n Hq Hn) as [v Hv]. rewrite (Q1 q n v (proj2 (Is q) Hq) Hn Hv). apply (Q2 q n v); auto. apply Is'. now apply two_sys.
    - rewrite (proj2 (comp_get _ K1)) by now rewrite N1. apply (proj2 (comp_get _ K2)). now rewrite N2. }
  assert (HB2 : forall q, is_sys names ops' q -> snd (build q (nlPar s2 q)) = Ok tt) by (intros q H; apply two_sys in H; rewrite Eb by exact H; now apply HB1).
  assert (Ia : forall b q, In q (acting_on names ops b) -> is_sys names ops q).
  { intros b q. unfold acting_on. destruct (regd _ _) as [gs|]; [|intros []]. unfold acting. intros H. apply in_app_or in H as [H|H].
    - destruct (in_dec _ _ _) in H; [destruct H|]. eexists; exact H.
    - apply in_flat_map in H as [g [_ H]]. eexists; exact H. }
  assert (HF2 : fits names ops' (fun q => fst (build q (nlPar s2 q))) (NLLHSpec.added ops')).
  { split.
    - intros g. destruct (HF1 g) as [n Hn]. exists n. rewrite two_groups. rewrite Forall_forall in Hn |- *. intros q H. rewrite Eb by (exists g; exact H). now apply Hn.
    - intros p Hp. apply (Permutation_in _ (Permutation_sym Perm)) in Hp. specialize (HF1' p Hp). rewrite two_acting. rewrite Forall_forall in HF1' |- *. intros q H. rewrite Eb by (eapply Ia; exact H). now apply HF1'. }
  assert (X : (forall q, is_sys names (ops ++ [NReg]) q -> snd (build q (nlPar s1 q)) = Ok tt) /\ fits names (ops ++ [NReg]) (fun q => fst (build q (nlPar s1 q))) (NLLHSpec.added ops)).
  { split; [intros q H; apply HB1, Is, H|]. split; [intros g; rewrite Gi; apply HF1|]. intros p Hp. rewrite Ao. now apply HF1'. }
  assert (Y : (forall q, is_sys names (ops' ++ [NReg]) q -> snd (build q (nlPar s2 q)) = Ok tt) /\ fits names (ops' ++ [NReg]) (fun q => fst (build q (nlPar s2 q))) (NLLHSpec.added ops')).
  { split; [intros q H; apply HB2, Is', H|]. split; [intros g; rewrite Gi'; apply HF2|]. intros p Hp. rewrite Ao'. now apply HF2. }
  destruct (V1 (proj1 X) (proj2 X) 0%nat) as [G1 [W1 [B1 [D1 X1]]]]. destruct (V2 (proj1 Y) (proj2 Y) 0%nat) as [G2 [W2 [B2 [D2 X2]]]]. cbn [repeat nlrun fold_left] in *.
  assert (Ep : p2 = p1).
  { assert (Hnd1 : forall q, is_sys names (ops ++ [NReg]) q -> ~ is_dict (par q)) by (intros q _; apply Hpar).
    assert (Hnd2 : forall q, is_sys names (ops' ++ [NReg]) q -> ~ is_dict (par q)) by (intros q _; apply Hpar).
    assert (Pf : forall n, In n (fitted (NLLHSpec.added ops')) <-> In n (fitted (NLLHSpec.added ops))).
    { intros n. split; intros H; (eapply Permutation_in; [|exact H]); [apply Permutation_sym|]; apply perm_fitted, Perm. }
    apply swf_ext; auto. intros n. destruct (sfind n p2) as [v|] eqn:Ev.
    - destruct (D2 Hnd2 n v Ev) as [Hv H]. symmetry. apply B1; [exact Hv|]. destruct H as [H|[q [H H']]]; [left; now apply Pf|right]. exists q. split; [apply Is, two_sys, Is', H|exact H'].
    - destruct (sfind n p1) as [v|] eqn:Ev'; [|reflexivity]. destruct (D1 Hnd1 n v Ev') as [Hv H]. rewrite (B2 n v) in Ev; [discriminate|exact Hv|].
      destruct H as [H|[q [H H']]]; [left; now apply Pf|right]. exists q. split; [apply Is', two_sys, Is, H|exact H']. }
  split; [split; [exact HB2|exact HF2]|]. split; [now rewrite G1, G2, Ep|]. rewrite X1, X2, Ep, Cons, Nb.
  assert (Ek : forall k, expected_sys names (ops' ++ [NReg]) (fun q => fst (build q (nlPar s2 q))) d (NLLHSpec.added ops') k = expected_sys names (ops ++ [NReg]) (fun q => fst (build q (nlPar s1 q))) d (NLLHSpec.added ops) k).
  { intros k. unfold expected_sys. rewrite <- (qsum_perm _ _ (Permutation_map _ Perm)). f_equal. apply map_ext. intros b. f_equal. f_equal. unfold responded.
    rewrite Ao, Ao', two_acting. f_equal. apply map_ext_in. intros q H. rewrite Eb; [reflexivity|]. eapply Ia; exact H. }
  unfold outcome. rewrite (map_ext_in (fun k => poisson_nll (qr (cont (bdHist D') k)) _) (fun k => poisson_nll (qr (cont (bdHist D) k))
     (qr (expected_sys names (ops ++ [NReg]) (fun q => fst (build q (nlPar s1 q))) d (NLLHSpec.added ops) k)))).
  2:{ intros k H. apply in_seq in H. rewrite Cont by lia. now rewrite Ek. }
  replace (fun k => qeqb (expected_sys names (ops' ++ [NReg]) (fun q => fst (build q (nlPar s2 q))) d (NLLHSpec.added ops') k) 0)
    with (fun k => qeqb (expected_sys names (ops ++ [NReg]) (fun q => fst (build q (nlPar s1 q))) d (NLLHSpec.added ops) k) 0) by (apply functional_extensionality; intros k; now rewrite Ek).
  replace (fun k => qltb 0 (expected_sys names (ops' ++ [NReg]) (fun q => fst (build q (nlPar s2 q))) d (NLLHSpec.added ops') k))
    with (fun k => qltb 0 (expected_sys names (ops ++ [NReg]) (fun q => fst (build q (nlPar s1 q))) d (NLLHSpec.added ops) k)) by (apply functional_extensionality; intros k; now rewrite Ek).
  reflexivity.
Qed.
Lemma two_clients {A} (c : client A) :
  let g := fun d => nl_getParams (at_point names par build ops d) in let f := value_at names par build ops in
  proper (fun d => gives_all names par ops d /\ responds names par build ops d) c g f ->
  snd (on_statistic c (nl_register (nlrun (nl_new names par build) ops'))) = snd (on_statistic c (nl_register (nlrun (nl_new names par build) ops))).
Proof.
  cbv zeta. intros P. rewrite (client_pkg names par build obs ops D c C P).
  assert (Pr : proper (fun d => gives_all names par ops' d /\ responds names par build ops' d) c (fun d => nl_getParams (at_point names par build ops' d)) (value_at names par build ops') /\
    on_function c (fun d => nl_getParams (at_point names par build ops' d)) (value_at names par build ops') = on_function c (fun d => nl_getParams (at_point names par build ops d)) (value_at names par build ops)).
  { induction c as [a|d n k IH|o c IH]; cbn [proper on_function] in *; [auto| |].
    - destruct P as [[G R] P]. destruct (two_point d G R) as [R' [E1 E2]]. rewrite E1, E2. destruct (IH _ _ P) as [I1 I2]. split; [|exact I2]. split; [split; [now apply two_gives|exact R']|exact I1].
    - destruct P as [To P]. destruct (IH P) as [I1 I2]. auto. }
  destruct Pr as [Pr <-]. now apply (client_pkg names par build obs ops' D').
Qed.
End Two.

Lemma order_pkg : forall A names par build obs ops ops' D (c : client A), shuffled ops ops' -> configured names par build obs ops D -> direct_first (NLLHSpec.added ops') ->
  let g := fun d => nl_getParams (at_point names par build ops d) in let f := value_at names par build ops in
  proper (fun d => gives_all names par ops d /\ responds names par build ops d) c g f ->
  snd (on_statistic c (nl_register (nlrun (nl_new names par build) ops'))) = snd (on_statistic c (nl_register (nlrun (nl_new names par build) ops))).
Proof.
  cbv zeta. intros A names par build obs ops ops' D c Sh C Df P. destruct (shuffled_keeps ops ops' Sh) as [K1 [K2 [K3 [K4 [K5 K6]]]]].
  apply two_clients with (obs := obs) (D := D) (D' := D); auto.
  destruct C as [Hpar [HB [F [Hdn [Hbb [Hdat [HD [Hnd [Hdf Hcov]]]]]]]]].
  split; [exact Hpar|]. split; [exact HB|]. split; [now apply K6|]. split.
  { intros q q' H H'. apply Hdn; [exact (proj1 (two_sys names ops ops' (K2 names) q) H)|exact (proj1 (two_sys names ops ops' (K2 names) q') H')]. }
  split; [congruence|]. split; [congruence|]. split; [exact HD|]. split; [eapply Permutation_NoDup; [apply perm_fitted, K1|exact Hnd]|]. split; [exact Df|].
  unfold covers in *. rewrite Forall_forall in Hcov |- *. intros p Hp. apply Hcov. eapply Permutation_in; [apply Permutation_sym, K1|exact Hp].
Qed.
