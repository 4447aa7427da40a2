(** C106: systematics that leave the pdfs alone. *)
From Coq Require Import ZArith Reals Lia.
From Verif Require Import Base.Res Base.Num Base.RNum Base.SMap Model.Axis Model.Event Model.Cut Model.Hist Model.ED Model.Param Model.Matrix Model.SystMan Model.Shrink Model.EDMan
  Model.Fill Model.Constraint Model.NLLH Spec.AxisSpec Spec.HistSpec Spec.ParamSpec Spec.EDManSpec Spec.SystManSpec Spec.NLLHSpec Spec.NLLHSysSpec
  Proofs.HistP Proofs.SystManP2 Proofs.NLLHP4 Proofs.NLLHS7 Proofs.NLLHS11.
From Coq Require Import Lra.
Local Open Scope Qc_scope.

Lemma qsum_pick (f : nat -> Qc) i : forall n s, (s <= i < s + n)%nat -> qsum (map (fun j => (if Nat.eqb i j then 1 else 0) * f j) (seq s n)) = f i.
Proof.
  assert (Z : forall n s, (i < s)%nat -> qsum (map (fun j => (if Nat.eqb i j then 1 else 0) * f j) (seq s n)) = 0).
  { induction n as [|n IH]; intros s H; cbn [seq map qsum]; [reflexivity|]. rewrite IH by lia. destruct (Nat.eqb_spec i s); [lia|]. ring. }
  induction n as [|n IH]; intros s H; [lia|]. cbn [seq map qsum]. destruct (Nat.eqb_spec i s) as [->|Hn]; [rewrite Z by lia; ring|]. rewrite IH by lia. ring.
Qed.
Lemma mv_leaves n m v : leaves n m -> List.length v = n -> mv n m v = v.
Proof.
  intros H L. apply (nth_ext _ _ 0 0); [rewrite mv_length; lia|]. intros i Hi. rewrite mv_length in Hi. unfold mv.
  rewrite (nth_indep _ 0 ((fun i => qsum (map (fun j => sF m i j * nth j v 0) (seq 0 n))) 0%nat)) by (rewrite map_length, seq_length; exact Hi).
  rewrite (map_nth (fun i => qsum (map (fun j => sF m i j * nth j v 0) (seq 0 n)))). rewrite seq_nth by exact Hi. cbn [plus].
  rewrite <- (qsum_pick (fun j => nth j v 0) i n 0) by lia. f_equal. apply map_ext_in. intros j Hj. apply in_seq in Hj. rewrite H by lia. reflexivity.
Qed.
Lemma mvs_leaves n ms v : Forall (leaves n) ms -> List.length v = n -> mvs n ms v = v.
Proof. unfold mvs. induction 1 as [|m ms H F IH]; intros L; cbn [fold_left]; [reflexivity|]. rewrite (mv_leaves n m v H L). exact (IH L). Qed.
Lemma responded_leaves names ops M b : h_reach (bdHist b) -> Forall (fun q => leaves (hNBins (bdHist b)) (M q)) (acting_on names ops b) -> responded names ops M b = hCont (bdHist b).
Proof.
  intros H F. unfold responded. apply mvs_leaves; [|apply (h_reach_ok _ H)]. apply Forall_forall. intros x Hx. apply in_map_iff in Hx as [q [<- Hq]]. rewrite Forall_forall in F. exact (F q Hq).
Qed.
Lemma expected_leaves names ops M d pdfs D : covers D pdfs -> (forall p, In p pdfs -> Forall (fun q => leaves (hNBins (bdHist (fst p))) (M q)) (acting_on names ops (fst p))) ->
  forall k, expected_sys names ops M d pdfs k = expected d pdfs k.
Proof.
  intros Hc H k. unfold expected_sys, expected. f_equal. apply map_ext_in. intros p Hp. unfold covers in Hc. rewrite Forall_forall in Hc. destruct (Hc p Hp) as [Hr _].
  rewrite (responded_leaves names ops M (fst p) Hr (H p Hp)). reflexivity.
Qed.
Lemma identity_pkg names par build obs ops d D : let pdfs := NLLHSpec.added ops in
  (forall q, comp_ok (par q)) -> Forall (steady obs) ops -> registered ops -> distinct_names names ops -> bb_in ops = false ->
  data_in ops = Some D -> h_reach (bdHist D) -> NoDup (fitted pdfs) -> direct_first pdfs -> covers D pdfs -> swf d ->
  (forall n, In n (fitted pdfs) -> has_key d n) ->
  (forall q n, is_sys names ops q -> ~ is_dict (par q) -> In n (c_names (par q)) -> has_key d n) ->
  exists s p, nl_setParams (nlrun (nl_new names par build) ops) d = (s, Ok tt) /\
    let M := fun q => fst (build q (nlPar s q)) in
    (forall q, is_sys names ops q -> snd (build q (nlPar s q)) = Ok tt) -> fits names ops M pdfs ->
    (forall b, In b pdfs -> Forall (fun q => leaves (hNBins (bdHist (fst b))) (M q)) (acting_on names ops (fst b))) ->
    forall m, let s' := nlrun s (repeat NEval m) in
    nl_getParams s' = Ok p /\ snd (nl_eval s') = outcome (cont (bdHist D)) (expected d pdfs) (hNBins (bdHist D)) (cman_eval (con_in ops) p).
Proof.
  cbv zeta. intros Hpar F Hreg Hdn Hbb Hdat HD Hnd Hdf Hcov Wd Hk Hks.
  destruct (value_sys_tot names par build obs ops d D Hpar F Hreg Hdn Hbb Hdat HD Hnd Hdf Hcov Wd Hk Hks) as [s [p [E [_ [Hq V]]]]].
  exists s, p. split; [exact E|]. intros HB HF HL m. destruct (V HB HF m) as [V1 [_ [_ [_ V4]]]]. split; [exact V1|]. rewrite V4. unfold outcome.
  assert (Em : forall k, expected_sys names ops (fun q => fst (build q (nlPar s q))) d (NLLHSpec.added ops) k = expected d (NLLHSpec.added ops) k) by (eapply expected_leaves; eassumption).
  replace (expected_sys names ops (fun q => fst (build q (nlPar s q))) d (NLLHSpec.added ops)) with (expected d (NLLHSpec.added ops)); [reflexivity|].
  apply FunctionalExtensionality.functional_extensionality. intros k. symmetry. apply Em.
Qed.
Lemma sigma_direct names ops M d l mu : Forall (fun p => snd (fst p) <> NIndirect) l -> sigma2_sys names ops M d l mu = sigma2_of d l mu.
Proof.
  intros H. unfold sigma2_sys, sigma2_of. f_equal. apply map_ext_in. intros p Hp. rewrite Forall_forall in H. specialize (H p Hp). unfold mc_events.
  destruct (snd (fst p)); [reflexivity|reflexivity|congruence].
Qed.
(** an empty bin: the scale is rational and there is no logarithm *)
Lemma bb_term_empty s2 mu : 0 < s2 -> 0 < mu -> mu * s2 < 1 -> bb_term s2 0 mu = Ok (qr (mu - mu * mu * s2 / qz 2)).
Proof.
  intros H1 H2 H3. assert (H0 : 0 <= 0) by (vm_compute; discriminate). destruct (beta_pkg s2 0 mu H1 H0 H3) as [b [E [R [P _]]]]. unfold bb_term. rewrite E.
  apply qr_lt in H1, H2, H3. rewrite qr_mult, qr_1 in H3. unfold bb_root in R. rewrite qr_0 in *.
  destruct (Req_EM_T (qr s2) 0) as [C|_]; [exfalso; lra|].
  assert (B : b = (1 - qr mu * qr s2)%R). { assert (Z : (b * (b + (qr mu * qr s2 - 1)) = 0)%R) by (rewrite <- R; ring). apply Rmult_integral in Z as [Z|Z]; lra. }
  unfold poisson_term. destruct (Rlt_dec 0 (b * qr mu)) as [_|C]; [|exfalso; apply C; apply Rmult_lt_0_compat; lra]. f_equal.
  assert (Hz : qz 2 <> 0) by (intros Cc; apply (f_equal (fun q => this q)) in Cc; vm_compute in Cc; discriminate).
  rewrite qr_minus, qr_div, !qr_mult, qr_z, qr_0 by exact Hz. rewrite B. cbn [IZR IPR IPR_2]. field. lra.
Qed.
