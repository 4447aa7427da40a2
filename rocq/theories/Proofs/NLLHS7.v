(** C89: packaged. *)
From Coq Require Import ZArith Reals Lia.
From Verif Require Import Base.Res Base.Num Base.RNum Base.SMap Model.Axis Model.Event Model.Cut Model.Hist Model.ED Model.Param Model.Matrix Model.SystMan Model.Shrink Model.EDMan
  Model.Fill Model.Constraint Model.NLLH Spec.AxisSpec Spec.HistSpec Spec.ParamSpec Spec.EDManSpec Spec.SystManSpec Spec.NLLHSpec Spec.NLLHSysSpec
  Proofs.AxisP Proofs.HistP Proofs.HistP2 Proofs.ParamP Proofs.ParamP2 Proofs.ParamP3 Proofs.EDManP Proofs.EDManP2 Proofs.SystManP Proofs.SystManP2 Proofs.SystManP3 Proofs.NLLHP Proofs.NLLHP2 Proofs.NLLHP3 Proofs.NLLHS1 Proofs.NLLHS2 Proofs.NLLHS3 Proofs.NLLHS4 Proofs.NLLHS5 Proofs.NLLHS6.
Local Open Scope Qc_scope.
Local Open Scope res_scope.

Lemma value_sys_tot names par build obs ops d D : let pdfs := NLLHSpec.added ops in let nbins := hNBins (bdHist D) in
  (forall q, comp_ok (par q)) -> Forall (steady obs) ops -> registered ops -> distinct_names names ops -> bb_in ops = false ->
  data_in ops = Some D -> h_reach (bdHist D) -> NoDup (fitted pdfs) -> direct_first pdfs -> covers D pdfs -> swf d ->
  (forall n, In n (fitted pdfs) -> has_key d n) ->
  (forall q n, is_sys names ops q -> ~ is_dict (par q) -> In n (c_names (par q)) -> has_key d n) ->
  exists s p, nl_setParams (nlrun (nl_new names par build) ops) d = (s, Ok tt) /\ (forall q, comp_ok (nlPar s q) /\ (~ is_dict (par q) -> forall n, In n (c_names (nlPar s q)) <-> In n (c_names (par q)))) /\
    (forall q n v, is_sys names ops q -> In n (c_names (par q)) -> sfind n d = Some v -> c_get (nlPar s q) n = Ok v) /\
    let M := fun q => fst (build q (nlPar s q)) in
    (forall q, is_sys names ops q -> snd (build q (nlPar s q)) = Ok tt) -> fits names ops M pdfs ->
    forall m, let s' := nlrun s (repeat NEval m) in
    nl_getParams s' = Ok p /\ swf p /\
    (forall n v, sfind n d = Some v -> In n (fitted pdfs) \/ (exists q, is_sys names ops q /\ In n (c_names (par q))) -> sfind n p = Some v) /\
    ((forall q, is_sys names ops q -> ~ is_dict (par q)) -> forall n v, sfind n p = Some v ->
       sfind n d = Some v /\ (In n (fitted pdfs) \/ exists q, is_sys names ops q /\ In n (c_names (par q)))) /\
    snd (nl_eval s') = outcome (cont (bdHist D)) (expected_sys names ops M d pdfs) nbins (cman_eval (con_in ops) p).
Proof.
  cbv zeta. intros Hpar F Hreg Hdn Hbb Hdat HD Hnd Hdf Hcov Wd Hk Hks.
  assert (K0 : skel (nlSm (nl_new names par build)) (sm_new (obj0 names))) by (repeat split).
  destruct (nlrunS names par build obs ops (nl_new names par build) None _ (calmS_new names par build obs Hpar) K0 F I) as [A1 [A2 [A3 [A4 [A5 [A6 A7]]]]]]. cbv zeta in *.
  specialize (A7 (or_intror Hreg)).
  set (s0 := nlrun (nl_new names par build) ops) in *. change (nlBB (nl_new names par build)) with false in *.
  destruct (history_pkg (obj0 names) (sys_calls false ops)) as [HG HDs]. cbv zeta in *.
  change (accepted (sm_new (obj0 names)) (sys_calls false ops)) with (sys_accepted names ops) in HG, HDs.
  set (t := smrun (sm_new (obj0 names)) (sys_calls false ops)) in *.
  assert (Gr : forall a, skel a t -> forall g, sm_grp a g = group_in names ops g).
  { intros a [Ga _] g. unfold group_in. rewrite <- HG. unfold sm_grp. now rewrite Ga. }
  assert (Ac : forall a b, skel a t -> actS a b = acting_on names ops b).
  { intros a b Ka. pose proof Ka as [_ [Da _]]. unfold actS, acting_on. rewrite Da, HDs. destruct (regd (bdName b) (sys_accepted names ops)) as [gs|]; [|reflexivity].
    unfold acting. rewrite (Gr a Ka). f_equal. apply flat_map_ext. apply (Gr a Ka). }
  assert (Pp : pairs (nlPm s0) = NLLHSpec.added ops) by (rewrite A3; reflexivity).
  change (fold_left NLLHP2.dstep ops None) with (data_in ops) in A6. rewrite Hdat in A6. destruct A6 as [Hc Hd].
  destruct (refs_shape (nlSm s0)) as [qs [Eqs [Nqs [Iq1 Iq2]]]]. unfold regs in A7. rewrite Eqs in A7.
  assert (Sys : forall q, In q (List.concat (map snd (smGroups (nlSm s0)))) <-> is_sys names ops q).
  { intros q. rewrite (in_groups _ q (csSm _ _ _ _ _ A1)). unfold is_sys. split; intros [g Hg]; exists g; [rewrite <- (Gr _ A2)|rewrite (Gr _ A2)]; exact Hg. }
  assert (Qs : forall q, In q qs <-> is_sys names ops q).
  { intros q. split; [intros Hq; apply Sys, Iq1, Hq|]. intros Hq. destruct (Iq2 q (proj2 (Sys q) Hq)) as [q' [Hin En]].
    replace q with q'; [exact Hin|]. apply Hdn; [apply Sys, Iq1, Hin|exact Hq|]. rewrite !(proj1 (csObj _ _ _ _ _ A1 _)) in En. exact En. }
  destruct (setP names par build obs s0 d qs t A1 A2 A7 Nqs Wd) as [s [Es [C [K [Mo [T [Hh Hq]]]]]]]; [rewrite Pp; exact Hnd|rewrite Pp; exact Hk|intros q n Hin; apply Hks, Qs, Hin|].
  destruct Mo as [M1 [M2 [M3 [M4 M5]]]].
  assert (Ps : pairs (nlPm s) = NLLHSpec.added ops) by (rewrite (structure_pairs _ _ T); exact Pp).
  destruct (getP names par build obs s d qs C) as [p [Ep [Wp [Sp [P1 P2]]]]]; [congruence|rewrite Ps; exact Hnd|rewrite Ps; exact Hk|exact Hh|exact Hq|]. rewrite Ps in P1, P2.
  exists s, p. split; [exact Es|]. split; [intros q; destruct (csPar _ _ _ _ _ C q) as [Okq [_ [E2 E3]]]; split; [exact Okq|]; intros Hq' n; split; [now apply E3|apply E2]|]. split; [intros q n v Hs; apply Hq, Qs, Hs|]. intros HB [HF1 HF2] m.
  destruct (evals6 names par build obs m s C) as [C' S']. cbv zeta in *. set (s' := nlrun s (repeat NEval m)) in *.
  pose proof S' as [B1 [B2 [B3 [B4 [B5 [B6 [B7 [B8 [[B9 B9'] [B10 B11]]]]]]]]]]. destruct B11 as [B11 B12]; [congruence|].
  assert (K' : skel (nlSm s') t) by (eapply skel_shape; eassumption).
  assert (Ep' : nl_getParams s' = Ok p) by (apply Sp; auto; congruence).
  split; [exact Ep'|]. split; [exact Wp|]. split; [|split].
  - intros n v Hv H. apply P1; [exact Hv|]. destruct H as [H|[q [Hs Hn]]]; [now left|right]. exists q. split; [now apply Qs|exact Hn].
  - intros Hnod n v Hv. destruct (P2 n v Hv) as [[H1 H2]|[q [Hin H]]]; [auto|]. apply Qs in Hin as Hs.
    destruct (csPar _ _ _ _ _ C q) as [Okq [_ [_ E3]]].
    assert (Hn : In n (c_names (par q))) by (apply E3; [now apply Hnod|]; apply (comp_get _ Okq); eauto).
    split; [|right; eauto]. destruct (Hks q n Hs (Hnod q Hs) Hn) as [w Hw]. rewrite Hw. f_equal. symmetry. apply (proj1 (Hq q Hin) n w v Hw H).
  - rewrite (eval6 names par build obs d D (NLLHSpec.added ops) Hnd Hdf Hcov HD s' p C'); auto; try congruence.
    + rewrite B1, M1, A4. change (fold_left cstep ops _) with (con_in ops).
      replace (fun k => qsum _) with (expected_sys names ops (fun q => fst (build q (nlPar s q))) d (NLLHSpec.added ops)); [reflexivity|].
      apply FunctionalExtensionality.functional_extensionality. intros k. unfold expected_sys. f_equal. apply map_ext. intros b. f_equal.
      unfold respS, responded, with_contents, cont. cbn [bdHist hCont]. rewrite (Ac _ _ K'), B5. reflexivity.
    + rewrite B2, M2, A5. exact Hbb.
    + intros s3 C3 R3 P3 Q3 H3. apply Sp; auto; congruence.
    + intros g q Hq'. rewrite B5. apply HB. exists g. rewrite <- (Gr _ K'). exact Hq'.
    + intros g. destruct (HF1 g) as [n Hn]. exists n. rewrite (Gr _ K'), B5. exact Hn.
    + intros b Hb. rewrite (Ac _ _ K'), B5. apply HF2, Hb.
Qed.
Lemma outcome_zero n mu nb c : (exists k, (k < nb)%nat /\ mu k = 0) -> outcome n mu nb c = Throw std_runtime_error.
Proof.
  intros [k [H E]]. unfold outcome. replace (existsb _ _) with true; [reflexivity|]. symmetry. apply existsb_exists. exists k. split; [apply in_seq; lia|]. now apply qeqb_eq.
Qed.
Lemma outcome_pos n mu nb c : (forall k, (k < nb)%nat -> 0 < mu k) ->
  outcome n mu nb (Ok c) = Ok (rsum (map (fun k => poisson_nll (qr (n k)) (qr (mu k))) (seq 0 nb)) + qr c)%R.
Proof.
  intros H. unfold outcome. destruct (existsb _ _) eqn:E.
  - exfalso. apply existsb_exists in E as [k [Hk E]]. apply in_seq in Hk. specialize (H k ltac:(lia)). rewrite (qeqb_pos _ H) in E. discriminate.
  - replace (forallb _ _) with true; [reflexivity|]. symmetry. apply forallb_forall. intros k Hk. apply in_seq in Hk. apply qltb_lt. apply H. lia.
Qed.
Lemma value_sys_pkg names par build obs ops d D : let pdfs := NLLHSpec.added ops in let nbins := hNBins (bdHist D) in
  (forall q, comp_ok (par q)) -> Forall (steady obs) ops -> registered ops -> distinct_names names ops -> bb_in ops = false ->
  data_in ops = Some D -> h_reach (bdHist D) -> NoDup (fitted pdfs) -> direct_first pdfs -> covers D pdfs -> swf d ->
  (forall n, In n (fitted pdfs) -> has_key d n) ->
  (forall q n, is_sys names ops q -> ~ is_dict (par q) -> In n (c_names (par q)) -> has_key d n) ->
  exists s p, nl_setParams (nlrun (nl_new names par build) ops) d = (s, Ok tt) /\
    (forall q n v, is_sys names ops q -> In n (c_names (par q)) -> sfind n d = Some v -> c_get (nlPar s q) n = Ok v) /\
    let M := fun q => fst (build q (nlPar s q)) in
    (forall q, is_sys names ops q -> snd (build q (nlPar s q)) = Ok tt) -> fits names ops M pdfs ->
    forall m, let s' := nlrun s (repeat NEval m) in
    nl_getParams s' = Ok p /\
    (forall n v, sfind n d = Some v -> In n (fitted pdfs) \/ (exists q, is_sys names ops q /\ In n (c_names (par q))) -> sfind n p = Some v) /\
    ((forall q, is_sys names ops q -> ~ is_dict (par q)) -> forall n v, sfind n p = Some v ->
       sfind n d = Some v /\ (In n (fitted pdfs) \/ exists q, is_sys names ops q /\ In n (c_names (par q)))) /\
    ((exists k, (k < nbins)%nat /\ expected_sys names ops M d pdfs k = 0) -> snd (nl_eval s') = Throw std_runtime_error) /\
    (forall c, (forall k, (k < nbins)%nat -> 0 < expected_sys names ops M d pdfs k) -> cman_eval (con_in ops) p = Ok c ->
       snd (nl_eval s') = Ok (rsum (map (fun k => poisson_nll (qr (cont (bdHist D) k)) (qr (expected_sys names ops M d pdfs k))) (seq 0 nbins)) + qr c)%R).
Proof.
  cbv zeta. intros Hpar F Hreg Hdn Hbb Hdat HD Hnd Hdf Hcov Wd Hk Hks.
  destruct (value_sys_tot names par build obs ops d D Hpar F Hreg Hdn Hbb Hdat HD Hnd Hdf Hcov Wd Hk Hks) as [s [p [E [_ [Hq V]]]]].
  exists s, p. split; [exact E|]. split; [exact Hq|]. intros HB HF m. destruct (V HB HF m) as [V1 [_ [V2 [V3 V4]]]]. split; [exact V1|]. split; [exact V2|]. split; [exact V3|].
  rewrite V4. split; [apply outcome_zero|]. intros c Hp ->. now apply outcome_pos.
Qed.
