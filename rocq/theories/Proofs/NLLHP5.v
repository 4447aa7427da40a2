From Coq Require Import ZArith Reals.
From Verif Require Import Base.Res Base.Num Base.RNum Base.SMap Model.Axis Model.Event Model.Cut Model.Hist Model.ED Model.Param
  Model.Matrix Model.SystMan Model.Shrink Model.EDMan Model.Fill Model.Constraint Model.NLLH Spec.AxisSpec Spec.HistSpec Spec.CutSpec Spec.FillSpec Spec.ParamSpec Spec.EDManSpec Spec.NLLHSpec
  Proofs.AxisP Proofs.HistP Proofs.HistP2 Proofs.ParamP Proofs.ParamP3 Proofs.EDManP Proofs.EDManP2 Proofs.FillP2 Proofs.NLLHP Proofs.NLLHP2 Proofs.NLLHP3 Proofs.NLLHP4.
From Coq Require Import Lra Psatz.
Local Open Scope Qc_scope.
Local Open Scope res_scope.

Lemma filter_firstn_all (f : nfs -> bool) l i : (forall x, In x l -> f x = true) -> (i <= List.length l)%nat -> List.length (filter f (firstn i l)) = i.
Proof.
  intros H Hi. rewrite filter_all; [rewrite firstn_length; lia|]. intros x Hx. apply H.
  rewrite <- (firstn_skipn i l). apply in_or_app. now left.
Qed.
Lemma stats_of s st : List.length (emStat s) = List.length (emOrig s) -> Forall (fun p => snd p = st) (pairs s) -> forall x, In x (emStat s) -> x = st.
Proof.
  intros L F x Hx. rewrite <- (pairs_stat s L) in Hx. apply in_map_iff in Hx as [p [<- Hp]]. rewrite Forall_forall in F. auto.
Qed.
Lemma nth_norm_in d (pdfs : list (bed * nfs)) i b st : nth_error pdfs i = Some (b, st) -> nth i (map (norm_in d) pdfs) 0 = norm_in d (b, st).
Proof. intros H. apply nth_error_nth. rewrite nth_error_map, H. reflexivity. Qed.
Lemma list_nth_eq (a b : list Qc) : List.length a = List.length b -> (forall i, (i < List.length a)%nat -> nth i a 0 = nth i b 0) -> a = b.
Proof. intros L H. eapply nth_ext; eauto. Qed.

Lemma norms_after s d p : em_inv s -> holds s d -> uniform (pairs s) -> em_reassert false s = (p, Ok tt) -> emNorms p = map (norm_in d) (pairs s).
Proof.
  intros I H U E. destruct (reassert_ok false s I) as [p' [E' [T [_ [A1 A2]]]]]. rewrite E in E'. injection E' as <-.
  pose proof I as [L1 [L2 [L3 [L4 _]]]].
  assert (Lp : List.length (pairs s) = List.length (emOrig s)) by (unfold pairs; rewrite combine_length; lia).
  apply list_nth_eq.
  { destruct T as [_ [_ [_ [_ [_ [T6 _]]]]]]. rewrite map_length. lia. }
  intros i Hi. assert (Hi' : (i < List.length (emOrig s))%nat) by (destruct T as [_ [_ [_ [_ [_ [T6 _]]]]]]; lia).
  pose proof (pairs_nth s i L1 Hi') as P. rewrite (nth_norm_in d _ _ _ _ P).
  set (b := nth i (emOrig s) bed0) in *. set (st := nth i (emStat s) NFalse) in *.
  destruct U as [U|U]; pose proof (stats_of s _ L1 U) as Hst.
  - assert (Est : st = NIndirect) by (apply Hst, nth_In; lia). rewrite Est in *.
    assert (Ea : emAllDir s = false).
    { rewrite L4. destruct (forallb is_direct (emStat s)) eqn:C; [|reflexivity]. exfalso. rewrite forallb_forall in C.
      specialize (C st). rewrite Est in C. discriminate C. rewrite <- Est. apply nth_In. lia. }
    rewrite (A2 Ea). assert (En : nth_error (emStat s) i = Some NIndirect) by (rewrite <- Est; apply nth_error_nth'; lia).
    rewrite En. cbn [sel is_indirect]. unfold cnt. rewrite filter_firstn_all; [|intros x Hx; rewrite (Hst x Hx); reflexivity|lia].
    pose proof (fitted_nth (pairs s) i b NIndirect P eq_refl) as Hf. rewrite (pairs_stat s L1) in Hf. unfold fcnt in Hf.
    rewrite filter_firstn_all in Hf; [|intros x Hx; rewrite (Hst x Hx); reflexivity|lia].
    pose proof (H _ _ Hf) as Hh. unfold norm_in. cbn [fittable snd fst]. rewrite Hh. unfold cont_of. rewrite Ea. reflexivity.
  - assert (Est : st = NDirect) by (apply Hst, nth_In; lia). rewrite Est in *.
    assert (Ea : emAllDir s = true).
    { rewrite L4. apply forallb_forall. intros x Hx. rewrite (Hst x Hx). reflexivity. }
    rewrite (A1 Ea). pose proof (fitted_nth (pairs s) i b NDirect P eq_refl) as Hf. rewrite (pairs_stat s L1) in Hf. unfold fcnt in Hf.
    rewrite filter_firstn_all in Hf; [|intros x Hx; rewrite (Hst x Hx); reflexivity|lia].
    pose proof (H _ _ Hf) as Hh. unfold norm_in. cbn [fittable snd fst]. rewrite Hh. unfold cont_of. rewrite Ea. reflexivity.
Qed.
Lemma norms_keep s p : em_inv s -> uniform (pairs s) -> em_reassert true s = (p, Ok tt) -> emNorms p = emNorms s.
Proof.
  intros I U E. destruct (reassert_ok true s I) as [p' [E' [T [_ [A1 A2]]]]]. rewrite E in E'. injection E' as <-.
  pose proof I as [L1 [L2 [L3 [L4 _]]]]. destruct (emAllDir s) eqn:Ea; [rewrite (A1 eq_refl); reflexivity|].
  apply list_nth_eq; [apply T|]. intros i Hi. rewrite (A2 eq_refl). destruct (nth_error (emStat s) i) as [x|] eqn:En; [|reflexivity].
  destruct U as [U|U]; pose proof (stats_of s _ L1 U) as Hst.
  - rewrite (Hst x (nth_error_In _ _ En)). reflexivity.
  - exfalso. assert (C : forallb is_direct (emStat s) = true) by (apply forallb_forall; intros y Hy; rewrite (Hst y Hy); reflexivity). congruence.
Qed.

Lemma sigma_fold (gen : list Z) (mu : Qc) norms : mu <> 0 -> Forall (fun g => (0 < g)%Z) gen -> List.length norms = List.length gen ->
  forall k i a, (i + k = List.length norms)%nat ->
  foldM (fun acc j => do n <- vat norms j; do g <- vat gen j; Ok (rlift2 Qcplus acc (qdiv n (qz g * mu * mu)))) (seq i k) (Ok a)
  = Ok (Ok (a + qsum (map (fun j => nth j norms 0 / (qz (nth j gen 0%Z) * mu * mu)) (seq i k)))).
Proof.
  intros Hmu Hg HL. induction k as [|k IH]; intros i a E; cbn [seq foldM map qsum].
  - do 2 f_equal. ring.
  - rewrite (vat_nth norms i 0) by lia. cbn [bind]. rewrite (vat_nth gen i 0%Z) by lia. cbn [bind].
    assert (Hgi : (0 < nth i gen 0)%Z) by (rewrite Forall_forall in Hg; apply Hg, nth_In; lia).
    assert (Ed : qdiv (nth i norms 0) (qz (nth i gen 0%Z) * mu * mu) = Ok (nth i norms 0 / (qz (nth i gen 0%Z) * mu * mu))).
    { unfold qdiv. destruct (qeqb (qz (nth i gen 0%Z) * mu * mu) 0) eqn:Eq; [|reflexivity].
      apply qeqb_eq in Eq. exfalso. apply Qcmult_integral in Eq as [Eq|Eq]; [|contradiction]. apply Qcmult_integral in Eq as [Eq|Eq]; [|contradiction].
      apply (f_equal qr) in Eq. rewrite qr_z, qr_0 in Eq. apply eq_IZR in Eq. lia. }
    rewrite Ed. cbn [rlift2]. rewrite IH by lia. do 2 f_equal. ring.
Qed.
Lemma qsum_map_nth {A} (f : A -> Qc) (l : list A) (dflt : A) : qsum (map f l) = qsum (map (fun j => f (nth j l dflt)) (seq 0 (List.length l))).
Proof.
  f_equal. apply nth_ext with (d := f dflt) (d' := f dflt); [now rewrite !map_length, seq_length|].
  intros n Hn. rewrite map_length in Hn. rewrite map_nth.
  rewrite (nth_indep (map _ (seq 0 (List.length l))) (f dflt) (f (nth (List.length l) l dflt))) by (rewrite map_length, seq_length; exact Hn).
  rewrite (map_nth (fun j => f (nth j l dflt))). rewrite seq_nth by exact Hn. reflexivity.
Qed.

Lemma rates_plain l : all_rated l -> rates_of l = map rate_of l.
Proof.
  unfold all_rated, rates_of. induction 1 as [|[bs o] l [g [E Hg]] F IH]; [reflexivity|]. cbn [flat_map map snd] in *. subst o. cbn [app]. rewrite IH. f_equal.
  unfold rate_of. cbn. unfold u32. rewrite Z.mod_small; lia.
Qed.

Section BB.
Variables (obs : list string) (d : smap Qc) (D : bed) (rated : list (bed * nfs * option Z)).
Notation pdfs := (map fst rated).
Notation nbins := (hNBins (bdHist D)).
Notation mu := (expected d pdfs).
Notation sg := (fun k => sigma2_of d rated (mu k)).
Hypothesis Hnd : NoDup (fitted pdfs).
Hypothesis Hun : uniform pdfs.
Hypothesis Hcov : covers D pdfs.
Hypothesis HD : h_reach (bdHist D).
Hypothesis Hr : all_rated rated.
Definition fine (k : nat) : Prop :=
  0 < mu k /\ 0 < sg k /\ mu k * sg k < 1 /\ 0 <= cont (bdHist D) k.
Hypothesis Hfine : forall k, (k < nbins)%nat -> fine k.

Lemma uniform_df : direct_first pdfs.
Proof.
  intros i j bi bj Hi Hj. exfalso. apply nth_error_In in Hi, Hj. destruct Hun as [U|U]; rewrite Forall_forall in U.
  - specialize (U _ Hj). discriminate. - specialize (U _ Hi). discriminate.
Qed.
Definition beta_at (k : nat) : R := match bb_beta (sg k) (cont (bdHist D) k) (mu k) with Ok b => b | _ => 0%R end.
Lemma beta_at_ok k : (k < nbins)%nat -> bb_beta (sg k) (cont (bdHist D) k) (mu k) = Ok (beta_at k) /\
  bb_root (qr (sg k)) (qr (cont (bdHist D) k)) (qr (mu k)) (beta_at k) /\ (0 < beta_at k)%R /\
  (forall x, bb_root (qr (sg k)) (qr (cont (bdHist D) k)) (qr (mu k)) x -> (x <= beta_at k)%R) /\ (cont (bdHist D) k = mu k -> beta_at k = 1%R).
Proof.
  intros Hk. destruct (Hfine k Hk) as [F1 [F2 [F3 F4]]]. unfold beta_at. destruct (beta_pkg (sg k) (cont (bdHist D) k) (mu k) F2 F4 F3) as [b [E R]]. rewrite E. auto.
Qed.
Definition bb_value (k : nat) : R :=
  (beta_at k * qr (mu k) - qr (cont (bdHist D) k) * ln (beta_at k * qr (mu k)) + (beta_at k - 1) * (beta_at k - 1) / (2 * qr (sg k)))%R.

Definition bbready (s : nllh) : Prop :=
  ready obs d D s /\ pairs (nlPm s) = pdfs /\ nlBB s = true /\ nlGen s = map rate_of rated /\ emNorms (nlPm s) = map (norm_in d) pdfs.
Lemma bb_bin s k : bbready s -> (k < nbins)%nat -> snd (nl_bin s k) = Ok (Ok (bb_value k)) /\ bbready (fst (nl_bin s k)).
Proof.
  intros [R [P [B [G N]]]] Hk. pose proof (rdCalm _ _ _ _ R) as C.
  destruct (reassert_ok true (nlPm s) (cmInv _ _ C)) as [p [Er [T _]]].
  assert (Np : emNorms p = map (norm_in d) pdfs) by (rewrite (norms_keep _ _ (cmInv _ _ C)) with (2 := Er); [exact N|rewrite P; exact Hun]).
  assert (Ef : fst (nl_bin s k) = nl_withPm s p).
  { destruct (bin_frame obs s k C) as [p' [E' [_ F]]]. rewrite Er in E'. injection E' as <-. exact F. }
  split.
  - pose proof (mu_ok obs d D pdfs Hnd uniform_df Hcov s k R P Hk) as Em.
    assert (Ep : fst (em_binProb (nlPm s) k) = p) by (rewrite binProb_state by apply C; rewrite Er; reflexivity).
    unfold nl_bin. destruct (em_binProb (nlPm s) k) as [p' r]. cbn [fst snd] in *. subst p' r. cbn [bind].
    destruct (Hfine k Hk) as [F1 [F2 [F3 F4]]]. rewrite (qeqb_pos _ F1). rewrite (rdData _ _ _ _ R), (data_content D HD k Hk). cbn [bind]. rewrite B.
    assert (Es : bb_sigma2 (emNorms p) (nlGen s) (mu k) = Ok (Ok (sg k))).
    { unfold bb_sigma2. rewrite Np, G. rewrite sigma_fold.
      - do 2 f_equal. unfold sigma2_of. rewrite (qsum_map_nth _ rated (bed0, NFalse, None)). rewrite !map_length. rewrite Qcplus_0_l. f_equal. apply map_ext_in. intros j Hj.
        apply in_seq in Hj. rewrite (nth_indep (map rate_of rated) 0%Z (rate_of (bed0, NFalse, None))) by (rewrite map_length; lia).
        rewrite map_nth. rewrite (nth_indep (map (norm_in d) pdfs) 0 (norm_in d (fst (bed0, NFalse, None : option Z)))) by (rewrite !map_length; lia).
        rewrite map_nth, map_nth. reflexivity.
      - intros E. rewrite E in F1. revert F1. vm_compute. discriminate.
      - clear -Hr. unfold all_rated in Hr. revert Hr. generalize rated. intros l0 F0. induction F0 as [|q l [g [E Hg]] F IH]; cbn [map]; [constructor|]. constructor; [|exact IH]. unfold rate_of. rewrite E. lia.
      - now rewrite !map_length.
      - reflexivity. }
    rewrite Es. cbn [bind]. cbv zeta.
    assert (Hdet : qltb ((mu k * sg k - 1) * (mu k * sg k - 1) + qz 4 * cont (bdHist D) k * sg k) 0 = false).
    { apply qltb_ge. apply qr_le. rewrite qr_plus, !qr_mult, qr_minus, qr_z, qr_0, qr_mult, qr_1. apply qr_lt in F2. apply qr_le in F4. rewrite qr_0 in *. pose proof (Rmult_le_pos _ _ F4 (Rlt_le _ _ F2)) as W. pose proof (Rle_0_sqr (qr (mu k) * qr (sg k) - 1)) as W2. unfold Rsqr in W2. lra. }
    rewrite Hdet. f_equal. unfold bb_term. destruct (beta_at_ok k Hk) as [Eb [_ [Pb _]]]. rewrite Eb.
    apply qr_lt in F1. apply qr_lt in F2. rewrite qr_0 in *.
    destruct (Req_EM_T (qr (sg k)) 0) as [Cc|_]; [exfalso; lra|]. unfold poisson_term.
    destruct (Rlt_dec 0 (beta_at k * qr (mu k))) as [_|Cc]; [|exfalso; apply Cc; nra]. f_equal. unfold bb_value. ring.
  - rewrite Ef. destruct (bin_like obs s k C) as [L C1]. rewrite Ef in L, C1. split; [eapply ready_pm; eassumption|].
    split; [cbn; rewrite (structure_pairs _ _ T); exact P|]. repeat split; auto.
Qed.
Lemma bb_loop l : forall s a, bbready s -> (forall k, In k l -> (k < nbins)%nat) ->
  exists s', nl_loop s l (Ok a) = (s', Ok (Ok (a + rsum (map bb_value l))%R)) /\ bbready s' /\ nlCm s' = nlCm s.
Proof.
  induction l as [|k l IH]; intros s a B Hl.
  - exists s. cbn. split; [do 3 f_equal; ring|auto].
  - rewrite loop_step. destruct (bb_bin s k B (Hl k (or_introl eq_refl))) as [E B1]. rewrite E. cbn [rlift2].
    destruct (IH (fst (nl_bin s k)) (a + bb_value k)%R B1 (fun j Hj => Hl j (or_intror Hj))) as [s' [E2 [B2 C2]]].
    exists s'. rewrite E2. split; [do 3 f_equal; cbn [map rsum]; ring|]. split; [exact B2|]. rewrite C2.
    destruct B as [R _]. destruct (bin_like obs s k (rdCalm _ _ _ _ R)) as [[_ [-> _]] _]. reflexivity.
Qed.
Lemma bb_eval s : ready obs d D s -> pairs (nlPm s) = pdfs -> nlBB s = true -> nlGen s = map rate_of rated -> (forall n, In n (fitted pdfs) -> has_key d n) ->
  exists p, nl_getParams s = Ok p /\ restriction p d (fitted pdfs) /\
    forall c, cman_eval (nlCm s) p = Ok c -> snd (nl_eval s) = Ok (rsum (map bb_value (seq 0 nbins)) + qr c)%R.
Proof.
  intros R P B G Hk. destruct (params_ok obs d D pdfs Hnd s R P Hk) as [p [Ep [Wp Rp]]]. exists p. split; [exact Ep|]. split; [exact Rp|]. intros c Hc.
  pose proof (rdCalm _ _ _ _ R) as C. destruct (needData_calm obs s C) as [_ [_ [_ K0]]]. specialize (K0 (rdCalc _ _ _ _ R)).
  destruct (prepare_calm obs s C) as [q [T [Er Epr]]]. cbv zeta in Epr. rewrite K0 in Epr. cbn [fst snd] in Epr.
  set (s1 := nl_withShrunk (nl_withPm s q) (nlSh s) (nlData s)) in *.
  assert (B1 : bbready s1).
  { split.
    - constructor.
      + apply (calm_shrunk obs (nl_withPm s q)). apply calm_pm; auto.
      + apply R. + apply R. + apply R.
      + cbn. eapply reassert_holds; [apply C|exact Er|apply R].
    - split; [cbn; rewrite (structure_pairs _ _ T); exact P|]. split; [exact B|]. split; [exact G|].
      cbn. rewrite <- P. apply (norms_after (nlPm s)); [apply C|apply R|rewrite P; exact Hun|exact Er]. }
  unfold nl_eval. rewrite Epr.
  destruct (bb_loop (seq 0 (hNBins (bdHist (nlData s1)))) s1 0%R B1) as [s2 [E2 [B2 C2]]].
  { intros k Hin. rewrite (rdData _ _ _ _ (proj1 B1)) in Hin. apply in_seq in Hin. lia. }
  rewrite E2. cbn [snd]. destruct B2 as [R2 [P2 _]]. destruct (params_ok obs d D pdfs Hnd s2 R2 P2 Hk) as [p2 [Ep2 [Wp2 Rp2]]]. rewrite Ep2. cbn [bind].
  assert (Epp : p2 = p).
  { apply swf_ext; auto. intros k. destruct (sfind k p2) as [v|] eqn:E.
    - symmetry. apply Rp. apply Rp2. exact E.
    - destruct (sfind k p) as [v|] eqn:E'; [|reflexivity]. apply Rp in E'. apply Rp2 in E'. congruence. }
  subst p2. rewrite C2. change (nlCm s1) with (nlCm s). rewrite Hc. cbn [rlift2]. f_equal. rewrite (rdData _ _ _ _ (proj1 B1)). ring.
Qed.
End BB.

Lemma bb_pkg names par build obs ops d D m : let rated := pdfs_from false ops in let pdfs := map fst rated in let nbins := hNBins (bdHist D) in
  Forall (plain obs) ops -> In NReg ops -> bb_in ops = true -> data_in ops = Some D -> h_reach (bdHist D) ->
  NoDup (fitted pdfs) -> uniform pdfs -> covers D pdfs -> all_rated rated -> (forall n, In n (fitted pdfs) -> has_key d n) ->
  (forall k, (k < nbins)%nat -> let mu := expected d pdfs k in let s2 := sigma2_of d rated mu in
     0 < mu /\ 0 < s2 /\ mu * s2 < 1 /\ 0 <= cont (bdHist D) k) ->
  exists s p beta, nl_setParams (nlrun (nl_new names par build) ops) d = (s, Ok tt) /\
    let s' := nlrun s (repeat NEval m) in
    nl_getParams s' = Ok p /\ restriction p d (fitted pdfs) /\
    (forall k, (k < nbins)%nat -> let mu := expected d pdfs k in let s2 := sigma2_of d rated mu in let n := cont (bdHist D) k in
       bb_root (qr s2) (qr n) (qr mu) (beta k) /\ (0 < beta k)%R /\ (forall x, bb_root (qr s2) (qr n) (qr mu) x -> (x <= beta k)%R) /\
       (n = mu -> beta k = 1%R)) /\
    (forall c, cman_eval (con_in ops) p = Ok c ->
       snd (nl_eval s') = Ok (rsum (map (fun k => let mu := expected d pdfs k in
          poisson_nll (qr (cont (bdHist D) k)) (beta k * qr mu) + (beta k - 1) * (beta k - 1) / (2 * qr (sigma2_of d rated mu))) (seq 0 nbins)) + qr c)%R).
Proof.
  cbv zeta. intros F Hreg Hbb Hdat HD Hnd Hun Hcov Hr Hk Hfine.
  destruct (nlrun_calm obs ops (nl_new names par build) None (calm_new obs names par build) F I) as [A1 [A2 [A3 [A4 [A5 [A6 A7]]]]]]. cbv zeta in *.
  set (s0 := nlrun (nl_new names par build) ops) in *.
  assert (Pp : pairs (nlPm s0) = map fst (pdfs_from false ops)) by (rewrite A2; reflexivity). change (fold_left dstep ops None) with (data_in ops) in A7.
  rewrite Hdat in A7. destruct A7 as [Hc Hd]. specialize (A6 (or_intror Hreg)).
  destruct (setParams_ready obs s0 d D A1 A6 Hc Hd) as [s [E [R [P2 [B2 C2]]]]]; [rewrite Pp; exact Hnd|rewrite Pp; exact Hk|].
  assert (Gs : nlGen s = nlGen s0).
  { clear -E A1. destruct (setParams_pm obs s0 d A1) as [p [_ [_ E1]]]. rewrite E in E1. cbn [fst] in E1. rewrite E1. reflexivity. }
  destruct (evals_ready obs d D m s R) as [R' [P' [B' C']]]. cbv zeta in *.
  assert (Gs' : nlGen (nlrun s (repeat NEval m)) = nlGen s).
  { clear -R. revert s R. induction m as [|m IH]; intros s R; [reflexivity|]. cbn [repeat nlrun fold_left nldo]. unfold nlrun in IH. rewrite IH by (apply ready_eval; exact R).
    destruct (eval_calm obs s (rdCalm _ _ _ _ R)) as [_ E]. apply E. }
  set (s' := nlrun s (repeat NEval m)) in *.
  assert (PP : pairs (nlPm s') = map fst (pdfs_from false ops)) by congruence.
  assert (BB : nlBB s' = true) by (rewrite B', B2, A4; exact Hbb).
  assert (CC : nlCm s' = con_in ops) by (rewrite C', C2, A3; reflexivity).
  assert (GG : nlGen s' = map rate_of (pdfs_from false ops)) by (rewrite Gs', Gs, A5; apply rates_plain; exact Hr).
  destruct (bb_eval obs d D (pdfs_from false ops) Hnd Hun Hcov HD Hr Hfine s' R' PP BB GG Hk) as [p [Ep [Rp V]]]. rewrite CC in V.
  exists s, p, (beta_at d D (pdfs_from false ops)). split; [exact E|]. split; [exact Ep|]. split; [exact Rp|]. split.
  - intros k Hlt. apply (beta_at_ok d D (pdfs_from false ops) Hfine k Hlt).
  - intros c Hcc. exact (V c Hcc).
Qed.
