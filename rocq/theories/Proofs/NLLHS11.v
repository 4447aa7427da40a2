(** C106: packaged. *)
From Coq Require Import ZArith Reals Lia.
From Verif Require Import Base.Res Base.Num Base.RNum Base.SMap Model.Axis Model.Event Model.Cut Model.Hist Model.ED Model.Param Model.Matrix Model.SystMan Model.Shrink Model.EDMan
  Model.Fill Model.Constraint Model.NLLH Spec.AxisSpec Spec.HistSpec Spec.ParamSpec Spec.EDManSpec Spec.SystManSpec Spec.NLLHSpec Spec.NLLHSysSpec
  Proofs.AxisP Proofs.HistP Proofs.HistP2 Proofs.ParamP Proofs.ParamP2 Proofs.ParamP3 Proofs.EDManP Proofs.EDManP2 Proofs.SystManP Proofs.SystManP2 Proofs.SystManP3 Proofs.NLLHP Proofs.NLLHP2 Proofs.NLLHP3 Proofs.NLLHP4 Proofs.NLLHP5 Proofs.NLLHS1 Proofs.NLLHS2 Proofs.NLLHS3 Proofs.NLLHS4 Proofs.NLLHS5 Proofs.NLLHS6 Proofs.NLLHS7 Proofs.NLLHS9 Proofs.NLLHS10.
Local Open Scope Qc_scope.
Local Open Scope res_scope.

Lemma regd_in n l : (exists gs, In (AddDist n gs) l) -> regd n l <> None.
Proof.
  intros [gs H]. unfold regd. assert (G : forall l a, (a <> None \/ exists gs, In (AddDist n gs) l) ->
    fold_left (fun a o => match o with AddDist n' gs => if String.eqb n n' then Some gs else a | _ => a end) l a <> None).
  { clear. induction l as [|o l IH]; intros a [H|[gs H]]; cbn [fold_left]; auto; try (destruct H; fail).
    - apply IH. left. destruct o; auto. destruct (String.eqb n name); [discriminate|exact H].
    - destruct H as [->|H]; apply IH; [left; rewrite String.eqb_refl; discriminate|right; eauto]. }
  apply G. right. eauto.
Qed.
Lemma calls_has ops : forall bb b st r, In (b, st, r) (pdfs_from bb ops) -> exists gs, In (AddDist (bdName b) gs) (sys_calls bb ops).
Proof.
  induction ops as [|o ops IH]; intros bb b st r H; [destruct H|]. destruct o as [b' g [r'|] st'| | | | | | x | | | | | |]; cbn [pdfs_from sys_calls] in *;
    try (destruct (IH _ _ _ _ H) as [gs Hg]; exists gs; first [exact Hg|now right]).
  - destruct H as [[= -> _ _]|H]; [exists g; now left|]. destruct (IH _ _ _ _ H) as [gs Hg]. exists gs. now right.
  - destruct bb; cbn [app]; [eauto|]. destruct H as [[= -> _ _]|H]; [exists g; now left|]. destruct (IH _ _ _ _ H) as [gs Hg]. exists gs. now right.
Qed.
Lemma accepted_regd names ops b : pdfs_accepted names ops -> In b (map fst (map fst (pdfs_from false ops))) -> regd (bdName b) (sys_accepted names ops) <> None.
Proof.
  intros Ha Hb. apply in_map_iff in Hb as [[b' st] [<- Hb]]. apply in_map_iff in Hb as [[[b'' st'] r] [E Hb]]. cbn [fst] in E. injection E as -> ->. cbn [fst].
  destruct (calls_has _ _ _ _ _ Hb) as [gs Hg]. apply regd_in. exists gs.
  assert (K : In (AddDist (bdName b') gs) (filter is_pdf (sys_calls false ops))) by (apply filter_In; auto). rewrite <- Ha in K. apply filter_In in K. apply K.
Qed.
Lemma count_grp m g q : In q (sm_grp m g) -> sm_count m <> 0%nat.
Proof. intros H E. pose proof (count0_acting m [g] E) as A. unfold acting in A. apply app_eq_nil in A as [_ A]. cbn [flat_map] in A. rewrite app_nil_r in A. rewrite A in H. destruct H. Qed.

Section Eval11.
Variables (names : nat -> string) (par : nat -> comp) (build : nat -> comp -> smat * res unit) (obs : list string).
Notation calmS := (calmS names par build obs).
Variables (d : smap Qc) (D : bed) (rated : list (bed * nfs * option Z)).
Notation pdfs := (map fst rated).
Notation nbins := (hNBins (bdHist D)).
Hypothesis Hnd : NoDup (fitted pdfs).
Hypothesis Hun : uniform pdfs.
Hypothesis Hcov : covers D pdfs.
Hypothesis HD : h_reach (bdHist D).
Hypothesis Hr : all_rated rated.
Variables (m : sman) (M : nat -> smat).
Definition muS (k : nat) : Qc := qsum (map (fun b => norm_in d b * cont (bdHist (respS m M (fst b))) k) pdfs).
Definition sgS (k : nat) : Qc := qsum (map (fun p => yieldS m M d (fst p) / (qz (rate_of p) * muS k * muS k)) rated).
Hypothesis Hfine : forall k, (k < nbins)%nat -> 0 < muS k /\ 0 < sgS k /\ muS k * sgS k < 1 /\ 0 <= cont (bdHist D) k.
Definition vp11 : list (bed * nfs) := combine (map (respS m M) (map fst pdfs)) (map snd pdfs).
Definition beta11 (k : nat) : R := beta10 d D vp11 (map rate_of rated) (map (yieldS m M d) pdfs) k.
Lemma combine_fst_snd {A B} (l : list (A * B)) : combine (map fst l) (map snd l) = l.
Proof. induction l as [|[a b] l IH]; cbn; [reflexivity|]. now rewrite IH. Qed.
Lemma mu11 k : expected d vp11 k = muS k.
Proof. unfold vp11. rewrite expected_map by reflexivity. rewrite combine_fst_snd. reflexivity. Qed.
Lemma sg11 k : sg10 d vp11 (map rate_of rated) (map (yieldS m M d) pdfs) k = sgS k.
Proof.
  unfold sg10, sgS. rewrite mu11. rewrite (qsum_map_nth _ rated (bed0, NFalse, None)). rewrite !map_length. f_equal. apply map_ext_in. intros j Hj. apply in_seq in Hj.
  rewrite (nth_indep (map rate_of rated) 0%Z (rate_of (bed0, NFalse, None))) by (rewrite map_length; lia). rewrite map_nth.
  rewrite (nth_indep (map (yieldS m M d) pdfs) 0 (yieldS m M d (fst (bed0, NFalse, None : option Z)))) by (rewrite !map_length; lia). rewrite map_nth, map_nth. reflexivity.
Qed.
Lemma vp_nth i b st : nth_error vp11 i = Some (b, st) -> exists o, nth_error pdfs i = Some (o, st) /\ b = respS m M o.
Proof.
  unfold vp11. rewrite combine_nth_err, nth_error_map, !nth_error_map. destruct (nth_error rated i) as [[[o s] r]|]; cbn [option_map fst snd]; [|discriminate]. intros [= <- <-]. eauto.
Qed.
Lemma vp_facts : NoDup (fitted vp11) /\ uniform vp11 /\ covers D vp11.
Proof.
  split; [|split].
  - unfold vp11. rewrite combine_ext_names by reflexivity. rewrite combine_fst_snd. exact Hnd.
  - destruct Hun as [U|U]; rewrite Forall_forall in U; [left|right]; apply Forall_forall; intros [b st] Hin; destruct (In_nth_error _ _ Hin) as [i Hi]; destruct (vp_nth _ _ _ Hi) as [o [Ho _]];
      apply nth_error_In in Ho; exact (U _ Ho).
  - apply Forall_forall. intros [b st] Hin. destruct (In_nth_error _ _ Hin) as [i Hi]. destruct (vp_nth _ _ _ Hi) as [o [Ho ->]]. apply nth_error_In in Ho. unfold covers in Hcov. rewrite Forall_forall in Hcov.
    destruct (Hcov _ Ho) as [X Y]. cbn [fst] in *. destruct (respS_reach m M o X) as [X' Y']. split; [exact X'|rewrite Y'; exact Y].
Qed.
Lemma gens_pos : Forall (fun g => (0 < g)%Z) (map rate_of rated).
Proof. unfold all_rated in Hr. clear -Hr. revert Hr. generalize rated. intros l0 F0. induction F0 as [|q l [g [E Hg]] F IH]; cbn [map]; [constructor|]. constructor; [|exact IH]. unfold rate_of. rewrite E. lia. Qed.
Lemma fine11 k : (k < nbins)%nat -> 0 < expected d vp11 k /\ 0 < sg10 d vp11 (map rate_of rated) (map (yieldS m M d) pdfs) k /\
  expected d vp11 k * sg10 d vp11 (map rate_of rated) (map (yieldS m M d) pdfs) k < 1 /\ 0 <= cont (bdHist D) k.
Proof. intros Hk. rewrite mu11, sg11. exact (Hfine k Hk). Qed.
Lemma beta11_ok k : (k < nbins)%nat -> bb_root (qr (sgS k)) (qr (cont (bdHist D) k)) (qr (muS k)) (beta11 k) /\ (0 < beta11 k)%R /\
  (forall x, bb_root (qr (sgS k)) (qr (cont (bdHist D) k)) (qr (muS k)) x -> (x <= beta11 k)%R) /\ (cont (bdHist D) k = muS k -> beta11 k = 1%R).
Proof.
  intros Hk. destruct (beta10_ok d D vp11 (map rate_of rated) (map (yieldS m M d) pdfs) fine11 k Hk) as [_ R]. rewrite sg11, mu11 in R. exact R.
Qed.
Lemma eval11 s p : calmS s -> nlCalc s = true -> nlData s = D -> holds (nlPm s) d -> nlBB s = true -> nlGen s = map rate_of rated -> pairs (nlPm s) = pdfs -> nl_getParams s = Ok p ->
  (forall s', calmS s' -> nlReg s' = nlReg s -> nlPar s' = nlPar s -> pairs (nlPm s') = pairs (nlPm s) -> holds (nlPm s') d -> nl_getParams s' = Ok p) ->
  m = nlSm s -> M = (fun q => fst (build q (nlPar s q))) ->
  (forall g q, In q (sm_grp m g) -> snd (build q (nlPar s q)) = Ok tt) ->
  (forall g, exists n, Forall (fun q => sized n (M q)) (sm_grp m g)) ->
  (forall b, In b pdfs -> Forall (fun q => sized (hNBins (bdHist (fst b))) (M q)) (actS m (fst b))) ->
  (forall b, In b pdfs -> sfind (bdName (fst b)) (smDists m) <> None) -> sm_count m <> 0%nat ->
  forall c, cman_eval (nlCm s) p = Ok c ->
  snd (nl_eval s) = Ok (rsum (map (fun k => poisson_nll (qr (cont (bdHist D) k)) (beta11 k * qr (muS k)) + (beta11 k - 1) * (beta11 k - 1) / (2 * qr (sgS k))) (seq 0 nbins)) + qr c)%R.
Proof.
  intros C Hc Hd Hh Hb Hgn Hp Eg Sg Em EM HB HG HS HR H0 c Hcc.
  pose proof (csInv _ _ _ _ _ C) as [[L1 _] _]. cbn [setOW emStat emOrig] in L1.
  assert (EO : emOrig (nlPm s) = map fst pdfs) by (rewrite <- Hp; symmetry; apply combine_pairs; exact L1).
  assert (ES : emStat (nlPm s) = map snd pdfs) by (rewrite <- Hp; symmetry; apply pairs_stat; exact L1).
  destruct (preparedN names par build obs s d C Hc Hh) as [s2 [E2 [C2 [S2 [W2 N2]]]]].
  { rewrite Hp. exact Hun. } { rewrite <- Em. exact HB. } { intros g. rewrite <- Em. destruct (HG g) as [n Hn]. exists n. rewrite EM in Hn. exact Hn. }
  { rewrite EO, <- Em. intros o Ho. apply in_map_iff in Ho as [b [<- Hin]]. pose proof (HS b Hin) as X. rewrite EM in X. exact X. }
  { rewrite EO, <- Em. intros o Ho. apply in_map_iff in Ho as [b [<- Hin]]. exact (HR b Hin). } { rewrite <- Em. exact H0. }
  rewrite <- Em, <- EM in W2, N2. rewrite EO in W2. rewrite Hp in N2.
  pose proof S2 as [A1 [A2 [A3 [A4 [A5 [A6 [A7 [A8 [[A9 A9'] [A10 A11]]]]]]]]]]. destruct (A11 Hc) as [_ D2].
  assert (St2 : emStat (nlPm s2) = emStat (nlPm s)).
  { pose proof (csInv _ _ _ _ _ C2) as [[L1' _] _]. cbn [setOW emStat emOrig] in L1'. rewrite <- (pairs_stat (nlPm s2) L1'), A9. apply pairs_stat. exact L1. }
  assert (Vp : pairs (view (nlPm s2)) = vp11) by (unfold pairs, view, setOW; cbn; rewrite W2, St2, ES; reflexivity).
  assert (ND : nlData s2 = D) by congruence.
  assert (R : rdyB names par build obs d D vp11 (map rate_of rated) (map (yieldS m M d) pdfs) s2) by (constructor; auto; congruence).
  destruct vp_facts as [V1 [V2 V3]].
  unfold nl_eval. rewrite E2.
  destruct (loop10 names par build obs d D vp11 (map rate_of rated) (map (yieldS m M d) pdfs) V1 V2 V3 HD gens_pos (eq_trans (map_length _ _) (eq_trans (map_length _ _) (eq_sym (map_length _ _)))) fine11
              (seq 0 (hNBins (bdHist (nlData s2)))) s2 0%R R) as [s3 [E3 [C3 S3]]].
  { intros k Hk. rewrite ND in Hk. apply in_seq in Hk. lia. }
  rewrite E3. cbn [snd]. pose proof (stays_trans _ _ _ S2 S3) as [B1 [B2 [B3 [B4 [B5 [B6 [B7 [B8 [[B9 B9'] [B10 B11]]]]]]]]]].
  rewrite (Sg s3 C3 B3 B5 B9 (B10 d Hh)). cbn [bind]. rewrite B1, Hcc. cbn [rlift2]. f_equal. rewrite ND.
  assert (Eq : map (bb10 d D vp11 (map rate_of rated) (map (yieldS m M d) pdfs)) (seq 0 nbins) =
    map (fun k => poisson_nll (qr (cont (bdHist D) k)) (beta11 k * qr (muS k)) + (beta11 k - 1) * (beta11 k - 1) / (2 * qr (sgS k)))%R (seq 0 nbins)).
  { apply map_ext. intros k. unfold bb10. rewrite mu11, sg11. reflexivity. }
  rewrite Eq. ring.
Qed.
End Eval11.

Lemma bb_sys_pkg names par build obs ops d D : let rated := pdfs_from false ops in let pdfs := map fst rated in let nbins := hNBins (bdHist D) in
  (forall q, comp_ok (par q)) -> Forall (steady obs) ops -> registered ops -> distinct_names names ops -> bb_in ops = true ->
  data_in ops = Some D -> h_reach (bdHist D) -> NoDup (fitted pdfs) -> uniform pdfs -> covers D pdfs -> all_rated rated -> pdfs_accepted names ops ->
  (exists q, is_sys names ops q) -> swf d -> (forall n, In n (fitted pdfs) -> has_key d n) ->
  (forall q n, is_sys names ops q -> ~ is_dict (par q) -> In n (c_names (par q)) -> has_key d n) ->
  exists s p, nl_setParams (nlrun (nl_new names par build) ops) d = (s, Ok tt) /\
    (forall q n v, is_sys names ops q -> In n (c_names (par q)) -> sfind n d = Some v -> c_get (nlPar s q) n = Ok v) /\
    let M := fun q => fst (build q (nlPar s q)) in
    let mu := expected_sys names ops M d pdfs in let s2 := fun k => sigma2_sys names ops M d rated (mu k) in let n := cont (bdHist D) in
    (forall q, is_sys names ops q -> snd (build q (nlPar s q)) = Ok tt) -> fits names ops M pdfs ->
    (forall k, (k < nbins)%nat -> 0 < mu k /\ 0 < s2 k /\ mu k * s2 k < 1 /\ 0 <= n k) ->
    exists beta,
    (forall k, (k < nbins)%nat -> bb_root (qr (s2 k)) (qr (n k)) (qr (mu k)) (beta k) /\ (0 < beta k)%R /\
       (forall x, bb_root (qr (s2 k)) (qr (n k)) (qr (mu k)) x -> (x <= beta k)%R) /\ (n k = mu k -> beta k = 1%R)) /\
    forall m, let s' := nlrun s (repeat NEval m) in
    nl_getParams s' = Ok p /\
    (forall n v, sfind n d = Some v -> In n (fitted pdfs) \/ (exists q, is_sys names ops q /\ In n (c_names (par q))) -> sfind n p = Some v) /\
    (forall c, cman_eval (con_in ops) p = Ok c ->
       snd (nl_eval s') = Ok (rsum (map (fun k => poisson_nll (qr (n k)) (beta k * qr (mu k)) + (beta k - 1) * (beta k - 1) / (2 * qr (s2 k))) (seq 0 nbins)) + qr c)%R).
Proof.
  cbv zeta. intros Hpar F Hreg Hdn Hbb Hdat HD Hnd Hun Hcov Hr Hac Hsys Wd Hk Hks.
  assert (K0 : skel (nlSm (nl_new names par build)) (sm_new (obj0 names))) by (repeat split).
  destruct (nlrunS names par build obs ops (nl_new names par build) None _ (calmS_new names par build obs Hpar) K0 F I) as [A1 [A2 [A3 [A4 [A5 [A6 A7]]]]]]. cbv zeta in *.
  specialize (A7 (or_intror Hreg)). change (nlBB (nl_new names par build)) with false in *.
  assert (Gen : nlGen (nlrun (nl_new names par build) ops) = map rate_of (pdfs_from false ops)).
  { rewrite (genrun names par build obs ops _ None _ (calmS_new names par build obs Hpar) K0 F I); [apply rates_plain; exact Hr|]. unfold full.
    change (accepted (sm_new (obj0 names)) (sys_calls (nlBB (nl_new names par build)) ops)) with (sys_accepted names ops). rewrite Hac. reflexivity. }
  set (s0 := nlrun (nl_new names par build) ops) in *.
  destruct (history_pkg (obj0 names) (sys_calls false ops)) as [HG HDs]. cbv zeta in *.
  change (accepted (sm_new (obj0 names)) (sys_calls false ops)) with (sys_accepted names ops) in HG, HDs.
  set (t := smrun (sm_new (obj0 names)) (sys_calls false ops)) in *.
  assert (Gr : forall a, skel a t -> forall g, sm_grp a g = group_in names ops g).
  { intros a [Ga _] g. unfold group_in. rewrite <- HG. unfold sm_grp. now rewrite Ga. }
  assert (Ac : forall a b, skel a t -> actS a b = acting_on names ops b).
  { intros a b Ka. pose proof Ka as [_ [Da _]]. unfold actS, acting_on. rewrite Da, HDs. destruct (regd (bdName b) (sys_accepted names ops)) as [gs|]; [|reflexivity].
    unfold acting. rewrite (Gr a Ka). f_equal. apply flat_map_ext. apply (Gr a Ka). }
  set (rated := pdfs_from false ops) in *. set (pdfs := map fst rated) in *.
  assert (Pp : pairs (nlPm s0) = pdfs) by (rewrite A3; reflexivity).
  change (fold_left NLLHP2.dstep ops None) with (data_in ops) in A6. rewrite Hdat in A6. destruct A6 as [Hc Hd].
  destruct (refs_shape (nlSm s0)) as [qs [Eqs [Nqs [Iq1 Iq2]]]]. unfold regs in A7. rewrite Eqs in A7.
  assert (Sys : forall q, In q (List.concat (map snd (smGroups (nlSm s0)))) <-> is_sys names ops q).
  { intros q. rewrite (in_groups _ q (csSm _ _ _ _ _ A1)). unfold is_sys. split; intros [g Hg]; exists g; [rewrite <- (Gr _ A2)|rewrite (Gr _ A2)]; exact Hg. }
  assert (Qs : forall q, In q qs <-> is_sys names ops q).
  { intros q. split; [intros Hq; apply Sys, Iq1, Hq|]. intros Hq. destruct (Iq2 q (proj2 (Sys q) Hq)) as [q' [Hin En]].
    replace q with q'; [exact Hin|]. apply Hdn; [apply Sys, Iq1, Hin|exact Hq|]. rewrite !(proj1 (csObj _ _ _ _ _ A1 _)) in En. exact En. }
  destruct (setP names par build obs s0 d qs t A1 A2 A7 Nqs Wd) as [s [Es [C [K [Mo [T [Hh Hq]]]]]]]; [rewrite Pp; exact Hnd|rewrite Pp; exact Hk|intros q n Hin; apply Hks, Qs, Hin|].
  destruct Mo as [M1 [M2 [M3 [M4 M5]]]].
  assert (Gs : nlGen s = nlGen s0).
  { assert (Eg : nlGen (fst (nl_setParams s0 d)) = nlGen s0) by (unfold nl_setParams; destruct (cm_setAll (map (nl_comp s0) (nlReg s0)) d); cbn [fst]; apply fold_put_gen). rewrite Es in Eg. exact Eg. }
  assert (Ps : pairs (nlPm s) = pdfs) by (rewrite (structure_pairs _ _ T); exact Pp).
  destruct (getP names par build obs s d qs C) as [p [Ep [Wp [Sp [P1 P2]]]]]; [congruence|rewrite Ps; exact Hnd|rewrite Ps; exact Hk|exact Hh|exact Hq|]. rewrite Ps in P1, P2.
  exists s, p. split; [exact Es|]. split; [intros q n v Hs; apply Hq, Qs, Hs|]. intros HB [HF1 HF2] Hfine.
  set (M := fun q => fst (build q (nlPar s q))) in *.
  assert (RS : forall a b, skel a t -> hCont (bdHist (respS a M b)) = responded names ops M b).
  { intros a b Ka. unfold respS, responded, with_contents. cbn [bdHist hCont]. rewrite (Ac _ _ Ka). reflexivity. }
  assert (MU : forall a, skel a t -> forall k, muS d rated a M k = expected_sys names ops M d pdfs k).
  { intros a Ka k. unfold muS, expected_sys. f_equal. apply map_ext. intros b. unfold cont. rewrite (RS a _ Ka). reflexivity. }
  assert (SG : forall a, skel a t -> forall k, sgS d rated a M k = sigma2_sys names ops M d rated (expected_sys names ops M d pdfs k)).
  { intros a Ka k. unfold sgS, sigma2_sys. rewrite (MU a Ka). f_equal. apply map_ext. intros b. unfold yieldS, mc_events. rewrite (RS a _ Ka). reflexivity. }
  assert (FN : forall k, (k < hNBins (bdHist D))%nat -> 0 < muS d rated t M k /\ 0 < sgS d rated t M k /\ muS d rated t M k * sgS d rated t M k < 1 /\ 0 <= cont (bdHist D) k).
  { intros k Hlt. rewrite (MU t), (SG t) by (repeat split). exact (Hfine k Hlt). }
  exists (beta11 d D rated t M). split.
  { intros k Hlt. pose proof (beta11_ok d D rated t M FN k Hlt) as R. rewrite (MU t), (SG t) in R by (repeat split). exact R. }
  intros m. destruct (evals6 names par build obs m s C) as [C' S']. cbv zeta in *. set (s' := nlrun s (repeat NEval m)) in *.
  pose proof S' as [B1 [B2 [B3 [B4 [B5 [B6 [B7 [B8 [[B9 B9'] [B10 B11]]]]]]]]]]. destruct B11 as [B11 B12]; [congruence|].
  assert (K' : skel (nlSm s') t) by (eapply skel_shape; eassumption).
  assert (Ep' : nl_getParams s' = Ok p) by (apply Sp; auto; congruence).
  split; [exact Ep'|]. split.
  { intros n v Hv H. apply P1; [exact Hv|]. destruct H as [H|[q [Hs Hn]]]; [now left|right]. exists q. split; [now apply Qs|exact Hn]. }
  intros c Hcc.
  assert (FN' : forall k, (k < hNBins (bdHist D))%nat -> 0 < muS d rated (nlSm s') M k /\ 0 < sgS d rated (nlSm s') M k /\ muS d rated (nlSm s') M k * sgS d rated (nlSm s') M k < 1 /\ 0 <= cont (bdHist D) k).
  { intros k Hlt. rewrite (MU _ K'), (SG _ K'). exact (Hfine k Hlt). }
  rewrite (eval11 names par build obs d D rated Hnd Hun Hcov HD Hr (nlSm s') M FN' s' p C') with (c := c); auto; try congruence.
  - f_equal. f_equal. f_equal. apply map_ext. intros k. rewrite (MU _ K'), (SG _ K').
    assert (EB : beta11 d D rated (nlSm s') M k = beta11 d D rated t M k).
    { unfold beta11, beta10. rewrite !mu11, !sg11. rewrite (MU _ K'), (SG _ K'), (MU t), (SG t) by (repeat split). reflexivity. }
    rewrite EB. reflexivity.
  - rewrite B2, M2, A5. exact Hbb.
  - rewrite B9. exact Ps.
  - intros s3 C3 R3 P3 Q3 H3. apply Sp; auto; congruence.
  - unfold M. rewrite B5. reflexivity.
  - intros g q Hq'. rewrite B5. apply HB. exists g. rewrite <- (Gr _ K'). exact Hq'.
  - intros g. destruct (HF1 g) as [n Hn]. exists n. rewrite (Gr _ K'). exact Hn.
  - intros b Hb. rewrite (Ac _ _ K'). apply HF2, Hb.
  - intros b Hb. destruct K' as [_ [Kd _]]. rewrite Kd, HDs. apply accepted_regd; [exact Hac|]. change (map fst (pdfs_from false ops)) with pdfs. apply in_map. exact Hb.
  - destruct Hsys as [q [g Hg]]. apply (count_grp _ g q). rewrite (Gr _ K'). exact Hg.
  - rewrite B1, M1, A4. exact Hcc.
Qed.
