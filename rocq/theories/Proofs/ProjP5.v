(** C98 without systematics: one axis, buffers on it. *)
From Coq Require Import ZArith Reals Lia.
From Verif Require Import Base.Res Base.Num Base.RNum Base.SMap Model.Axis Model.Event Model.Cut Model.Hist Model.ED Model.Param Model.Matrix Model.SystMan Model.Shrink Model.EDMan
  Model.Fill Model.Constraint Model.NLLH Spec.AxisSpec Spec.HistSpec Spec.HistToolsSpec Spec.ParamSpec Spec.EDManSpec Spec.SystManSpec Spec.NLLHSpec Spec.NLLHSysSpec Spec.ShrinkSpec Spec.BufferSpec Spec.ProjSpec
  Proofs.AxisP Proofs.HistP Proofs.HistP2 Proofs.HistP4 Proofs.ParamP Proofs.ParamP2 Proofs.ParamP3 Proofs.EDManP Proofs.EDManP2 Proofs.SystManP Proofs.SystManP2 Proofs.SystManP3 Proofs.NLLHP Proofs.NLLHP2
  Proofs.NLLHP3 Proofs.NLLHS1 Proofs.NLLHS2 Proofs.NLLHS6 Proofs.NLLHS8 Proofs.ShrinkP Proofs.BufferP1 Proofs.BufferP2 Proofs.BufferP3 Proofs.BufferP4 Proofs.BufferP5 Proofs.ProjP1 Proofs.ProjP2 Proofs.ProjP3 Proofs.ProjP4.
Local Open Scope Qc_scope.
Local Open Scope res_scope.

Lemma one_name n bs : Forall (only_axis n) bs -> shBuf (configured bs) = [] \/ exists v, shBuf (configured bs) = [(n, v)].
Proof.
  unfold configured. intros F. assert (G : forall y, (shBuf y = [] \/ exists v, shBuf y = [(n, v)]) -> shBuf (fold_left sh_do bs y) = [] \/ exists v, shBuf (fold_left sh_do bs y) = [(n, v)]).
  { induction F as [|o bs H F IH]; intros y E; [exact E|]. cbn [fold_left]. apply IH. destruct o as [m lo up|b]; cbn [sh_do only_axis] in *; [|exact E]. subst m. right.
    unfold sh_setBuffer. cbn [shBuf]. destruct E as [->|[v ->]]; cbn [sset]; [eauto|]. replace (String.compare n n) with Eq by (symmetry; now apply compare_eq). eauto. }
  apply G. now left.
Qed.
Lemma one_bins bs a : unsigned_sizes bs -> (sizes bs < 2 ^ 31)%Z -> Forall (only_axis (aName a)) bs -> em_bufferBins (configured bs) = Z.of_nat (lower bs a + upper bs a).
Proof.
  intros Hu Hs Ho. destruct (conf_sum bs Hu sh_new) as [A B]; [intros x []|]. cbv zeta in *. fold (configured bs) in *. change (psum (map snd (shBuf sh_new))) with 0%Z in B.
  unfold em_bufferBins. rewrite bufferBins_sum; [|lia|exact A|lia].
  destruct (conf_facts bs sh_new Hu) as [_ [_ [_ [_ [F _]]]]]. fold (configured bs) in F. specialize (F (aName a)).
  unfold lower, upper. change (bufZ (shBuf sh_new) (aName a)) with (0, 0)%Z in F. rewrite <- F. unfold bufZ.
  destruct (one_name _ _ Ho) as [E|[v E]]; rewrite E in *; cbn [sfind map snd].
  - reflexivity.
  - rewrite String.eqb_refl, psum_cons. cbn [map snd] in A. pose proof (A v (or_introl eq_refl)). change (psum []) with 0%Z. lia.
Qed.
Lemma no_sys_acts names ops : (forall q, ~ is_sys names ops q) -> (forall g, group_in names ops g = []) /\ forall b, acting_on names ops b = [].
Proof.
  intros H. assert (G : forall g, group_in names ops g = []). { intros g. destruct (group_in names ops g) as [|q l] eqn:E; [reflexivity|]. exfalso. apply (H q). exists g. rewrite E. now left. }
  split; [exact G|]. intros b. unfold acting_on. destruct (regd _ _) as [gs|]; [|reflexivity]. unfold acting. rewrite G.
  assert (Ef : flat_map (group_in names ops) gs = []) by (induction gs as [|g gs IH]; cbn [flat_map]; [reflexivity|now rewrite G, IH]). rewrite Ef. now destruct (in_dec _ _ _).
Qed.

Lemma one_axis_pkg names par build obs ops ts d D a : let pdfs := NLLHSpec.added ops in let bs := buffers ops in
  (forall q, comp_ok (par q)) -> Forall (setting_up obs) ops -> registered ops -> bb_in ops = false ->
  data_in ops = Some D -> h_reach (bdHist D) -> (Z.of_nat (hNBins (bdHist D)) < 2 ^ 31)%Z ->
  NoDup (fitted pdfs) -> direct_first pdfs -> pdfs <> [] -> (forall q, ~ is_sys names ops q) ->
  (forall b, In b pdfs -> hAxes (bdHist (fst b)) = hAxes (bdHist D)) ->
  unsigned_sizes bs -> (sizes bs < 2 ^ 31)%Z -> acAxes (hAxes (bdHist D)) = [a] -> Forall (only_axis (aName a)) bs -> (0 < lower bs a + upper bs a < aNBins a)%nat ->
  swf d -> (forall n, In n (fitted pdfs) -> has_key d n) -> Forall tuning ts ->
  exists (D' : bed) (Sh : bed -> hist), cut_down bs (bdHist D) (bdHist D') /\ (forall b, In b pdfs -> cut_down bs (bdHist (fst b)) (Sh (fst b))) /\
    ((forall b, In b pdfs -> match snd b with NDirect => total (Sh (fst b)) <> 0 | NIndirect => total (bdHist (fst b)) <> 0 \/ total (Sh (fst b)) = 0 | NFalse => True end) ->
     exists s p, nl_setParams (nlrun (nl_new names par build) (ops ++ ts)) d = (s, Ok tt) /\
     forall m, let s' := nlrun s (repeat NEval m) in
     nl_getParams s' = Ok p /\ (forall n v, sfind n d = Some v -> In n (fitted pdfs) -> sfind n p = Some v) /\
     snd (nl_eval s') = outcome (cont (bdHist D')) (fun k => qsum (map (fun b => norm_in d b * kept b (Sh (fst b)) k) pdfs)) (hNBins (bdHist D')) (cman_eval (con_in ops) p)).
Proof.
  cbv zeta. intros Hpar Fo Hreg Hbb Hdat HD Hsmall Hnd Hdf Hne Hno Hax Hu Hsz Ha Honly Hfit Wd Hk Ht. set (bs := buffers ops) in *. set (pdfs := NLLHSpec.added ops) in *.
  assert (Hfit' : Forall (fun a => (lower bs a + upper bs a < aNBins a)%nat) (acAxes (hAxes (bdHist D)))) by (rewrite Ha; constructor; [lia|constructor]).
  assert (Hsome : Exists (fun a => (0 < lower bs a + upper bs a)%nat) (acAxes (hAxes (bdHist D)))) by (rewrite Ha; constructor; lia).
  destruct (shrinks bs D Hu HD Hsmall Hfit' Hsome) as [x [nk [Hmap [Hbx [Hbn Hall]]]]]. destruct (Hall D HD eq_refl) as [D' [Hsh [Ho' [Hcd Hnk]]]].
  assert (Bx : em_bufferBins x = Z.of_nat (lower bs a + upper bs a)) by (unfold em_bufferBins; rewrite Hbx; exact (one_bins bs a Hu Hsz Honly)).
  assert (HO : osNames (bdObs D) = obs).
  { clear -Fo Hdat. unfold data_in in Hdat. assert (G : forall a, (forall E, a = Some E -> osNames (bdObs E) = obs) -> fold_left (fun a o => match o with NData b => Some b | NDataSet _ => None | _ => a end) ops a = Some D -> osNames (bdObs D) = obs).
    { clear Hdat. induction Fo as [|o ops H F IH]; intros a Ha; cbn [fold_left]; [apply Ha|]. apply IH. destruct o; cbn [setting_up] in H; auto; try discriminate. intros E [= <-]. exact H. }
    eapply G; [|exact Hdat]. discriminate. }
  assert (Fp : Forall (setting_pdfs obs) ops) by (eapply Forall_impl; [|exact Fo]; intros []; cbn; tauto).
  assert (Or : forall o st, In (o, st) pdfs -> osNames (bdObs o) = obs /\ h_reach (bdHist o)) by (intros o st Hi; unfold pdfs, NLLHSpec.added in Hi; apply in_map_iff in Hi; destruct Hi as [[[o' st'] r] [Ei Hi]]; cbn [fst] in Ei; injection Ei as -> ->; exact (pdfs_setting obs ops Fp _ _ _ _ Hi)).
  assert (Nn : forall o st, In (o, st) pdfs -> hNBins (bdHist o) = aNBins a).
  { intros o st Hi. destruct (Or o st Hi) as [_ R]. rewrite (h_ok_nbins _ (h_reach_ok _ R)). unfold shape_of. pose proof (Hax _ Hi) as E0. cbn [fst] in E0. rewrite E0, Ha. cbn. lia. }
  assert (Nk : (nk = aNBins a - (lower bs a + upper bs a))%nat).
  { destruct Hcd as [R1 [F2 _]]. rewrite <- Hnk. rewrite (h_ok_nbins _ (h_reach_ok _ R1)). unfold shape_of. rewrite Ha in F2. inversion F2 as [|? a' ? ? T1 T2]; subst. inversion T2; subst. cbn. destruct T1 as [_ [T _]]. lia. }
  assert (Dn : distinct_names names ops) by (intros q q' H; exfalso; exact (Hno q H)).
  destruct (no_sys_acts names ops Hno) as [Ng Na].
  exists D', (fun b => cut_hist x b). split; [exact Hcd|]. split.
  { intros [o st] Hi. cbn [fst]. destruct (Or o st Hi) as [_ R]. destruct (Hall o R (Hax _ Hi)) as [d' [E1 [_ [E2 _]]]]. unfold cut_hist. rewrite E1. exact E2. }
  intros HT. set (ok := fun w st => match st with NDirect => total (cut_hist x w) <> 0 | NIndirect => total (bdHist w) <> 0 \/ total (cut_hist x w) = 0 | NFalse => True end).
  assert (Fin : forall o w st, In (o, st) pdfs -> h_reach (bdHist w) -> w = with_contents o (hCont (bdHist w)) -> ok w st ->
    shrunk_pdf x st w (final x st w) /\ h_reach (bdHist (final x st w)) /\ hNBins (bdHist (final x st w)) = nk /\ osNames (bdObs (final x st w)) = obs /\ hNBins (bdHist w) = aNBins a).
  { intros o w st Hi R Ew K. assert (Aw : hAxes (bdHist w) = hAxes (bdHist D)) by (rewrite Ew; exact (Hax _ Hi)). destruct (Hall w R Aw) as [d' [E1 E2]].
    destruct (final_ok bs x nk st w R (ex_intro _ d' (conj E1 E2)) K) as [P1 [P2 [P3 _]]]. repeat (split; [assumption|]). split.
    - destruct E2 as [E2 _]. unfold final. rewrite E1. assert (On : osNames (bdObs w) = obs) by (rewrite Ew; apply (Or o st Hi)). destruct (is_direct st); [|congruence]. unfold bed_normalise, bed_on. destruct (normalise (bdHist d')); cbn; congruence.
    - rewrite Ew. exact (Nn o st Hi). }
  assert (Okt : forall o st, In (o, st) pdfs -> ok o st) by (intros o st Hi; exact (HT _ Hi)).
  destruct (gen_pkg names par build obs ops ts d D D' x nk (fun w st => final x st w) ok Hpar Fp Hreg Dn Hbb Hdat Hmap Hsh (conj (proj1 Hcd) Hnk) Hnd Hdf) as [s [p [E [_ HH]]]]; auto.
  - intros w st R [o [Hi Ew]] K. destruct (Fin o w st Hi R Ew K) as [_ [P2 [P3 _]]]. auto.
  - intros p R Lo Hp HR HW. change (pairs p = pdfs) in Hp. unfold tailG. rewrite dims_same; [cbn [chain]|].
    2:{ intros w Hw. destruct (works_in p _ Lo HW w Hw) as [i [o [st [_ [_ [Hi [_ ->]]]]]]]. rewrite Hp in Hi. destruct (HR o st Hi) as [_ [R2 _]]. rewrite R2. cbn. destruct (Or o st Hi). congruence. }
    pose proof Lo as [[L0 L0a] L0']. cbn [base setOW emStat emOrig] in L0.
    destruct (shrinks_ok x (List.length (emWork p)) 0 p (fun i => match nth_error (emStat p) i, nth_error (emWork p) i with Some st, Some w => final x st w | _, _ => bed0 end)) as [p3 [E5 [L5 N5]]].
    { apply Lo. } { lia. } { lia. }
    { intros i st w _ Es Ew. rewrite Es, Ew. destruct (nth_error (emOrig p) i) as [o|] eqn:Eo; [|apply nth_error_None in Eo; assert (i < List.length (emWork p))%nat by (apply nth_error_Some; congruence); lia].
      rewrite (HW i o st Eo Es) in Ew. injection Ew as <-. assert (Hi : In (o, st) pdfs) by (rewrite <- Hp; unfold pairs; apply (nth_error_In _ i); rewrite combine_nth_err, Eo, Es; reflexivity).
      destruct (HR o st Hi) as [R1 [R2 R3]]. apply (Fin o (R o) st Hi R1 R2 R3). }
    assert (Kp : keeps p (fst (em_shrink p x))) by (apply shrink_keeps; exact Lo).
    assert (E6 : em_shrink p x = (p3, Ok tt)).
    { unfold em_shrink. destruct (shBuf x) as [|b0 bt]; [congruence|].
      destruct (emOrig p) as [|o0 ot] eqn:Eo; [exfalso; apply Hne; rewrite <- Hp; unfold pairs; rewrite Eo; reflexivity|]. destruct (emStat p) as [|st0 stt] eqn:Es; [discriminate L0|].
      assert (W0 : nth_error (emWork p) 0 = Some (R o0)) by (apply (HW 0%nat o0 st0); [rewrite Eo|rewrite Es]; reflexivity). unfold vat. rewrite W0. cbn [nth_error obind].
      assert (Hi : In (o0, st0) pdfs) by (rewrite <- Hp; unfold pairs; rewrite Eo, Es; now left).
      destruct (HR o0 st0 Hi) as [R1 [R2 R3]]. destruct (Fin o0 (R o0) st0 Hi R1 R2 R3) as [_ [_ [_ [_ ->]]]]. rewrite (Nn o0 st0 Hi), Bx.
      assert (Hs : (Z.of_nat (aNBins a) < 2 ^ 31)%Z) by (rewrite (h_ok_nbins _ (h_reach_ok _ HD)) in Hsmall; unfold shape_of in Hsmall; rewrite Ha in Hsmall; cbn [map prod fold_right] in Hsmall; lia).
      replace (w64 (Z.of_nat (aNBins a) - Z.of_nat (lower bs a + upper bs a))) with (Z.of_nat (aNBins a) - Z.of_nat (lower bs a + upper bs a))%Z by (unfold w64; rewrite Z.mod_small; lia).
      destruct (Z.eqb_spec (Z.of_nat (aNBins a)) (Z.of_nat (aNBins a) - Z.of_nat (lower bs a + upper bs a))) as [Z|_]; [lia|]. rewrite Z.eqb_refl. cbn [negb]. exact E5. }
    exists p3. split; [exact E6|]. rewrite E6 in Kp. cbn [fst] in Kp. destruct Kp as [KO [KS _]]. intros i o st Eo Es. rewrite KO in Eo. rewrite KS in Es. pose proof (HW i o st Eo Es) as Ew.
    rewrite N5 by (apply nth_error_Some; congruence). cbn [Nat.ltb Nat.leb]. rewrite Es, Ew. reflexivity.
  - intros _. split; [exact Okt|]. intros p Lo Hp HW. change (pairs p = pdfs) in Hp.
    assert (Fo0 : forall o st, In (o, st) pdfs -> hNBins (bdHist (final x st o)) = nk /\ osNames (bdObs (final x st o)) = obs).
    { intros o st Hi. destruct (Fin o o st Hi) as [_ [_ [P3 [P4 _]]]]; auto; [apply (Or o st Hi)|symmetry; apply with_same]. }
    exists p. split; [|exact HW]. unfold tailG. rewrite dims_same.
    + cbn [chain]. unfold em_shrink. destruct (shBuf x) as [|b0 bt]; [reflexivity|]. pose proof Lo as [[L0 L0a] L0']. cbn [base setOW emStat emOrig] in L0.
      destruct (emOrig p) as [|o0 ot] eqn:Eo; [exfalso; apply Hne; rewrite <- Hp; unfold pairs; rewrite Eo; reflexivity|]. destruct (emStat p) as [|st0 stt] eqn:Es; [discriminate L0|].
      assert (W0 : nth_error (emWork p) 0 = Some (final x st0 o0)) by (apply (HW 0%nat o0 st0); [rewrite Eo|rewrite Es]; reflexivity). unfold vat. rewrite W0. cbn [nth_error obind].
      assert (Hi : In (o0, st0) pdfs) by (rewrite <- Hp; unfold pairs; rewrite Eo, Es; now left). destruct (Fo0 o0 st0 Hi) as [-> _]. rewrite (Nn o0 st0 Hi), Bx.
      assert (Hs : (Z.of_nat (aNBins a) < 2 ^ 31)%Z) by (rewrite (h_ok_nbins _ (h_reach_ok _ HD)) in Hsmall; unfold shape_of in Hsmall; rewrite Ha in Hsmall; cbn [map prod fold_right] in Hsmall; lia).
      replace (w64 (Z.of_nat (aNBins a) - Z.of_nat (lower bs a + upper bs a))) with (Z.of_nat nk) by (unfold w64; rewrite Z.mod_small; lia). rewrite Z.eqb_refl. reflexivity.
    + intros w Hw. destruct (works_in p _ Lo HW w Hw) as [i [o [st [_ [_ [Hi [_ ->]]]]]]]. rewrite Hp in Hi. destruct (Fo0 o st Hi). congruence.
  - intros q n Hq. exfalso. exact (Hno q Hq).
  - exists s, p. split; [exact E|]. intros m. cbv zeta in HH. assert (Rn : forall M b, with_contents b (responded names ops M b) = b) by (intros M b; unfold responded; rewrite Na; cbn [map mvs fold_left]; apply with_same).
    destruct (HH) with (m := m) as [H1 [H2 H3]].
    + intros q Hq. exfalso. exact (Hno q Hq).
    + split; [intros g; exists 0%nat; rewrite Ng; constructor|intros b _; rewrite Na; constructor].
    + intros [o st] Hi. cbn [fst snd]. rewrite Rn. apply Okt, Hi.
    + split; [exact H1|]. split; [intros n v Hv Hi; apply H2; auto|]. rewrite H3. f_equal. apply FunctionalExtensionality.functional_extensionality. intros k. f_equal. apply map_ext_in. intros [o st] Hi. cbn [fst snd]. rewrite Rn. f_equal.
      destruct (Or o st Hi) as [_ R]. apply (final_ok bs x nk st o R (Hall o R (Hax _ Hi)) (Okt o st Hi)).
Qed.
