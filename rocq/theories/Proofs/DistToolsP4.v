(** Proofs for C80 (Gaussian) and C82 (round trip). *)
From Coq Require Import ZArith.
From Verif Require Import Base.Res Base.Num Base.SMap Model.Axis Model.Hist Model.Gauss Model.DistTools Spec.AxisSpec Spec.HistSpec Spec.GaussSpec Spec.DistToolsSpec.
From Verif Require Import Proofs.AxisP Proofs.HistP Proofs.HistP2 Proofs.HistP4 Proofs.GaussP Proofs.GaussP2 Proofs.GaussP3 Proofs.DistToolsP Proofs.DistToolsP2 Proofs.DistToolsP3.
Local Open Scope Qc_scope.
Local Open Scope res_scope.

Lemma evenly_regular a : built a -> evenly a -> aMin a < aMax a -> regular a.
Proof.
  intros Hb He Hm. destruct (built_facts a Hb) as [Hn _]. pose proof (width_pos _ _ _ Hm Hn) as W. set (w := (aMax a - aMin a) / qn (aNBins a)) in *. split.
  - intros i Hi. destruct (He i ltac:(lia)) as [_ E1]. destruct (He (S i) Hi) as [E2 _]. rewrite E1, E2. reflexivity.
  - intros i Hi. destruct (He i Hi) as [E1 E2]. rewrite E1, E2. fold w. rewrite qn_S. clearbody w. qnra.
Qed.
Lemma evenly_edges a b : built a -> built b -> evenly a -> evenly b -> aNBins a = aNBins b -> aMin a = aMin b -> aMax a = aMax b -> same_edges a b.
Proof.
  intros Ha Hb Ea Eb N M1 M2. destruct (built_facts a Ha) as [_ [La [Lha _]]]. destruct (built_facts b Hb) as [_ [Lb [Lhb _]]]. split.
  - apply (nth_ext _ _ 0 0); [congruence|]. intros i Hi. rewrite La in Hi. change (lo_of a i = lo_of b i). destruct (Ea i Hi) as [-> _]. destruct (Eb i ltac:(lia)) as [-> _]. now rewrite N, M1, M2.
  - apply (nth_ext _ _ 0 0); [congruence|]. intros i Hi. rewrite Lha in Hi. change (hi_of a i = hi_of b i). destruct (Ea i Hi) as [_ ->]. destruct (Eb i ltac:(lia)) as [_ ->]. now rewrite N, M1, M2.
Qed.
Lemma first_redges a : built a -> first_edge (redges a) = aMin a /\ last_edge (redges a) = aMax a /\ (List.length (redges a) - 1)%nat = aNBins a.
Proof.
  intros H. destruct (built_facts a H) as [Hn [_ [_ [_ [_ [_ [_ [E _]]]]]]]]. unfold first_edge, last_edge. rewrite redges_len by exact H.
  replace (S (aNBins a) - 1)%nat with (aNBins a) by lia. rewrite redges_nth, redges_last by assumption. auto.
Qed.
Lemma redges_th_ok t axs : Forall built axs -> thEdges t = map redges axs -> thTitles t = map aLatex axs -> th_ok (List.length axs) t.
Proof.
  intros HB E1 E2. unfold th_ok. rewrite E1, E2, !map_length. split; [reflexivity|]. split; [reflexivity|]. rewrite Forall_map. eapply Forall_impl; [|exact HB].
  intros a Ha. cbn beta. rewrite redges_len by exact Ha. destruct (built_facts a Ha). lia.
Qed.
Lemma trip (h : hist) t (r : res hist) : h_reach h -> Forall (fun a => evenly a /\ aMin a < aMax a) (acAxes (hAxes h)) -> NoDup (map aLatex (acAxes (hAxes h))) ->
  thEdges t = map redges (acAxes (hAxes h)) -> thTitles t = map aLatex (acAxes (hAxes h)) ->
  (forall idx, in_shape (shape_of h) idx -> thCont t (root_bin idx) = cont_at h idx) -> outcome t r ->
  exists h', r = Ok h' /\ h_reach h' /\ Forall2 same_edges (acAxes (hAxes h)) (acAxes (hAxes h')) /\ names_of h' = map aLatex (acAxes (hAxes h)) /\
    forall i, (i < hNBins h)%nat -> cont h' i = cont h i.
Proof.
  intros Hr HE ND E1 E2 HC [O1 [O2 _]]. pose proof (h_reach_ok h Hr) as Hok. pose proof Hok as [Hac [Hne _]]. pose proof Hac as [_ [_ [_ [_ [_ HB]]]]].
  destruct O1 as [h' E].
  { unfold ranges_ok. rewrite E1, Forall_map, Forall_forall in *. intros a Ha. destruct (first_redges a (HB a Ha)) as [-> [-> _]]. apply (HE a Ha). }
  { rewrite E2. exact ND. }
  exists h'. split; [exact E|]. destruct (O2 h' E) as [_ [_ [R' [SH [NM [AX CT]]]]]]. split; [exact R'|]. pose proof (h_reach_ok h' R') as Hok'. pose proof Hok' as [[_ [_ [_ [_ [_ HB']]]]] _].
  assert (TS : th_shape t = shape_of h).
  { unfold th_shape, shape_of. rewrite E1, map_map. apply map_ext_in. intros a Ha. rewrite Forall_forall in HB. apply (first_redges a (HB a Ha)). }
  split; [|split; [rewrite NM; exact E2|]].
  - rewrite TS in SH. unfold shape_of in SH. rewrite E1 in AX. revert AX SH HE HB HB'. generalize (acAxes (hAxes h)) (acAxes (hAxes h')). clear. intros l m AX. revert m AX.
    induction l as [|a l IH]; intros m AX SH HE HB HB'; inversion AX as [|? b ? m' [M1 [M2 Ev]] AX']; subst; [constructor|]. inversion HE as [|? ? [Ea _] HE']. inversion HB. inversion HB'. subst.
    cbn [map] in SH. injection SH as N SH. constructor; [|apply IH; assumption]. destruct (first_redges a) as [F1 [F2 _]]; [assumption|]. apply evenly_edges; try assumption; congruence.
  - intros i Hi. destruct (index_of_bin (hAxes h) i Hac Hne) as [idx [Hs Ri]]; [pose proof Hok as [_ [_ [K _]]]; lia|].
    assert (Hs' : in_shape (th_shape t) idx) by (rewrite TS; exact Hs). pose proof (CT idx Hs') as C. rewrite HC in C by exact Hs.
    unfold cont_at in C. rewrite SH, TS in C. change (map aNBins (acAxes (hAxes h))) with (shape_of h) in Ri. rewrite Ri in C. exact C.
Qed.
Lemma round_trip_pkg n h : n <> 0%nat -> h_reach h -> hNDims h = n -> Forall (fun a => evenly a /\ aMin a < aMax a) (acAxes (hAxes h)) -> NoDup (map aLatex (acAxes (hAxes h))) ->
  exists t h', toTHn n h = Ok t /\ ofTHn t = Ok h' /\ Forall2 same_edges (acAxes (hAxes h)) (acAxes (hAxes h')) /\ names_of h' = map aLatex (acAxes (hAxes h)) /\
    forall i, (i < hNBins h)%nat -> cont h' i = cont h i.
Proof.
  intros Hn Hr D HE ND. pose proof (h_reach_ok h Hr) as Hok. pose proof Hok as [Hac [Hne _]]. pose proof Hac as [_ [_ [_ [_ [_ HB]]]]].
  destruct (toTHn_pkg n h Hr) as [_ P]. destruct (P D) as [t [E [E1 [E2 [C1 _]]]]].
  { rewrite Forall_forall in *. intros a Ha. destruct (HE a Ha). apply evenly_regular; [apply HB, Ha|assumption|assumption]. }
  assert (Ht : th_ok n t). { rewrite <- D, (h_ok_ndims h Hok). apply redges_th_ok; assumption. }
  destruct (trip h t (ofTHn t) Hr HE ND E1 E2 C1 (ofTHn_pkg n t Hn Ht)) as [h' [Eh [_ [A [B C]]]]]. exists t, h'. auto.
Qed.
Lemma round_trip1_pkg h : h_reach h -> hNDims h = 1%nat -> Forall (fun a => evenly a /\ aMin a < aMax a) (acAxes (hAxes h)) ->
  exists t h', toTH1D h false = Ok t /\ ofTH1D t = Ok h' /\ Forall2 same_edges (acAxes (hAxes h)) (acAxes (hAxes h')) /\ names_of h' = map aLatex (acAxes (hAxes h)) /\
    forall i, (i < hNBins h)%nat -> cont h' i = cont h i.
Proof.
  intros Hr D HE. pose proof (h_reach_ok h Hr) as Hok. pose proof Hok as [Hac [Hne _]]. pose proof Hac as [_ [_ [_ [_ [_ HB]]]]].
  assert (L : List.length (acAxes (hAxes h)) = 1%nat) by (rewrite <- D; symmetry; apply h_ok_ndims; exact Hok).
  destruct (acAxes (hAxes h)) as [|a [|]] eqn:EA; try discriminate. destruct (toTH1D_pkg h false Hr) as [_ P].
  destruct (P a EA) as [[C _]|[_ [t [E [E1 [E2 [C1 _]]]]]]]; [discriminate|].
  assert (Ht : th_ok 1 t). { change 1%nat with (List.length [a]). apply redges_th_ok; assumption. }
  destruct (trip h t (ofTH1D t)) as [h' [Eh [_ [A [B C]]]]]; rewrite ?EA; try assumption.
  - constructor; [intros []|constructor].
  - intros idx Hs. unfold shape_of in Hs. rewrite EA in Hs. cbn [map] in Hs. inversion Hs as [|i n' t' s' Hi Ht']; subst. inversion Ht'; subst.
    unfold cont_at, shape_of. rewrite EA. cbn [root_bin map rowmajor prod]. rewrite C1 by exact Hi. f_equal. lia.
  - apply ofTH1D_pkg, Ht.
  - rewrite EA in *. exists t, h'. auto.
Qed.
(** a Gaussian histogrammed *)
Lemma gauss_pkg U g ac : cdf_like U -> sized g -> positive_widths g -> ac_reach ac -> acAxes ac <> [] -> Forall contiguous (acAxes ac) -> gND g = List.length (acAxes ac) ->
  exists h, pdfToHist (gND g) (gIntegral U g) ac = Ok h /\ hAxes h = ac /\ gIntegral U g (map aMin (acAxes ac)) (map aMax (acAxes ac)) = Ok (total h) /\
    (forall i, 0 <= cont h i) /\ 0 <= total h <= 1.
Proof.
  intros HU Hs Hp Hr Hne Hc HD. pose proof (ac_reach_ok ac Hr) as Hok. pose proof Hok as [_ [_ [_ [_ [_ HB]]]]].
  set (F := fun lo hi => qprod (map (wid U g lo hi) (seq 0 (gND g)))).
  assert (HI : forall lo hi, List.length lo = List.length (acAxes ac) -> List.length hi = List.length (acAxes ac) -> gIntegral U g lo hi = Ok (F lo hi)).
  { intros lo hi L1 L2. rewrite <- HD in L1, L2. apply integral_ok; try assumption. apply width_nz, Hp. }
  destruct (pdf_total_pkg (gIntegral U g) F ac Hr Hne Hc) as [h [E T]]; [|exact HI|].
  { intros lo hi i m L1 L2 Hi _ _. destruct (integral_split_pkg U g lo hi i m Hs Hp) as [p [p1 [p2 [G0 [G1 [G2 G3]]]]]]; try congruence.
    rewrite HI in G0 by assumption. rewrite HI in G1 by (try assumption; now rewrite upd_length). rewrite HI in G2 by (try assumption; now rewrite upd_length). congruence. }
  rewrite <- HD in E. exists h. split; [exact E|]. destruct (pdf_pkg (gND g) (gIntegral U g) ac Hr Hne) as [_ P]. destruct (P HD) as [_ P2]. destruct (P2 h E) as [HA HC].
  split; [exact HA|]. split; [exact T|].
  assert (NN : forall i, 0 <= cont h i).
  { intros i. destruct (Nat.lt_ge_cases i (acNBins ac)) as [Hi|Hi].
    - destruct (index_of_bin ac i Hok Hne Hi) as [idx [Si Ri]]. specialize (HC idx Si). pose proof (in_shape_length _ _ Si) as L. rewrite map_length in L.
      destruct (lows_len _ _ L) as [L1 L2]. destruct (integral_pkg U g (lows (acAxes ac) idx) (highs (acAxes ac) idx) HU Hs Hp) as [p [Ep [Pp _]]].
      + split; [congruence|]. split; [congruence|]. intros d Hd. rewrite HD in Hd. unfold lows, highs.
        rewrite !(nth_map2 _ _ _ (axis0, 0%nat)) by (rewrite combine_length; lia). rewrite combine_nth by congruence. cbn [fst snd].
        assert (B : built (nth d (acAxes ac) axis0)) by (rewrite Forall_forall in HB; apply HB, nth_In; exact Hd).
        destruct (built_facts _ B) as [_ [_ [_ [_ [_ [_ [K _]]]]]]]. apply K.
        pose proof (shape_nth _ _ Si d ltac:(rewrite map_length; lia)) as Q. rewrite (nth_map2 _ _ _ axis0) in Q by lia. exact Q.
      + rewrite HC in Ep. injection Ep as <-. unfold cont_at, shape_of in Pp. rewrite HA in Pp. rewrite Ri in Pp. exact Pp.
    - unfold cont. rewrite nth_overflow; [discriminate|]. pose proof (pdf_nbins _ _ _ _ Hr Hne E) as N.
      unfold pdfToHist in E. destruct (negb _) in E; [discriminate|].
      destruct (pdf_loop ac (gIntegral U g) Hok Hne (acNBins ac) 0 (mk_hist ac) eq_refl (mk_hist_ok ac Hok Hne) (same_shape_refl _)) as [_ B].
      destruct (B h E) as [S1 _]. assert (K : h_ok h) by (eapply same_shape_ok; [exact S1|apply mk_hist_ok; assumption]). destruct K as [_ [_ [K1 [_ K2]]]]. rewrite HA in K1. lia. }
  split; [exact NN|].
  destruct (integral_pkg U g (map aMin (acAxes ac)) (map aMax (acAxes ac)) HU Hs Hp) as [p [Ep [P0 [P1 _]]]].
  - split; [rewrite map_length; congruence|]. split; [rewrite map_length; congruence|]. intros d Hd. rewrite HD in Hd. rewrite !(nth_map2 _ _ _ axis0) by exact Hd.
    assert (B : built (nth d (acAxes ac) axis0)) by (rewrite Forall_forall in HB; apply HB, nth_In; exact Hd).
    assert (C : contiguous (nth d (acAxes ac) axis0)) by (rewrite Forall_forall in Hc; apply Hc, nth_In; exact Hd).
    destruct (built_facts _ B) as [Hn [_ [_ [_ [_ [Kl [Kw [-> ->]]]]]]]].
    assert (G : forall k, (k < aNBins (nth d (acAxes ac) axis0))%nat -> lo_of (nth d (acAxes ac) axis0) 0 <= lo_of (nth d (acAxes ac) axis0) k).
    { induction k as [|k IHk]; intros Hk; [apply Qcle_refl|]. eapply Qcle_trans; [apply IHk; lia|apply Kl; exact Hk]. }
    eapply Qcle_trans; [apply (G (aNBins (nth d (acAxes ac) axis0) - 1)%nat); lia|apply Kw; lia].
  - rewrite T in Ep. injection Ep as <-. split; assumption.
Qed.
