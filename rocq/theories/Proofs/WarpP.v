(** C112: Shift, Scale and ScaleFunction for any function. *)
From Coq Require Import Lia.
From Verif Require Import Base.Res Base.Num Base.SMap Model.Axis Model.Event Model.Hist Model.Matrix Model.Syst
  Spec.AxisSpec Spec.HistSpec Spec.SystSpec Spec.WarpSpec Proofs.AxisP Proofs.HistP Proofs.HistP2 Proofs.CutP Proofs.ParamP3
  Proofs.SystP Proofs.SystP2 Proofs.SystP3 Proofs.SystP4.
Local Open Scope Qc_scope.

(** what the loop over the bins between the images of the edges leaves for bin t *)
Definition landed (a : axis) (x y : Qc) (t : nat) : Qc :=
  if Nat.leb (findBin a x) t && Nat.leb t (findBin a y) then binContribution (lo_of a t) (hi_of a t) x y else 0.
Lemma contribution_nonneg tlo thi x y : tlo <= thi -> 0 <= binContribution tlo thi x y.
Proof.
  intros H. destruct (qltb_spec x y) as [L|L].
  - rewrite contribution_overlap by assumption. apply qdiv_nonneg; [qlra|apply overlap_nonneg].
  - unfold binContribution. destruct (qltb_spec y tlo), (qltb_spec thi x); cbn [orb]; try qlra.
    destruct (qltb_spec x tlo); [qlra|]. destruct (qltb_spec thi y); qlra.
Qed.

Lemma landed_nonneg a x y t : lo_of a t <= hi_of a t -> 0 <= landed a x y t.
Proof. intros H. unfold landed. destruct (_ && _); [apply contribution_nonneg; exact H|qlra]. Qed.
Lemma landed_contrib a x y t : (findBin a x <= t < findBin a x + (S (findBin a y) - findBin a x))%nat ->
  binContribution (lo_of a t) (hi_of a t) x y = landed a x y t.
Proof. intros H. unfold landed. destruct (Nat.leb_spec (findBin a x) t), (Nat.leb_spec t (findBin a y)); try lia. reflexivity. Qed.
Lemma landed_range a x y t : landed a x y t <> 0 -> (findBin a x <= t <= findBin a y)%nat.
Proof. unfold landed. destruct (Nat.leb_spec (findBin a x) t), (Nat.leb_spec t (findBin a y)); cbn [andb]; intros Z; try lia; contradiction Z; reflexivity. Qed.

Lemma both_in_find a t x y : built a -> contiguous a -> y <= x -> (t < aNBins a)%nat -> lo_of a t < hi_of a t ->
  both_in a t x y <-> findBin a x = t /\ findBin a y = t /\ lo_of a t <= y /\ x <= hi_of a t.
Proof.
  intros Hb Hc Hyx Ht Hw. destruct (built_facts _ Hb) as [Hn [Hl [Hh [_ [_ [Hll [Hle [Hmin Hmax]]]]]]]].
  assert (Lo : aMin a <= lo_of a t) by (rewrite Hmin; apply lows_mono; [exact Hb|exact Hc|lia]).
  assert (Hi : hi_of a t <= aMax a).
  { rewrite Hmax. destruct (Nat.eq_dec t (aNBins a - 1)) as [->|Hne]; [qlra|].
    pose proof (Hc t ltac:(lia)) as E. unfold hi_of, lo_of in *. pose proof (lows_mono a (S t) (aNBins a - 1) Hb Hc ltac:(lia)) as M. pose proof (Hle (aNBins a - 1)%nat ltac:(lia)) as M2.
    unfold lo_of in *. qlra. }
  assert (K : forall z, lo_of a t <= z -> z < hi_of a t -> findBin a z = t).
  { intros z H1 H2. destruct (findBin_regions a z Hb Hc) as [_ [_ R]]. apply (in_bin_unique a _ _ z Hb Hc).
    - apply R; qlra.
    - split; [exact Ht|split; assumption]. }
  split.
  - intros [H1 [H2|[H2 H3]]].
    + split; [apply K; qlra|]. split; [apply K; qlra|]. split; [exact H1|qlra].
    + assert (E : t = (aNBins a - 1)%nat) by lia. destruct (findBin_regions a x Hb Hc) as [_ [R2 _]]. destruct (findBin_regions a y Hb Hc) as [_ [S2 _]].
      assert (Hx : hi_of a t = aMax a) by (rewrite Hmax, <- E; reflexivity).
      split; [rewrite R2 by (rewrite H2; qlra); lia|]. split; [|split; [exact H1|rewrite Hx, H2; qlra]].
      destruct (qltb_spec y (aMax a)) as [C|C]; [apply K; [exact H1|rewrite Hx; exact C]|rewrite S2 by qlra; lia].
  - intros [Fx [Fy [H1 H2]]]. split; [exact H1|]. destruct (qltb_spec x (hi_of a t)) as [C|C]; [left; exact C|right].
    assert (Ex : x = hi_of a t) by qlra. destruct (findBin_regions a x Hb Hc) as [_ [R2 R3]].
    destruct (qltb_spec x (aMax a)) as [D|D].
    + exfalso. destruct (R3 ltac:(qlra) D) as [_ [_ B]]. rewrite Fx in B. qlra.
    + split; [qlra|]. rewrite R2 in Fx by qlra. lia.
Qed.
Lemma landed_moved a x y t : built a -> contiguous a -> (t < aNBins a)%nat -> lo_of a t < hi_of a t -> moved a t x y (landed a x y t).
Proof.
  intros Hb Hc Ht Hw. split; [|split].
  - intros Hxy. unfold landed. destruct (Nat.leb_spec (findBin a x) t) as [A|A], (Nat.leb_spec t (findBin a y)) as [B|B]; cbn [andb].
    + apply contribution_overlap; qlra.
    + rewrite overlap_outside by auto. rewrite qdiv_0. reflexivity.
    + rewrite overlap_outside by auto. rewrite qdiv_0. reflexivity.
    + rewrite overlap_outside by auto. rewrite qdiv_0. reflexivity.
  - intros Hyx H. apply (both_in_find a t x y Hb Hc Hyx Ht Hw) in H as [Fx [Fy [H1 H2]]]. unfold landed. rewrite Fx, Fy, Nat.leb_refl. cbn [andb].
    unfold binContribution. destruct (qltb_spec y (lo_of a t)), (qltb_spec (hi_of a t) x); cbn [orb]; try qlra.
    destruct (qltb_spec x (lo_of a t)); [qlra|]. destruct (qltb_spec (hi_of a t) y); [qlra|reflexivity].
  - intros Hyx H. unfold landed. destruct (Nat.leb_spec (findBin a x) t) as [A|A], (Nat.leb_spec t (findBin a y)) as [B|B]; cbn [andb]; try reflexivity.
    pose proof (findBin_mono a y x Hb Hc Hyx) as M. unfold binContribution.
    destruct (qltb_spec y (lo_of a t)), (qltb_spec (hi_of a t) x); cbn [orb]; try reflexivity.
    exfalso. apply H. apply (both_in_find a t x y Hb Hc Hyx Ht Hw). repeat split; try lia; qlra.
Qed.

Lemma construct_any k ac dn tn ax a w bm mf :
  targets ac dn tn ax a -> fine a -> k_ok k ->
  sbAxes (wB w) = ac -> sbTrans (wB w) = mk_obsset [tn] -> sbDist (wB w) = mk_obsset dn ->
  sNR (sbResp (wB w)) = acNBins ac -> sNC (sbResp (wB w)) = acNBins ac ->
  wKind w = k ->
  (if wCached w then Ok (wBinMap w, wMapR w, wMapC w, wMap w) else w_cacheOf (wB w))
     = Ok (bm, acNBins ac, aNBins a, mf) ->
  List.length bm = acNBins ac ->
  (forall J, in_shape (ac_nb ac) J ->
      nth (rowmajor (ac_nb ac) J) bm 0%nat = nth ax J 0%nat /\
      forall t, (t < aNBins a)%nat -> mf (rowmajor (ac_nb ac) J) t = rowmajor (ac_nb ac) (upd J ax t)) ->
  exists w', w_construct w = (w', Ok tt) /\ square (sbResp (wB w')) (acNBins ac) /\
    wB w' = sb_setResp (wB w) (sbResp (wB w')) /\
    wKind w' = k /\ wCached w' = true /\ wBinMap w' = bm /\ wMapR w' = acNBins ac /\ wMapC w' = aNBins a /\ wMap w' = mf /\
    (forall I J, in_shape (ac_nb ac) I -> in_shape (ac_nb ac) J ->
       sF (sbResp (wB w')) (rowmajor (ac_nb ac) I) (rowmajor (ac_nb ac) J) =
       let x := warp_of k (lo_of a (nth ax J 0%nat)) in
       let y := warp_of k (hi_of a (nth ax J 0%nat)) in
       if agreeb ax I J
       then landed a x y (nth ax I 0%nat)
       else 0).
Proof.
  intros HT [Hc Hw] Hk E1 E2 E3 E4 E5 E6 Ecache Hbl Hmaps.
  pose proof (targets_facts _ _ _ _ _ HT) as [Hok [Hne [Hax [Hb [Hpos Hnb]]]]].
  pose proof HT as [Hr [Hnd [Hn Ha]]]. destruct (relidx1 dn tn ax Hnd Hn) as [R1 R2].
  unfold w_construct. rewrite E6, (check_ok k ac tn) by assumption. cbn [obind]. rewrite Ecache. cbn [obind].
  unfold w_axis, w_axisIdx. rewrite E1, E2, E3. cbn [osNames mk_obsset vat nth_error bind].
  change (mkObs dn _) with (mk_obsset dn). rewrite R2. cbn [bind]. unfold getAxis. rewrite Ha. cbn [obind].
  rewrite (seqM_ok _ (pvals k a)) by (intros t Ht; apply in_seq in Ht; apply vals_ok; [exact Hb|lia]).
  cbn [obind]. unfold w_fillResp. cbn [wB wBinMap wMapC wMapR wMap]. unfold m_setZeros. rewrite E4, E5, E1.
  destruct (Nat.eqb_spec (acNBins ac) 0) as [|_]; [lia|]. cbn [orb].
  assert (Hshape : forall J, in_shape (ac_nb ac) J -> (nth ax J 0 < aNBins a)%nat).
  { intros J HJ. rewrite <- Hnb. clear -HJ Hax. unfold ac_nb in *.
    assert (Hl : (ax < List.length (map aNBins (acAxes ac)))%nat) by now rewrite map_length.
    revert ax Hax Hl. induction HJ as [|i n I nb Hi HJ IH]; intros ax Hax Hl; cbn in Hl; [lia|].
    destruct ax; cbn; [exact Hi|]. apply IH; lia. }
  edestruct (outer_fill mf bm (map (pvals k a) (seq 0 (aNBins a))) (aNBins a) (acNBins ac) (acNBins ac)
              (seq 0 (acNBins ac))) with (m := mkMat (acNBins ac) (acNBins ac) (acNBins ac) (acNBins ac) (fun _ _ : nat => Q2Qc 0))
    as [m' [Em [Sm Fm]]].
  - intros o Ho. apply in_seq in Ho. destruct (ac_tuple ac o Hok Hne ltac:(lia)) as [T1 T2].
    set (J := digits (ac_nb ac) o) in *. destruct (Hmaps J T1) as [B1 B2]. rewrite T2 in B1, B2.
    pose proof (Hshape J T1) as HJ.
    split; [lia|split; [lia|split; [lia|]]]. rewrite B1, map_length, seq_length. split; [exact HJ|].
    intros p Hp. rewrite (nth_map2 _ _ _ 0%nat) in Hp by (rewrite seq_length; exact HJ).
    rewrite seq_nth in Hp by exact HJ. cbn [plus] in Hp. unfold pvals in Hp.
    apply filter_In in Hp as [Hp _]. apply in_map_iff in Hp as [t [<- Ht]]. cbn [fst]. apply in_seq in Ht.
    pose proof (findBin_lt a (warp_of k (hi_of a (nth ax J 0%nat))) Hb).
    assert (Ht' : (t < aNBins a)%nat) by lia. split; [exact Ht'|]. rewrite B2 by exact Ht'.
    rewrite ac_nb_prod by assumption. apply rowmajor_lt. apply upd_in_shape; [exact T1|]. now rewrite Hnb.
  - apply seq_NoDup.
  - repeat split; reflexivity.
  - rewrite Em. eexists. split; [reflexivity|]. cbn [w_onB wB sb_setResp sbResp wKind wCached wBinMap wMapR wMapC wMap].
    split; [exact Sm|]. split; [reflexivity|]. do 6 (split; [first [reflexivity|exact E6]|]).
    intros I J HI HJ. rewrite Fm. cbn [sF].
    pose proof (rowmajor_lt _ _ HJ) as HJlt. rewrite <- ac_nb_prod in HJlt by assumption.
    destruct (in_dec Nat.eq_dec (rowmajor (ac_nb ac) J) (seq 0 (acNBins ac))) as [_|C].
    2:{ exfalso. apply C. apply in_seq. lia. }
    destruct (Hmaps J HJ) as [B1 B2]. rewrite B1. pose proof (Hshape J HJ) as HJa. pose proof (Hshape I HI) as HIa.
    rewrite (nth_map2 _ _ _ 0%nat) by (rewrite seq_length; exact HJa). rewrite seq_nth by exact HJa. cbn [plus].
    set (b := nth ax J 0%nat) in *. set (x := warp_of k (lo_of a b)). set (y := warp_of k (hi_of a b)).
    assert (HlenIJ : List.length I = List.length J) by (rewrite (in_shape_length _ _ HI), (in_shape_length _ _ HJ); reflexivity).
    assert (HaxJ : (ax < List.length J)%nat).
    { rewrite (in_shape_length _ _ HJ). unfold ac_nb. now rewrite map_length. }
    unfold pvals. fold x y. cbv zeta. apply wr_filter.
    + destruct (agreeb ax I J); [|qlra]. apply landed_nonneg. apply Qclt_le_weak, Hw. exact HIa.
    + intros t Ht E. apply in_seq in Ht. pose proof (findBin_lt a y Hb).
      assert (Ht' : (t < aNBins a)%nat) by lia. rewrite B2 in E by exact Ht'.
      apply rowmajor_inj in E; [|apply upd_in_shape; [exact HJ|now rewrite Hnb]|exact HI].
      assert (A : agreeb ax I J = true).
      { apply agreeb_spec; [exact HlenIJ|]. rewrite <- E. apply upd_agree. }
      rewrite A. assert (Et : nth ax I 0%nat = t). { rewrite <- E, nth_upd by exact HaxJ. now rewrite Nat.eqb_refl. }
      rewrite Et. apply landed_contrib. lia.
    + intros Hnz. destruct (agreeb ax I J) eqn:A; [|congruence].
      exists (nth ax I 0%nat). apply agreeb_spec in A; [|exact HlenIJ].
      split.
      * apply in_seq. apply landed_range in Hnz. lia.
      * rewrite B2 by exact HIa. rewrite <- (agree_upd ax I J HlenIJ HaxJ A). reflexivity.
Qed.

Lemma one_of n t : (t < n)%nat -> qsum (map (fun i => if Nat.eqb i t then 1 else 0) (seq 0 n)) = 1.
Proof.
  intros Ht. assert (G : forall k, qsum (map (fun i => if Nat.eqb i t then 1 else 0) (seq 0 k)) = if Nat.ltb t k then 1 else 0).
  { induction k as [|k IH]; [reflexivity|]. rewrite seq_S, map_app, qsum_app, IH. cbn [map qsum plus].
    destruct (Nat.ltb_spec t k), (Nat.ltb_spec t (S k)), (Nat.eqb_spec k t); try lia; ring. }
  rewrite G. destruct (Nat.ltb_spec t n); [reflexivity|lia].
Qed.
Lemma any_pkg k ac dn tn ax a : targets ac dn tn ax a -> fine a -> k_ok k ->
  exists w', w_construct (w_cfg k ac dn tn) = (w', Ok tt) /\ square (sbResp (wB w')) (acNBins ac) /\
    (forall I J, in_shape (nshape ac) I -> in_shape (nshape ac) J ->
       let x := warp_of k (lo_of a (nth ax J 0%nat)) in
       let y := warp_of k (hi_of a (nth ax J 0%nat)) in
       let e := resp (wB w') (rowmajor (nshape ac) I) (rowmajor (nshape ac) J) in
       (agree_off ax I J -> moved a (nth ax I 0%nat) x y e) /\ (~ agree_off ax I J -> e = 0)) /\
    (forall J, in_shape (nshape ac) J ->
       let x := warp_of k (lo_of a (nth ax J 0%nat)) in
       let y := warp_of k (hi_of a (nth ax J 0%nat)) in
       kept_part a x y (qsum (map (fun i => resp (wB w') i (rowmajor (nshape ac) J)) (seq 0 (acNBins ac))))).
Proof.
  intros HT Hf Hk. destruct (cache_ok k _ _ _ _ _ HT) as [bm [mf [Ec [Hl Hm]]]].
  edestruct (construct_any k ac dn tn ax a (w_cfg k ac dn tn) bm mf) as [w' [E [Sq [_ [_ [_ [_ [_ [_ [_ F]]]]]]]]]];
    try eassumption; try reflexivity.
  pose proof (targets_facts _ _ _ _ _ HT) as [Hok [Hne [Hax [Hb [Hpos Hnb]]]]].
  exists w'. split; [exact E|split; [exact Sq|]]. split.
  - intros I J HI HJ x y e. change (nshape ac) with (ac_nb ac) in *.
    assert (Hlen : List.length I = List.length J) by (rewrite (in_shape_length _ _ HI), (in_shape_length _ _ HJ); reflexivity).
    assert (HIa : (nth ax I 0 < aNBins a)%nat) by (apply (target_bin ac dn tn ax a I HT HI)).
    unfold e, resp. rewrite (F I J HI HJ). cbv zeta. fold x y. destruct (agreeb ax I J) eqn:A.
    + split; [intros _; apply landed_moved; [exact Hb|apply Hf|exact HIa|apply Hf; exact HIa]|].
      intros N. exfalso. apply N. now apply agreeb_spec.
    + split; [intros N; apply agreeb_spec in N; [congruence|exact Hlen]|reflexivity].
  - intros J HJ x y. rewrite (ac_nb_prod ac Hok Hne). change (ac_nb ac) with (nshape ac) in *. rewrite qsum_bins_tuples.
    assert (Es : qsum (map (fun I => resp (wB w') (rowmajor (nshape ac) I) (rowmajor (nshape ac) J)) (tuples (nshape ac))) =
                 qsum (map (landed a x y) (seq 0 (aNBins a)))).
    { transitivity (qsum (map (fun I => if agreeb ax I J then landed a x y (nth ax I 0%nat) else 0) (tuples (nshape ac)))).
      - apply qsum_map_ext. intros I HI. apply in_tuples in HI. unfold resp. rewrite (F I J HI HJ). reflexivity.
      - rewrite (tuples_line (nshape ac) ax J (landed a x y)) by (try exact HJ; unfold nshape; now rewrite map_length).
        rewrite Hnb. reflexivity. }
    rewrite Es. clear Es F E Ec Hm. assert (M : forall t, (t < aNBins a)%nat -> moved a t x y (landed a x y t)).
    { intros t Ht. apply landed_moved; [exact Hb|apply Hf|exact Ht|apply Hf; exact Ht]. }
    split; [|split].
    + intros Hxy. unfold frac_inside. rewrite <- overlap_sum by (try exact Hb; try apply Hf; qlra).
      unfold Qcdiv. rewrite Qcmult_comm, <- qsum_map_mul. apply qsum_map_ext. intros t Ht. apply in_seq in Ht. destruct (M t ltac:(lia)) as [M1 _]. rewrite (M1 Hxy). unfold Qcdiv. ring.
    + intros Hyx [t [Ht B]]. rewrite (qsum_map_ext _ (fun i => if Nat.eqb i t then 1 else 0)).
      * apply one_of. lia.
      * intros i Hi. apply in_seq in Hi. destruct (M i ltac:(lia)) as [_ [M2 M3]]. destruct (Nat.eqb_spec i t) as [->|Hit]; [apply M2; assumption|].
        apply M3; [exact Hyx|]. intros B'. apply Hit.
        apply (both_in_find a t x y Hb (proj1 Hf) Hyx Ht (proj2 Hf t Ht)) in B as [B _].
        apply (both_in_find a i x y Hb (proj1 Hf) Hyx ltac:(lia) (proj2 Hf i ltac:(lia))) in B' as [B' _]. congruence.
    + intros Hyx B. rewrite (qsum_map_ext _ (fun _ => 0)).
      * clear. generalize (seq 0 (aNBins a)). intros l. induction l as [|i l IH]; cbn [map qsum]; [reflexivity|]. rewrite IH. ring.
      * intros i Hi. apply in_seq in Hi. destruct (M i ltac:(lia)) as [_ [_ M3]]. apply M3; [exact Hyx|apply B; lia].
Qed.
Lemma any_contents_pkg k ac dn tn ax a h : targets ac dn tn ax a -> fine a -> k_ok k -> h_reach h -> hAxes h = ac ->
  exists w' h' s part, w_construct (w_cfg k ac dn tn) = (w', Ok tt) /\ sys_apply (sbResp (wB w')) h true = Ok (h', Some s) /\
    same_axes h h' /\ s = total h' /\
    (forall J, in_shape (nshape ac) J -> kept_part a (warp_of k (lo_of a (nth ax J 0%nat))) (warp_of k (hi_of a (nth ax J 0%nat))) (part J)) /\
    total h' = qsum (map (fun J => part J * cont_at h J) (tuples (nshape ac))) /\
    total h = qsum (map (fun J => cont_at h J) (tuples (nshape ac))).
Proof.
  intros HT Hf Hk Hr Hac.
  destruct (any_pkg k ac dn tn ax a HT Hf Hk) as [w' [E [Sq [F C]]]].
  pose proof (targets_facts _ _ _ _ _ HT) as [Hok [Hne [Hax [Hb [Hpos Hnb]]]]].
  assert (Hn : hNBins h = acNBins ac).
  { pose proof (h_reach_ok _ Hr) as [? [? [? [? ?]]]]. rewrite <- Hac. assumption. }
  destruct (sys_apply_pkg _ h _ Hr Hn Sq) as [h' [s [E2 [SA [Es [_ T]]]]]].
  exists w', h', s, (fun J => qsum (map (fun i => resp (wB w') i (rowmajor (nshape ac) J)) (seq 0 (acNBins ac)))).
  split; [exact E|split; [exact E2|split; [exact SA|split; [exact Es|split; [exact C|]]]]].
  assert (EJ : forall J, cont_at h J = cont h (rowmajor (nshape ac) J)) by (intros J; unfold cont_at, shape_of; now rewrite Hac).
  split.
  - rewrite T, (ac_nb_prod ac Hok Hne). change (ac_nb ac) with (nshape ac).
    rewrite (qsum_bins_tuples (nshape ac)). apply qsum_map_ext. intros J HJ. apply in_tuples in HJ.
    f_equal. symmetry. apply EJ.
  - unfold total. rewrite Hn, (ac_nb_prod ac Hok Hne). change (ac_nb ac) with (nshape ac).
    rewrite (qsum_bins_tuples (nshape ac)). apply qsum_map_ext. intros J _. symmetry. apply EJ.
Qed.
Lemma conserved_pkg k ac dn tn ax a h : targets ac dn tn ax a -> fine a -> k_ok k -> h_reach h -> hAxes h = ac ->
  (forall J, in_shape (nshape ac) J -> cont_at h J <> 0 ->
     let x := warp_of k (lo_of a (nth ax J 0%nat)) in
     let y := warp_of k (hi_of a (nth ax J 0%nat)) in
     (x < y /\ aMin a <= x /\ y <= aMax a) \/ (y <= x /\ exists t, (t < aNBins a)%nat /\ both_in a t x y)) ->
  exists w' h' s, w_construct (w_cfg k ac dn tn) = (w', Ok tt) /\ sys_apply (sbResp (wB w')) h true = Ok (h', Some s) /\
    same_axes h h' /\ s = total h' /\ total h' = total h.
Proof.
  intros HT Hf Hk Hr Hac H. destruct (any_contents_pkg k ac dn tn ax a h HT Hf Hk Hr Hac) as [w' [h' [s [part [E [E2 [SA [Es [K [T1 T2]]]]]]]]]].
  exists w', h', s. do 4 (split; [assumption|]). rewrite T1, T2. apply qsum_map_ext. intros J HJ. apply in_tuples in HJ.
  destruct (qeqb (cont_at h J) 0) eqn:Z.
  - apply qeqb_eq in Z. rewrite Z. ring.
  - apply qeqb_neq in Z. destruct (K J HJ) as [K1 [K2 _]]. destruct (H J HJ Z) as [[H1 [H2 H3]]|[H1 H2]].
    + rewrite (K1 H1), frac_inside_1 by assumption. ring.
    + rewrite (K2 H1 H2). ring.
Qed.
Lemma lost_pkg k ac dn tn ax a h : targets ac dn tn ax a -> fine a -> k_ok k -> h_reach h -> hAxes h = ac ->
  (forall J, in_shape (nshape ac) J -> cont_at h J <> 0 ->
     let x := warp_of k (lo_of a (nth ax J 0%nat)) in
     let y := warp_of k (hi_of a (nth ax J 0%nat)) in
     y <= x /\ forall t, (t < aNBins a)%nat -> ~ both_in a t x y) ->
  exists w' h', w_construct (w_cfg k ac dn tn) = (w', Ok tt) /\ sys_apply (sbResp (wB w')) h true = Ok (h', Some 0) /\
    same_axes h h' /\ total h' = 0.
Proof.
  intros HT Hf Hk Hr Hac H. destruct (any_contents_pkg k ac dn tn ax a h HT Hf Hk Hr Hac) as [w' [h' [s [part [E [E2 [SA [Es [K [T1 T2]]]]]]]]]].
  assert (Z0 : total h' = 0).
  { rewrite T1. rewrite (qsum_map_ext _ (fun _ => 0)).
    - generalize (tuples (nshape ac)). clear. intros l. induction l as [|i l IH]; cbn [map qsum]; [reflexivity|]. rewrite IH. ring.
    - intros J HJ. apply in_tuples in HJ. destruct (qeqb (cont_at h J) 0) eqn:Z.
      + apply qeqb_eq in Z. rewrite Z. ring.
      + apply qeqb_neq in Z. destruct (K J HJ) as [_ [_ K3]]. destruct (H J HJ Z) as [H1 H2]. rewrite (K3 H1 H2). ring. }
  exists w', h'. split; [exact E|]. split; [rewrite E2, Es, Z0; reflexivity|]. split; assumption.
Qed.
