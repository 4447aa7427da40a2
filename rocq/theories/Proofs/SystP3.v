(** Shift / Scale / ScaleFunction: Construct. *)
From Verif Require Import Base.Res Base.Num Base.SMap Model.Axis Model.Event Model.Hist Model.Matrix Model.Syst
  Spec.AxisSpec Spec.HistSpec Spec.SystSpec Proofs.AxisP Proofs.HistP Proofs.HistP2 Proofs.CutP Proofs.ParamP3
  Proofs.SystP Proofs.SystP2.
Local Open Scope Qc_scope.

Lemma ac_tuple ac o : ac_ok ac -> acAxes ac <> [] -> (o < acNBins ac)%nat ->
  in_shape (ac_nb ac) (digits (ac_nb ac) o) /\ rowmajor (ac_nb ac) (digits (ac_nb ac) o) = o.
Proof. intros Hok Hne Ho. apply digits_spec. now rewrite <- ac_nb_prod. Qed.

Lemma nth_ac_nb ac ax a : nth_error (acAxes ac) ax = Some a -> nth ax (ac_nb ac) 0%nat = aNBins a.
Proof.
  intros H. unfold ac_nb. apply (map_nth_error aNBins) in H. now apply nth_error_nth.
Qed.

Lemma targets_facts ac dn tn ax a : targets ac dn tn ax a ->
  ac_ok ac /\ acAxes ac <> [] /\ (ax < List.length (acAxes ac))%nat /\ built a /\ (0 < acNBins ac)%nat
  /\ nth ax (ac_nb ac) 0%nat = aNBins a.
Proof.
  intros [Hr [Hnd [Hn Ha]]]. pose proof (ac_reach_ok _ Hr) as Hok.
  assert (Hl : (ax < List.length (acAxes ac))%nat) by (apply nth_error_Some; congruence).
  assert (Hne : acAxes ac <> []) by (intro C; rewrite C in Hl; cbn in Hl; lia).
  pose proof Hok as [_ [_ [_ [_ [_ H6]]]]].
  split; [exact Hok|split; [exact Hne|split; [exact Hl|split; [|split]]]].
  - rewrite Forall_forall in H6. apply H6. now apply nth_error_In in Ha.
  - rewrite ac_nb_prod by assumption. apply prod_pos_all. unfold ac_nb. rewrite Forall_map.
    revert H6. apply Forall_impl. intros b Hb. apply (built_facts _ Hb).
  - now apply nth_ac_nb.
Qed.

Lemma cache_ok k ac dn tn ax a : targets ac dn tn ax a ->
  exists bm mf, w_cacheOf (wB (w_cfg k ac dn tn)) = Ok (bm, acNBins ac, aNBins a, mf) /\
    List.length bm = acNBins ac /\
    forall J, in_shape (ac_nb ac) J ->
      nth (rowmajor (ac_nb ac) J) bm 0%nat = nth ax J 0%nat /\
      forall t, (t < aNBins a)%nat -> mf (rowmajor (ac_nb ac) J) t = rowmajor (ac_nb ac) (upd J ax t).
Proof.
  intros HT. pose proof (targets_facts _ _ _ _ _ HT) as [Hok [Hne [Hax [Hb [Hpos Hnb]]]]].
  destruct HT as [Hr [Hnd [Hn Ha]]]. destruct (relidx1 dn tn ax Hnd Hn) as [R1 R2].
  unfold w_cacheOf. cbn [w_cfg w_onB wB sb_setAxes sb_setDist sb_setTrans sbAxes sbTrans sbDist osNames mk_obsset].
  change (mkObs [tn] _) with (mk_obsset [tn]). change (mkObs dn _) with (mk_obsset dn).
  rewrite R1. cbn [bind vat nth_error].
  rewrite (seqM_ok _ (fun i => nth ax (digits (ac_nb ac) i) 0%nat)).
  2:{ intros i Hi. apply in_seq in Hi. destruct (ac_tuple ac i Hok Hne ltac:(lia)) as [T1 T2].
      rewrite <- T2 at 1. apply unflatten_digit; assumption. }
  cbn [bind]. rewrite R2. cbn [bind]. unfold getAxis. rewrite Ha. cbn [bind].
  rewrite (seqM_ok _ (fun o => map (fun t => rowmajor (ac_nb ac) (upd (digits (ac_nb ac) o) ax t)) (seq 0 (aNBins a)))).
  2:{ intros o Ho. apply in_seq in Ho. destruct (ac_tuple ac o Hok Hne ltac:(lia)) as [T1 T2].
      rewrite <- T2 at 1. rewrite unpack_rowmajor by assumption. cbn [bind].
      assert (Hlen : List.length (digits (ac_nb ac) o) = List.length (acAxes ac)).
      { rewrite (in_shape_length _ _ T1). apply map_length. }
      apply (seqM_ok _ (fun t => rowmajor (ac_nb ac) (upd (digits (ac_nb ac) o) ax t))). intros t _.
      destruct (Nat.ltb_spec ax (List.length (digits (ac_nb ac) o))); [|lia].
      apply flatten_rowmajor; [exact Hok|exact Hne|now rewrite upd_length]. }
  cbn [bind]. do 2 eexists. split; [reflexivity|]. split; [now rewrite map_length, seq_length|].
  intros J HJ. pose proof (rowmajor_lt _ _ HJ) as Hlt. rewrite <- ac_nb_prod in Hlt by assumption.
  destruct (ac_tuple ac (rowmajor (ac_nb ac) J) Hok Hne Hlt) as [T1 T2].
  pose proof (rowmajor_inj _ _ _ T1 HJ T2) as ED.
  split.
  - rewrite (nth_map2 _ _ _ 0%nat) by (rewrite seq_length; exact Hlt). rewrite seq_nth by exact Hlt.
    cbn [plus]. now rewrite ED.
  - intros t Ht.
    rewrite (nth_nth_map (fun o t => rowmajor (ac_nb ac) (upd (digits (ac_nb ac) o) ax t)) _ _ _ _ _ 0%nat)
      by (rewrite ?seq_length; assumption).
    rewrite seq_nth by exact Hlt. cbn [plus]. now rewrite ED.
Qed.

(** a kind that can be constructed *)
Definition k_ok (k : wkind) : Prop :=
  match k with KShift _ => True | KScale f => 0 < f | KFunc None => False | KFunc (Some _) => True end.
Definition increasing_on (k : wkind) (a : axis) : Prop :=
  forall i, (i < aNBins a)%nat -> warp_of k (lo_of a i) < warp_of k (hi_of a i).

Lemma check_ok k ac (tn : string) b : k_ok k -> (0 < acNBins ac)%nat ->
  sbTrans b = mk_obsset [tn] -> sbAxes b = ac -> w_check k b = Ok tt.
Proof.
  intros Hk Hp E1 E2. unfold w_check. rewrite E1, E2. cbn [osNames mk_obsset List.length Nat.eqb bind].
  destruct (Nat.eqb_spec (acNBins ac) 0); [lia|].
  destruct k as [s|f|[g|]]; cbn [k_ok] in Hk; try reflexivity; [|contradiction].
  destruct (qleb_spec f 0); [exfalso; qlra|reflexivity].
Qed.

Definition pvals (k : wkind) (a : axis) (bin : nat) : list (nat * Qc) :=
  let slo := warp_of k (lo_of a bin) in
  let shi := warp_of k (hi_of a bin) in
  filter (fun p => qltb 0 (snd p))
    (map (fun t => (t, binContribution (lo_of a t) (hi_of a t) slo shi))
         (seq (findBin a slo) (S (findBin a shi) - findBin a slo))).

Lemma vals_ok k a bin : built a -> (bin < aNBins a)%nat -> w_vals k a bin = Ok (pvals k a bin).
Proof.
  intros Hb Hbin. unfold w_vals, pvals. rewrite binLow_ok, binHigh_ok by assumption. cbn [bind].
  rewrite (seqM_ok _ (fun t => (t, binContribution (lo_of a t) (hi_of a t) (warp_of k (lo_of a bin)) (warp_of k (hi_of a bin))))).
  - reflexivity.
  - intros t Ht. apply in_seq in Ht.
    pose proof (findBin_lt a (warp_of k (hi_of a bin)) Hb).
    rewrite binLow_ok, binHigh_ok by (try assumption; lia). reflexivity.
Qed.

Lemma construct_from k ac dn tn ax a w bm mf :
  targets ac dn tn ax a -> fine a -> k_ok k -> increasing_on k a ->
  sbAxes (wB w) = ac -> sbTrans (wB w) = mk_obsset [tn] -> sbDist (wB w) = mk_obsset dn ->
  sNR (sbResp (wB w)) = acNBins ac -> sNC (sbResp (wB w)) = acNBins ac ->
  wKind w = k ->
  (if wCached w then Ok (wBinMap w, wMapR w, wMapC w, wMap w) else w_cacheOf (wB w))
     = Ok (bm, acNBins ac, aNBins a, mf) ->
  List.length bm = acNBins ac ->
  (forall J, in_shape (ac_nb ac) J ->
      nth (rowmajor (ac_nb ac) J) bm 0%nat = nth ax J 0%nat /\
      forall t, (t < aNBins a)%nat -> mf (rowmajor (ac_nb ac) J) t = rowmajor (ac_nb ac) (upd J ax t)) ->
  exists w', w_construct w = (w', Ok tt) /\ square (sbResp (wB w')) (acNBins ac) /\
    wB w' = sb_setResp (wB w) (sbResp (wB w')) /\
    wKind w' = k /\ wCached w' = true /\ wBinMap w' = bm /\ wMapR w' = acNBins ac /\ wMapC w' = aNBins a /\ wMap w' = mf /\
    (forall I J, in_shape (ac_nb ac) I -> in_shape (ac_nb ac) J ->
       sF (sbResp (wB w')) (rowmajor (ac_nb ac) I) (rowmajor (ac_nb ac) J) =
       let x := warp_of k (lo_of a (nth ax J 0%nat)) in
       let y := warp_of k (hi_of a (nth ax J 0%nat)) in
       if agreeb ax I J
       then overlap x y (lo_of a (nth ax I 0%nat)) (hi_of a (nth ax I 0%nat)) / (y - x)
       else 0).
Proof.
  intros HT [Hc Hw] Hk Hinc E1 E2 E3 E4 E5 E6 Ecache Hbl Hmaps.
  pose proof (targets_facts _ _ _ _ _ HT) as [Hok [Hne [Hax [Hb [Hpos Hnb]]]]].
  pose proof HT as [Hr [Hnd [Hn Ha]]]. destruct (relidx1 dn tn ax Hnd Hn) as [R1 R2].
  unfold w_construct. rewrite E6, (check_ok k ac tn) by assumption. cbn [obind]. rewrite Ecache. cbn [obind].
  unfold w_axis, w_axisIdx. rewrite E1, E2, E3. cbn [osNames mk_obsset vat nth_error bind].
  change (mkObs dn _) with (mk_obsset dn). rewrite R2. cbn [bind]. unfold getAxis. rewrite Ha. cbn [obind].
  rewrite (seqM_ok _ (pvals k a)) by (intros t Ht; apply in_seq in Ht; apply vals_ok; [exact Hb|lia]).
  cbn [obind]. unfold w_fillResp. cbn [wB wBinMap wMapC wMapR wMap]. unfold m_setZeros. rewrite E4, E5, E1.
  destruct (Nat.eqb_spec (acNBins ac) 0) as [|_]; [lia|]. cbn [orb].
  assert (Hshape : forall J, in_shape (ac_nb ac) J -> (nth ax J 0 < aNBins a)%nat).
  { intros J HJ. rewrite <- Hnb. clear -HJ Hax. unfold ac_nb in *.
    assert (Hl : (ax < List.length (map aNBins (acAxes ac)))%nat) by now rewrite map_length.
    revert ax Hax Hl. induction HJ as [|i n I nb Hi HJ IH]; intros ax Hax Hl; cbn in Hl; [lia|].
    destruct ax; cbn; [exact Hi|]. apply IH; lia. }
  edestruct (outer_fill mf bm (map (pvals k a) (seq 0 (aNBins a))) (aNBins a) (acNBins ac) (acNBins ac)
              (seq 0 (acNBins ac))) with (m := mkMat (acNBins ac) (acNBins ac) (acNBins ac) (acNBins ac) (fun _ _ : nat => Q2Qc 0))
    as [m' [Em [Sm Fm]]].
  - intros o Ho. apply in_seq in Ho. destruct (ac_tuple ac o Hok Hne ltac:(lia)) as [T1 T2].
    set (J := digits (ac_nb ac) o) in *. destruct (Hmaps J T1) as [B1 B2]. rewrite T2 in B1, B2.
    pose proof (Hshape J T1) as HJ.
    split; [lia|split; [lia|split; [lia|]]]. rewrite B1, map_length, seq_length. split; [exact HJ|].
    intros p Hp. rewrite (nth_map2 _ _ _ 0%nat) in Hp by (rewrite seq_length; exact HJ).
    rewrite seq_nth in Hp by exact HJ. cbn [plus] in Hp. unfold pvals in Hp.
    apply filter_In in Hp as [Hp _]. apply in_map_iff in Hp as [t [<- Ht]]. cbn [fst]. apply in_seq in Ht.
    pose proof (findBin_lt a (warp_of k (hi_of a (nth ax J 0%nat))) Hb).
    assert (Ht' : (t < aNBins a)%nat) by lia. split; [exact Ht'|]. rewrite B2 by exact Ht'.
    rewrite ac_nb_prod by assumption. apply rowmajor_lt. apply upd_in_shape; [exact T1|]. now rewrite Hnb.
  - apply seq_NoDup.
  - repeat split; reflexivity.
  - rewrite Em. eexists. split; [reflexivity|]. cbn [w_onB wB sb_setResp sbResp wKind wCached wBinMap wMapR wMapC wMap].
    split; [exact Sm|]. split; [reflexivity|]. do 6 (split; [first [reflexivity|exact E6]|]).
    intros I J HI HJ. rewrite Fm. cbn [sF].
    pose proof (rowmajor_lt _ _ HJ) as HJlt. rewrite <- ac_nb_prod in HJlt by assumption.
    destruct (in_dec Nat.eq_dec (rowmajor (ac_nb ac) J) (seq 0 (acNBins ac))) as [_|C].
    2:{ exfalso. apply C. apply in_seq. lia. }
    destruct (Hmaps J HJ) as [B1 B2]. rewrite B1. pose proof (Hshape J HJ) as HJa. pose proof (Hshape I HI) as HIa.
    rewrite (nth_map2 _ _ _ 0%nat) by (rewrite seq_length; exact HJa). rewrite seq_nth by exact HJa. cbn [plus].
    set (b := nth ax J 0%nat) in *. set (x := warp_of k (lo_of a b)). set (y := warp_of k (hi_of a b)).
    assert (Hxy : x < y) by (apply Hinc; exact HJa).
    assert (HlenIJ : List.length I = List.length J) by (rewrite (in_shape_length _ _ HI), (in_shape_length _ _ HJ); reflexivity).
    assert (HaxJ : (ax < List.length J)%nat).
    { rewrite (in_shape_length _ _ HJ). unfold ac_nb. now rewrite map_length. }
    unfold pvals. fold x y. cbv zeta. apply wr_filter.
    + destruct (agreeb ax I J); [|qlra]. apply qdiv_nonneg; [qlra|apply overlap_nonneg].
    + intros t Ht E. apply in_seq in Ht. pose proof (findBin_lt a y Hb).
      assert (Ht' : (t < aNBins a)%nat) by lia. rewrite B2 in E by exact Ht'.
      apply rowmajor_inj in E; [|apply upd_in_shape; [exact HJ|now rewrite Hnb]|exact HI].
      assert (A : agreeb ax I J = true).
      { apply agreeb_spec; [exact HlenIJ|]. rewrite <- E. apply upd_agree. }
      rewrite A. assert (Et : nth ax I 0%nat = t). { rewrite <- E, nth_upd by exact HaxJ. now rewrite Nat.eqb_refl. }
      rewrite Et. apply contribution_overlap; [exact Hxy|].
      apply Qclt_le_weak, Hw. exact Ht'.
    + intros Hnz. destruct (agreeb ax I J) eqn:A; [|congruence].
      exists (nth ax I 0%nat). apply agreeb_spec in A; [|exact HlenIJ].
      split.
      * apply in_seq.
        destruct (Nat.lt_ge_cases (nth ax I 0%nat) (findBin a x)) as [C|C].
        { exfalso. apply Hnz. rewrite overlap_outside by auto. apply qdiv_0. }
        destruct (Nat.lt_ge_cases (findBin a y) (nth ax I 0%nat)) as [C2|C2].
        { exfalso. apply Hnz. rewrite overlap_outside by auto. apply qdiv_0. }
        lia.
      * rewrite B2 by exact HIa. rewrite <- (agree_upd ax I J HlenIJ HaxJ A). reflexivity.
Qed.

(** package: a freshly configured systematic *)
Lemma warp_construct_pkg k ac dn tn ax a : targets ac dn tn ax a -> fine a -> k_ok k -> increasing_on k a ->
  exists w', w_construct (w_cfg k ac dn tn) = (w', Ok tt) /\ square (sbResp (wB w')) (acNBins ac) /\
    forall I J, in_shape (nshape ac) I -> in_shape (nshape ac) J ->
       let x := warp_of k (lo_of a (nth ax J 0%nat)) in
       let y := warp_of k (hi_of a (nth ax J 0%nat)) in
       let e := resp (wB w') (rowmajor (nshape ac) I) (rowmajor (nshape ac) J) in
       (agree_off ax I J -> e = overlap x y (lo_of a (nth ax I 0%nat)) (hi_of a (nth ax I 0%nat)) / (y - x)) /\
       (~ agree_off ax I J -> e = 0) /\ 0 <= e /\ e <= 1.
Proof.
  intros HT Hf Hk Hinc. destruct (cache_ok k _ _ _ _ _ HT) as [bm [mf [Ec [Hl Hm]]]].
  edestruct (construct_from k ac dn tn ax a (w_cfg k ac dn tn) bm mf) as [w' [E [Sq [_ [_ [_ [_ [_ [_ [_ F]]]]]]]]]];
    try eassumption; try reflexivity.
  exists w'. split; [exact E|split; [exact Sq|]]. intros I J HI HJ x y e. change (nshape ac) with (ac_nb ac) in *.
  assert (Hlen : List.length I = List.length J) by (rewrite (in_shape_length _ _ HI), (in_shape_length _ _ HJ); reflexivity).
  unfold e, resp. rewrite (F I J HI HJ). cbv zeta. fold x y.
  assert (Hxy : x < y).
  { apply Hinc. pose proof (targets_facts _ _ _ _ _ HT) as [_ [_ [Hax [_ [_ Hnb]]]]]. rewrite <- Hnb.
    clear -HJ Hax. unfold ac_nb in *.
    assert (Hl : (ax < List.length (map aNBins (acAxes ac)))%nat) by now rewrite map_length.
    revert ax Hax Hl. induction HJ as [|i n I nb Hi HJ IH]; intros ax Hax Hl; cbn in Hl; [lia|].
    destruct ax; cbn; [exact Hi|]. apply IH; lia. }
  destruct (agreeb ax I J) eqn:A.
  - split; [reflexivity|]. split.
    + intros N. exfalso. apply N. now apply agreeb_spec.
    + split; [apply qdiv_nonneg; [qlra|apply overlap_nonneg]|apply qdiv_le1; [qlra|apply overlap_le; qlra]].
  - split; [|split; [reflexivity|split; qlra]].
    intros N. apply agreeb_spec in N; [congruence|exact Hlen].
Qed.
