(** Column sums, identity, effect on contents; matrices acting on contents. *)
From Verif Require Import Base.Res Base.Num Base.SMap Model.Axis Model.Event Model.Hist Model.Matrix Model.Syst
  Spec.AxisSpec Spec.HistSpec Spec.SystSpec Proofs.AxisP Proofs.HistP Proofs.HistP2 Proofs.CutP Proofs.ParamP3
  Proofs.SystP Proofs.SystP2 Proofs.SystP3.
Local Open Scope Qc_scope.

Lemma shape_nth nb J ax : in_shape nb J -> (ax < List.length nb)%nat -> (nth ax J 0 < nth ax nb 0)%nat.
Proof.
  intros HJ. revert ax. induction HJ as [|i n I nb' Hi HJ IH]; intros ax Hl; cbn in Hl; [lia|].
  destruct ax; cbn; [exact Hi|]. apply IH; lia.
Qed.
Lemma target_bin ac dn tn ax a J : targets ac dn tn ax a -> in_shape (nshape ac) J -> (nth ax J 0 < aNBins a)%nat.
Proof.
  intros HT HJ. pose proof (targets_facts _ _ _ _ _ HT) as [_ [_ [Hax [_ [_ Hnb]]]]]. rewrite <- Hnb.
  apply shape_nth; [exact HJ|]. unfold ac_nb. now rewrite map_length.
Qed.

Lemma warp_full_pkg k ac dn tn ax a : targets ac dn tn ax a -> fine a -> k_ok k -> increasing_on k a ->
  exists w', w_construct (w_cfg k ac dn tn) = (w', Ok tt) /\ square (sbResp (wB w')) (acNBins ac) /\
    (forall I J, in_shape (nshape ac) I -> in_shape (nshape ac) J ->
       let x := warp_of k (lo_of a (nth ax J 0%nat)) in
       let y := warp_of k (hi_of a (nth ax J 0%nat)) in
       let e := resp (wB w') (rowmajor (nshape ac) I) (rowmajor (nshape ac) J) in
       (agree_off ax I J -> e = overlap x y (lo_of a (nth ax I 0%nat)) (hi_of a (nth ax I 0%nat)) / (y - x)) /\
       (~ agree_off ax I J -> e = 0) /\ 0 <= e /\ e <= 1) /\
    (forall J, in_shape (nshape ac) J ->
       let x := warp_of k (lo_of a (nth ax J 0%nat)) in
       let y := warp_of k (hi_of a (nth ax J 0%nat)) in
       qsum (map (fun i => resp (wB w') i (rowmajor (nshape ac) J)) (seq 0 (acNBins ac))) = frac_inside a x y).
Proof.
  intros HT Hf Hk Hinc. destruct (warp_construct_pkg k ac dn tn ax a HT Hf Hk Hinc) as [w' [E [Sq F]]].
  exists w'. split; [exact E|split; [exact Sq|split; [exact F|]]]. intros J HJ x y.
  pose proof (targets_facts _ _ _ _ _ HT) as [Hok [Hne [Hax [Hb [Hpos Hnb]]]]].
  rewrite (ac_nb_prod ac Hok Hne). change (ac_nb ac) with (nshape ac). rewrite qsum_bins_tuples.
  assert (Hxy : x < y) by (apply Hinc; eapply target_bin; eassumption).
  transitivity (qsum (map (fun I => if agreeb ax I J then (fun t => overlap x y (lo_of a t) (hi_of a t) / (y - x)) (nth ax I 0%nat) else 0) (tuples (nshape ac)))).
  - apply qsum_map_ext. intros I HI. apply in_tuples in HI.
    assert (Hlen : List.length I = List.length J) by (rewrite (in_shape_length _ _ HI), (in_shape_length _ _ HJ); reflexivity).
    destruct (F I J HI HJ) as [F1 [F2 _]]. destruct (agreeb ax I J) eqn:A.
    + apply F1. now apply agreeb_spec.
    + apply F2. intros C. apply agreeb_spec in C; [congruence|exact Hlen].
  - rewrite (tuples_line (nshape ac) ax J (fun t => overlap x y (lo_of a t) (hi_of a t) / (y - x)));
      [|exact HJ|unfold nshape; now rewrite map_length].
    change (nth ax (nshape ac) 0%nat) with (nth ax (ac_nb ac) 0%nat). rewrite Hnb.
    unfold frac_inside. rewrite <- overlap_sum; [|exact Hb|apply Hf|qlra].
    unfold Qcdiv. rewrite Qcmult_comm, <- qsum_map_mul. apply qsum_map_ext. intros t _. ring.
Qed.

Lemma frac_inside_1 a x y : x < y -> aMin a <= x -> y <= aMax a -> frac_inside a x y = 1.
Proof.
  intros H1 H2 H3. unfold frac_inside. rewrite <- (qdiv_same (y - x)) by qlra. f_equal. minmax; qlra.
Qed.
Lemma frac_inside_0 a x y : x < y -> (y <= aMin a \/ aMax a <= x) -> frac_inside a x y = 0.
Proof.
  intros H1 H2. unfold frac_inside. rewrite <- (qdiv_0 (y - x)). f_equal. destruct H2; minmax; qlra.
Qed.

Lemma bins_disjoint a i j : built a -> contiguous a -> (i < aNBins a)%nat -> (j < aNBins a)%nat -> i <> j ->
  overlap (lo_of a j) (hi_of a j) (lo_of a i) (hi_of a i) = 0.
Proof.
  intros Hb Hc Hi Hj Hne. destruct (built_facts _ Hb) as [_ [_ [_ [_ [_ [_ [Hle _]]]]]]].
  assert (W : forall p q, (p < q)%nat -> (q < aNBins a)%nat -> hi_of a p <= lo_of a q).
  { intros p q H1 H2. rewrite (Hc p) by lia. apply lows_mono; [exact Hb|exact Hc|lia]. }
  pose proof (Hle i Hi). pose proof (Hle j Hj).
  destruct (Nat.lt_ge_cases i j) as [C|C].
  - pose proof (W i j C Hj). minmax; qlra.
  - pose proof (W j i ltac:(lia) Hi). minmax; qlra.
Qed.

(** warps that do nothing *)
Lemma warp_identity_pkg k ac dn tn ax a : targets ac dn tn ax a -> fine a -> k_ok k ->
  (forall x, warp_of k x = x) ->
  exists w', w_construct (w_cfg k ac dn tn) = (w', Ok tt) /\ square (sbResp (wB w')) (acNBins ac) /\
    forall i j, (i < acNBins ac)%nat -> (j < acNBins ac)%nat ->
      resp (wB w') i j = if Nat.eqb i j then 1 else 0.
Proof.
  intros HT Hf Hk Hid.
  assert (Hinc : increasing_on k a) by (intros t Ht; rewrite !Hid; apply Hf; exact Ht).
  destruct (warp_construct_pkg k ac dn tn ax a HT Hf Hk Hinc) as [w' [E [Sq F]]].
  exists w'. split; [exact E|split; [exact Sq|]]. intros i j Hi Hj.
  pose proof (targets_facts _ _ _ _ _ HT) as [Hok [Hne [Hax [Hb [Hpos Hnb]]]]].
  destruct (ac_tuple ac i Hok Hne Hi) as [I1 I2]. destruct (ac_tuple ac j Hok Hne Hj) as [J1 J2].
  set (I := digits (ac_nb ac) i) in *. set (J := digits (ac_nb ac) j) in *.
  destruct (F I J I1 J1) as [F1 [F2 _]]. change (nshape ac) with (ac_nb ac) in F1, F2.
  rewrite I2, J2 in F1, F2. rewrite !Hid in F1.
  assert (Hlen : List.length I = List.length J) by (rewrite (in_shape_length _ _ I1), (in_shape_length _ _ J1); reflexivity).
  pose proof (target_bin _ _ _ _ _ I HT I1) as Hi'. pose proof (target_bin _ _ _ _ _ J HT J1) as Hj'.
  destruct (agreeb ax I J) eqn:A.
  - apply agreeb_spec in A; [|exact Hlen]. rewrite (F1 A).
    destruct (Nat.eq_dec (nth ax I 0%nat) (nth ax J 0%nat)) as [Ee|Ee].
    + assert (I = J).
      { apply (nth_ext _ _ 0%nat 0%nat); [exact Hlen|]. intros q _.
        destruct (Nat.eq_dec q ax) as [->|Hq]; [exact Ee|apply A; exact Hq]. }
      assert (i = j) by congruence. destruct (Nat.eqb_spec i j); [|contradiction]. rewrite Ee.
      pose proof (proj2 Hf _ Hj') as Hw. rewrite <- (qdiv_same (hi_of a (nth ax J 0%nat) - lo_of a (nth ax J 0%nat))) by qlra.
      f_equal. minmax; qlra.
    + destruct (Nat.eqb_spec i j) as [Eij|_].
      { exfalso. apply Ee. assert (I = J) by (apply (rowmajor_inj (ac_nb ac)); congruence). congruence. }
      rewrite bins_disjoint; [apply qdiv_0|exact Hb|apply Hf|exact Hi'|exact Hj'|exact Ee].
  - rewrite F2 by (intros C; apply agreeb_spec in C; [congruence|exact Hlen]).
    destruct (Nat.eqb_spec i j) as [Eij|_]; [|reflexivity]. exfalso.
    assert (I = J) by (apply (rowmajor_inj (ac_nb ac)); congruence).
    assert (agreeb ax I J = true) by (apply agreeb_spec; [exact Hlen|]; rewrite H; intros q _; reflexivity).
    congruence.
Qed.

(** * a matrix acting on a vector *)
Lemma m_apply_ok m v n : square m n -> List.length v = n ->
  m_apply m v = Ok (map (fun i => qsum (map (fun j => sF m i j * nth j v 0) (seq 0 n))) (seq 0 n)).
Proof.
  intros [_ [_ [HR HC]]] Hv. unfold m_apply. rewrite HC, HR, Hv, Nat.eqb_refl. reflexivity.
Qed.
Lemma m_apply_total m v n : square m n -> List.length v = n ->
  exists out, m_apply m v = Ok out /\ List.length out = n /\
    (forall i, (i < n)%nat -> nth i out 0 = qsum (map (fun j => sF m i j * nth j v 0) (seq 0 n))) /\
    qsum out = qsum (map (fun j => qsum (map (fun i => sF m i j) (seq 0 n)) * nth j v 0) (seq 0 n)).
Proof.
  intros Sq Hv. rewrite (m_apply_ok m v n Sq Hv). eexists. split; [reflexivity|].
  split; [now rewrite map_length, seq_length|]. split.
  - intros i Hi. rewrite nth_map_seq by exact Hi. reflexivity.
  - rewrite (qsum_map_swap (fun i j => sF m i j * nth j v 0)). apply qsum_map_ext. intros j _.
    rewrite Qcmult_comm, <- qsum_map_mul. apply qsum_map_ext. intros i _. ring.
Qed.

(** the systematic applied to a histogram with as many bins, normalisation asked for *)
Lemma sys_apply_pkg m h n : h_reach h -> hNBins h = n -> square m n ->
  exists h' s, sys_apply m h true = Ok (h', Some s) /\ same_axes h h' /\ s = total h' /\
    (forall i, (i < n)%nat -> cont h' i = qsum (map (fun j => sF m i j * cont h j) (seq 0 n))) /\
    total h' = qsum (map (fun j => qsum (map (fun i => sF m i j) (seq 0 n)) * cont h j) (seq 0 n)).
Proof.
  intros Hr Hn Sq. pose proof (h_reach_ok _ Hr) as Hok.
  assert (Hlen : List.length (hCont h) = n). { destruct Hok as [? [? [? [? ?]]]]. congruence. }
  destruct (m_apply_total m (hCont h) n Sq Hlen) as [out [E [Lo [F T]]]].
  unfold sys_apply. rewrite E. cbn [bind]. unfold setBinContents. rewrite Lo, Hn, Nat.eqb_refl. cbn [negb ret bind].
  set (h' := mkHist (hAxes h) out n (hNDims h)).
  assert (Hi : integral h' = Ok (total h')).
  { unfold integral, total. cbn [hNBins h']. 
    assert (G : forall l s, (forall i, In i l -> (i < n)%nat) ->
       foldM (fun s i => bind (vidx (hCont h') i) (fun c => Ok (s + c))) l s = Ok (s + qsum (map (cont h') l))).
    { induction l as [|i l IH]; intros s Hl; cbn [foldM map qsum]; [f_equal; ring|].
      rewrite (vidx_nth _ _ 0) by (cbn [hCont h']; rewrite Lo; apply Hl; now left). cbn [bind].
      rewrite IH by (intros; apply Hl; now right). f_equal. unfold cont. ring. }
    rewrite G; [f_equal; ring|]. intros i Hi. apply in_seq in Hi. lia. }
  rewrite Hi. cbn [bind]. exists h', (total h'). split; [reflexivity|]. split; [repeat split; exact Hn|].
  split; [reflexivity|]. split.
  - intros i Hi'. unfold cont. cbn [hCont h']. apply F. exact Hi'.
  - unfold total. cbn [hNBins h']. unfold cont at 1. cbn [hCont h']. rewrite <- Lo, qsum_nth, T. now rewrite Lo.
Qed.

(** content carried by a warp systematic *)
Lemma warp_contents_pkg k ac dn tn ax a h : targets ac dn tn ax a -> fine a -> k_ok k -> increasing_on k a ->
  h_reach h -> hAxes h = ac ->
  exists w' h' s, w_construct (w_cfg k ac dn tn) = (w', Ok tt) /\
    sys_apply (sbResp (wB w')) h true = Ok (h', Some s) /\ same_axes h h' /\ s = total h' /\
    total h' = qsum (map (fun J => let x := warp_of k (lo_of a (nth ax J 0%nat)) in
                                   let y := warp_of k (hi_of a (nth ax J 0%nat)) in
                                   frac_inside a x y * cont_at h J) (tuples (nshape ac))) /\
    ((forall J, in_shape (nshape ac) J -> cont_at h J <> 0 ->
        aMin a <= warp_of k (lo_of a (nth ax J 0%nat)) /\ warp_of k (hi_of a (nth ax J 0%nat)) <= aMax a) ->
     total h' = total h).
Proof.
  intros HT Hf Hk Hinc Hr Hac.
  destruct (warp_full_pkg k ac dn tn ax a HT Hf Hk Hinc) as [w' [E [Sq [F C]]]].
  pose proof (targets_facts _ _ _ _ _ HT) as [Hok [Hne [Hax [Hb [Hpos Hnb]]]]].
  assert (Hn : hNBins h = acNBins ac).
  { pose proof (h_reach_ok _ Hr) as [? [? [? [? ?]]]]. rewrite <- Hac. assumption. }
  destruct (sys_apply_pkg _ h _ Hr Hn Sq) as [h' [s [E2 [SA [Es [_ T]]]]]].
  assert (T2 : total h' = qsum (map (fun J => let x := warp_of k (lo_of a (nth ax J 0%nat)) in
                                   let y := warp_of k (hi_of a (nth ax J 0%nat)) in
                                   frac_inside a x y * cont_at h J) (tuples (nshape ac)))).
  { rewrite T, (ac_nb_prod ac Hok Hne). change (ac_nb ac) with (nshape ac).
    rewrite (qsum_bins_tuples (nshape ac)). apply qsum_map_ext. intros J HJ. apply in_tuples in HJ.
    cbv zeta. rewrite <- (C J HJ). rewrite (ac_nb_prod ac Hok Hne). change (ac_nb ac) with (nshape ac).
    f_equal. unfold cont_at, shape_of. rewrite Hac. reflexivity. }
  exists w', h', s. split; [exact E|split; [exact E2|split; [exact SA|split; [exact Es|split; [exact T2|]]]]].
  intros Hin. rewrite T2. unfold total. rewrite Hn, (ac_nb_prod ac Hok Hne). change (ac_nb ac) with (nshape ac).
  rewrite (qsum_bins_tuples (nshape ac)). apply qsum_map_ext. intros J HJ. apply in_tuples in HJ. cbv zeta.
  assert (EJ : cont_at h J = cont h (rowmajor (nshape ac) J)) by (unfold cont_at, shape_of; now rewrite Hac).
  destruct (qeqb (cont_at h J) 0) eqn:Z.
  - apply qeqb_eq in Z. rewrite <- EJ, Z. ring.
  - apply qeqb_neq in Z. destruct (Hin J HJ Z) as [H1 H2]. rewrite frac_inside_1.
    + rewrite <- EJ. ring.
    + apply Hinc. eapply target_bin; eassumption.
    + exact H1.
    + exact H2.
Qed.
