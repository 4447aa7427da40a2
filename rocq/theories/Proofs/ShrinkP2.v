From Coq Require Import ZArith.
From Verif Require Import Base.Res Base.Num Base.SMap Model.Axis Model.Event Model.Hist Model.ED Model.Shrink
  Spec.AxisSpec Spec.HistSpec Spec.ShrinkSpec Proofs.AxisP Proofs.HistP Proofs.HistP2 Proofs.ShrinkP.
Local Open Scope Qc_scope.
Local Open Scope res_scope.

Definition outside (lo n x : nat) : bool := (Nat.ltb x lo || Nat.leb n (x - lo))%bool.
Fixpoint outsides (los ns idx : list nat) : bool :=
  match los, ns, idx with
  | lo :: los', n :: ns', i :: idx' => (outside lo n i || outsides los' ns' idx')%bool
  | _, _, _ => false
  end.

Lemma nearests_nth los : forall ns idx j, List.length ns = List.length los -> List.length idx = List.length los ->
  (j < List.length los)%nat ->
  nth j (nearests los ns idx) 0%nat = nearest (nth j los 0%nat) (nth j ns 0%nat) (nth j idx 0%nat).
Proof.
  induction los as [|l los IH]; intros [|n ns] [|i idx] [|j] H1 H2 Hj; cbn in *; try lia; try discriminate; auto.
  apply IH; lia.
Qed.
Lemma nearests_length los : forall ns idx, List.length ns = List.length los -> List.length idx = List.length los ->
  List.length (nearests los ns idx) = List.length los.
Proof.
  induction los as [|l los IH]; intros [|n ns] [|i idx] H1 H2; cbn in *; try discriminate; auto. Qed.

Lemma nearests_shape los : forall ns idx, List.length ns = List.length los -> List.length idx = List.length los ->
  Forall (fun n => (0 < n)%nat) ns -> in_shape ns (nearests los ns idx).
Proof.
  unfold in_shape. induction los as [|l los IH]; intros [|n ns] [|i idx] H1 H2 Hp; cbn in *; try discriminate; auto.
  inversion Hp; subst. constructor; [|apply IH; auto].
  unfold nearest. destruct (Nat.ltb_spec i l); lia.
Qed.
Lemma old_shape los : forall ups ns J, Forall2 (fun i n => (i < n)%nat) J ns -> List.length los = List.length ns ->
  List.length ups = List.length ns ->
  in_shape (map (fun p => fst (fst p) + snd p + snd (fst p))%nat (combine (combine los ups) ns)) (old_index los J).
Proof.
  unfold in_shape. induction los as [|l los IH]; intros [|u ups] ns J H H1 H2; destruct H; cbn in *; try discriminate.
  - constructor.
  - constructor; [lia|]. apply IH; auto.
Qed.

(** the kept bins are exactly those of the form old_index *)
Lemma nearest_inside los : forall ns idx J, List.length ns = List.length los -> List.length idx = List.length los ->
  in_shape ns J -> (outsides los ns idx = false /\ nearests los ns idx = J) <-> idx = old_index los J.
Proof.
  unfold in_shape. induction los as [|l los IH]; intros [|n ns] [|i idx] J H1 H2 HJ; inversion HJ; subst; cbn in *; try discriminate.
  - split; auto.
  - split.
    + intros [Ho En]. injection En as E1 E2. apply Bool.orb_false_iff in Ho as [O1 O2].
      unfold outside in O1. apply Bool.orb_false_iff in O1 as [O1 O3].
      apply Nat.ltb_ge in O1. apply Nat.leb_gt in O3. f_equal.
      * unfold nearest in E1. destruct (Nat.ltb_spec i l); lia.
      * apply (IH ns); auto. 
    + intros E. injection E as -> ->.
      assert (Hin : outsides los ns (old_index los l0) = false /\ nearests los ns (old_index los l0) = l0).
      { apply IH; auto. }
      destruct Hin as [-> ->]. unfold outside, nearest.
      destruct (Nat.ltb_spec (l + x) l); [lia|]. destruct (Nat.leb_spec n (l + x - l)); [lia|]. split; [reflexivity|]. f_equal. lia.
Qed.

Section Bins.
Variables (m : smap (Z * Z)) (axes nac : axcol) (ovr : bool).
Hypothesis (Hax : ac_ok axes) (Hnac : ac_ok nac) (Hne : acAxes axes <> []).
Hypothesis (Hbuf : Forall (buf_ok m) (acAxes axes)).
Hypothesis (Htr : Forall2 (fun a a' => trimmed (bl m a) (bu m a) a a') (acAxes axes) (acAxes nac)).
Let los := map (bl m) (acAxes axes).
Let ns := map aNBins (acAxes nac).

Lemma len_eq : List.length (acAxes nac) = List.length (acAxes axes).
Proof. clear -Htr. induction Htr; cbn; auto. Qed.
Lemma trim_nth j : (j < List.length (acAxes axes))%nat ->
  trimmed (bl m (nth j (acAxes axes) axis0)) (bu m (nth j (acAxes axes) axis0)) (nth j (acAxes axes) axis0) (nth j (acAxes nac) axis0).
Proof.
  generalize (acAxes nac), Htr. generalize (acAxes axes). intros l l' H. revert j.
  induction H; intros [|j] Hj; cbn in *; try lia; auto. apply IHForall2. lia.
Qed.

Lemma getAxis_nth ac j : (j < List.length (acAxes ac))%nat -> getAxis ac j = Ok (nth j (acAxes ac) axis0).
Proof. intros H. unfold getAxis. rewrite (nth_error_nth' _ axis0 H). reflexivity. Qed.

Lemma sh_dim_ok s idx j : shBuf s = m -> shAxes s = nac -> in_shape (ac_nb axes) idx -> (j < List.length (acAxes axes))%nat ->
  sh_dim s axes (rowmajor (ac_nb axes) idx) j =
  Ok (nearest (nth j los 0%nat) (nth j ns 0%nat) (nth j idx 0%nat), outside (nth j los 0%nat) (nth j ns 0%nat) (nth j idx 0%nat)).
Proof.
  intros Es En Hi Hj. unfold sh_dim. rewrite getAxis_nth by exact Hj. cbn [bind].
  rewrite unflatten_digit by assumption. cbn [bind]. rewrite Es, En.
  rewrite getAxis_nth by (rewrite len_eq; exact Hj). cbn [bind].
  unfold los, ns. rewrite (nth_map2 (bl m) _ _ axis0) by exact Hj.
  rewrite (nth_map2 aNBins _ _ axis0) by (rewrite len_eq; exact Hj).
  pose proof (trim_nth j Hj) as [_ [Tn [Tp _]]].
  assert (Hb : buf_ok m (nth j (acAxes axes) axis0)).
  { rewrite Forall_forall in Hbuf. apply Hbuf. apply nth_In. exact Hj. }
  assert (Hx : (nth j idx 0 < aNBins (nth j (acAxes axes) axis0))%nat).
  { clear -Hi Hj. unfold in_shape, ac_nb in Hi. revert j idx Hi Hj. induction (acAxes axes) as [|a l IH]; intros [|j] idx Hi Hj; cbn in Hj; try lia; inversion Hi; subst; cbn [nth]; auto.
    apply IH; auto. lia. }
  set (a := nth j (acAxes axes) axis0) in *. set (a' := nth j (acAxes nac) axis0) in *. set (x := nth j idx 0%nat) in *.
  destruct Hb as [B1 [B2 [B3 [B4 B5]]]].
  assert (Eoff : (match sfind (aName a) m with
           | Some p => s32 (s32 (Z.of_nat x) - fst p)
           | None => s32 (Z.of_nat x) end = Z.of_nat x - Z.of_nat (bl m a))%Z).
  { unfold bl in *. unfold bufZ in *. rewrite (s32_id (Z.of_nat x)) by lia. destruct (sfind (aName a) m) as [p|].
    - rewrite s32_id by lia. lia.
    - cbn. lia. }
  rewrite Eoff. set (lo := bl m a) in *. set (n := aNBins a') in *.
  unfold nearest, outside. do 2 f_equal.
  - destruct (Z.ltb_spec (Z.of_nat x - Z.of_nat lo) 0).
    + destruct (Nat.ltb_spec x lo); [|lia]. destruct (Z.leb_spec (Z.of_nat n) 0); [lia|]. reflexivity.
    + destruct (Nat.ltb_spec x lo); [lia|]. destruct (Z.leb_spec (Z.of_nat n) (Z.of_nat x - Z.of_nat lo)); lia.
  - destruct (Z.ltb_spec (Z.of_nat x - Z.of_nat lo) 0).
    + destruct (Nat.ltb_spec x lo); [|lia]. reflexivity.
    + destruct (Nat.ltb_spec x lo); [lia|]. cbn [orb].
      destruct (Z.leb_spec (Z.of_nat n) (Z.of_nat x - Z.of_nat lo)), (Nat.leb_spec n (x - lo)); try lia; reflexivity.
Qed.

Definition anyout (P : nat -> bool) (js : list nat) : bool := existsb P js.

Lemma dims_loop s idx i (use : list bool) js : shBuf s = m -> shAxes s = nac -> shOver s = ovr ->
  in_shape (ac_nb axes) idx -> i = rowmajor (ac_nb axes) idx ->
  (forall j, In j js -> (j < List.length (acAxes axes))%nat) -> forall acc u, (i < List.length u)%nat ->
  let P := fun j => outside (nth j los 0%nat) (nth j ns 0%nat) (nth j idx 0%nat) in
  foldM (fun (st : list nat * list bool) j =>
              do p <- sh_dim s axes i j;
              if (snd p && negb (shOver s))%bool
              then if Nat.ltb i (List.length (snd st)) then Ok (fst st ++ [fst p], upd (snd st) i false)
                   else Throw std_out_of_range
              else Ok (fst st ++ [fst p], snd st)) js (acc, u) =
  Ok (acc ++ map (fun j => nearest (nth j los 0%nat) (nth j ns 0%nat) (nth j idx 0%nat)) js,
      if (existsb P js && negb ovr)%bool then upd u i false else u).
Proof.
  intros E1 E2 E3 Hi Ei Hjs. cbv zeta. induction js as [|j js IH]; intros acc u Hu; cbn [foldM map existsb].
  - rewrite app_nil_r. reflexivity.
  - assert (Ed : sh_dim s axes i j = Ok (nearest (nth j los 0%nat) (nth j ns 0%nat) (nth j idx 0%nat),
               outside (nth j los 0%nat) (nth j ns 0%nat) (nth j idx 0%nat))).
    { rewrite Ei. apply sh_dim_ok; auto. apply Hjs. now left. }
    rewrite Ed. cbn [bind fst snd]. rewrite E3 in *.
    assert (Hjs' : forall k, In k js -> (k < List.length (acAxes axes))%nat) by (intros; apply Hjs; now right).
    destruct (outside (nth j los 0%nat) (nth j ns 0%nat) (nth j idx 0%nat)) eqn:Eo; cbn [andb orb].
    + destruct ovr; cbn [negb].
      * cbn [bind]. etransitivity; [apply (IH Hjs'); exact Hu|]. rewrite Bool.andb_false_r. f_equal. f_equal. rewrite <- app_assoc. reflexivity.
      * destruct (Nat.ltb_spec i (List.length u)); [|lia]. cbn [bind].
        etransitivity; [apply (IH Hjs'); rewrite upd_length; exact Hu|]. f_equal. f_equal; [rewrite <- app_assoc; reflexivity|].
        destruct (existsb _ js); cbn [andb negb]; [|reflexivity].
        clear. revert i. induction u as [|b u IHu]; intros [|i]; cbn; auto. f_equal. apply IHu.
    + cbn [bind]. etransitivity; [apply (IH Hjs'); exact Hu|]. f_equal. f_equal. rewrite <- app_assoc. reflexivity.
Qed.

Lemma map_nth_all {A} (f : nat -> A) (l : list A) d : (forall j, (j < List.length l)%nat -> f j = nth j l d) ->
  map f (seq 0 (List.length l)) = l.
Proof.
  intros H. apply (nth_ext _ _ d d); [now rewrite map_length, seq_length|].
  rewrite map_length, seq_length. intros j Hj. rewrite (nth_map2 _ _ _ 0%nat) by (rewrite seq_length; exact Hj).
  rewrite seq_nth by exact Hj. apply H. exact Hj.
Qed.
Lemma existsb_outsides (l1 l2 l3 : list nat) : List.length l2 = List.length l1 -> List.length l3 = List.length l1 ->
  existsb (fun j => outside (nth j l1 0%nat) (nth j l2 0%nat) (nth j l3 0%nat)) (seq 0 (List.length l1)) = outsides l1 l2 l3.
Proof.
  revert l2 l3. induction l1 as [|x l1 IH]; intros [|y l2] [|z l3] H1 H2; cbn [List.length seq existsb outsides] in *; try discriminate; auto.
  cbn [nth]. f_equal. rewrite <- (IH l2 l3) by lia. rewrite <- seq_shift.
  clear. induction (seq 0 (List.length l1)) as [|a s IHs]; cbn [map existsb]; [reflexivity|]. rewrite IHs. reflexivity.
Qed.

Definition gbin (k : nat) : nat := rowmajor ns (nearests los ns (digits (ac_nb axes) k)).
Definition ubin (k : nat) : bool := (ovr || negb (outsides los ns (digits (ac_nb axes) k)))%bool.

Lemma upd_last {A} (l : list A) a b : upd (l ++ [a]) (List.length l) b = l ++ [b].
Proof. induction l as [|x l IH]; cbn; [reflexivity|]. now rewrite IH. Qed.

Lemma mapBin_step s i : shBuf s = m -> shAxes s = nac -> shOver s = ovr -> List.length (shUse s) = i ->
  (i < prod (ac_nb axes))%nat ->
  sh_mapBin axes (List.length (acAxes axes)) s i =
  (mkShr m (shBin s ++ [gbin i]) (shUse s ++ [ubin i]) ovr nac, Ok tt).
Proof.
  intros E1 E2 E3 El Hi. destruct (digits_spec (ac_nb axes) i Hi) as [Hd Hr].
  pose proof (in_shape_length _ _ Hd) as Hdl. unfold ac_nb in Hdl at 2. rewrite map_length in Hdl.
  assert (Ll : List.length los = List.length (acAxes axes)) by apply map_length.
  assert (Ln : List.length ns = List.length (acAxes axes)) by (unfold ns; rewrite map_length; apply len_eq).
  unfold sh_mapBin. cbn [shUse].
  rewrite (dims_loop s (digits (ac_nb axes) i) i (shUse s ++ [true]) (seq 0 (List.length (acAxes axes))) E1 E2 E3 Hd (eq_sym Hr)).
  2:{ intros j Hj. apply in_seq in Hj. lia. }
  2:{ rewrite app_length; cbn; lia. }
  cbn [app obind fst snd].
  assert (Em : map (fun j => nearest (nth j los 0%nat) (nth j ns 0%nat) (nth j (digits (ac_nb axes) i) 0%nat)) (seq 0 (List.length (acAxes axes)))
             = nearests los ns (digits (ac_nb axes) i)).
  { assert (Hlen : List.length (nearests los ns (digits (ac_nb axes) i)) = List.length (acAxes axes)).
    { rewrite nearests_length; lia. }
    rewrite <- Hlen. apply (map_nth_all _ _ 0%nat). intros j Hj. rewrite nearests_nth by lia. reflexivity. }
  rewrite Em. rewrite E2. rewrite (flatten_rowmajor nac).
  2: exact Hnac. 2:{ intros C. apply Hne. pose proof len_eq as Q. rewrite C in Q. destruct (acAxes axes); [reflexivity|discriminate]. }
  2:{ rewrite nearests_length by lia. rewrite len_eq. exact Ll. }
  cbn [obind]. rewrite E1, E3. f_equal. f_equal.
  rewrite <- Ll, existsb_outsides by lia. unfold ubin.
  destruct (outsides los ns (digits (ac_nb axes) i)), ovr; cbn [andb orb negb]; try reflexivity.
  rewrite <- El at 1. apply upd_last.
Qed.

Lemma mapBin_loop k : forall i s, shBuf s = m -> shAxes s = nac -> shOver s = ovr -> List.length (shUse s) = i ->
  (i + k <= prod (ac_nb axes))%nat ->
  iterS (sh_mapBin axes (List.length (acAxes axes))) (seq i k) s =
  (mkShr m (shBin s ++ map gbin (seq i k)) (shUse s ++ map ubin (seq i k)) ovr nac, Ok tt).
Proof.
  induction k as [|k IH]; intros i s E1 E2 E3 El Hk; cbn [seq iterS map].
  - rewrite !app_nil_r. destruct s; cbn in *; subst; reflexivity.
  - rewrite mapBin_step by (auto; lia). rewrite IH; cbn [shBuf shBin shUse shOver shAxes]; auto; try lia.
    + rewrite <- !app_assoc. reflexivity.
    + rewrite app_length; cbn; lia.
Qed.

(** ShrinkDist *)
Lemma add_at_zero h b : (b < List.length (hCont h))%nat -> add_at h b 0 = (h, Ok tt).
Proof.
  intros H. unfold add_at, put. destruct (Nat.ltb_spec b (List.length (hCont h))); [|lia].
  assert (E : upd (hCont h) b (nth b (hCont h) 0 + 0) = hCont h).
  { apply (nth_ext _ _ 0 0); [apply upd_length|]. intros i Hi. rewrite nth_upd by lia.
    destruct (Nat.eqb_spec i b) as [->|]; [ring|reflexivity]. }
  rewrite E. destruct h; reflexivity.
Qed.

Lemma shrink_core (b : bed) s : h_ok (bdHist b) -> hAxes (bdHist b) = axes -> shAxes s = nac -> shBuf s <> [] ->
  shBin s = map gbin (seq 0 (hNBins (bdHist b))) -> shUse s = map ubin (seq 0 (hNBins (bdHist b))) ->
  Forall (fun n => (0 < n)%nat) ns ->
  exists b', sh_shrink s b = Ok b' /\ bdName b' = (bdName b ++ "_shrunk")%string /\ osNames (bdObs b') = osNames (bdObs b) /\
    hAxes (bdHist b') = nac /\ h_ok (bdHist b') /\
    (forall i, cont (bdHist b') i = qsum (map (fun k => if Nat.eqb i (gbin k) then (if ubin k then cont (bdHist b) k else 0) else 0) (seq 0 (hNBins (bdHist b))))) /\
    total (bdHist b') = qsum (map (fun k => if ubin k then cont (bdHist b) k else 0) (seq 0 (hNBins (bdHist b)))).
Proof.
  intros Hok Ea Es Hb Eb Eu Hpos. unfold sh_shrink. destruct (shBuf s) as [|x0 r0]; [congruence|clear Hb].
  assert (Hnn : acAxes nac <> []).
  { intros C. apply Hne. pose proof len_eq as Q. rewrite C in Q. cbn in Q. apply length_zero_iff_nil. symmetry. exact Q. }
  set (h := bdHist b) in *. set (m0 := mk_hist nac). assert (Hm0 : h_ok m0) by (apply mk_hist_ok; assumption).
  assert (Hnb : hNBins h = prod (ac_nb axes)) by (rewrite (h_ok_nbins h Hok); unfold shape_of; rewrite Ea; reflexivity).
  assert (Hg : forall k, (k < hNBins h)%nat -> (gbin k < hNBins m0)%nat).
  { intros k Hk. rewrite (h_ok_nbins m0 Hm0). unfold gbin. apply rowmajor_lt. apply nearests_shape.
    - unfold los, ns. rewrite !map_length. apply len_eq.
    - rewrite Hnb in Hk. destruct (digits_spec _ _ Hk) as [Hd _]. rewrite (in_shape_length _ _ Hd).
      unfold los, ac_nb. rewrite !map_length. reflexivity.
    - exact Hpos. }
  destruct (scatter_ok (fun h1 i =>
                do c <- getBinContent h i;
                if qeqb c 0 then Ok h1
                else
                  do k <- vat (shBin s) i;
                  do u <- vat (shUse s) i;
                  if u then ret (addBinContent h1 k c) else Ok h1) gbin (fun k => if ubin k then cont h k else 0)
             (seq 0 (hNBins h)) m0 Hm0) as [h' [E [Sh [N T]]]].
  { intros k h1 Hk H1 S1. apply in_seq in Hk. assert (Hk' : (k < hNBins h)%nat) by lia. split; [apply Hg; exact Hk'|].
    destruct S1 as [SA [SB [SC SD]]].
    assert (Hgl : (gbin k < List.length (hCont h1))%nat).
    { rewrite SD. pose proof Hm0 as [_ [_ [_ [_ Hl]]]]. rewrite Hl. apply Hg. exact Hk'. }
    assert (Eg : getBinContent h k = Ok (cont h k)).
    { unfold getBinContent. destruct (Nat.ltb_spec (hNBins h) k); [lia|]. apply vidx_nth.
      destruct Hok as [_ [_ [_ [_ ->]]]]. exact Hk'. }
    rewrite Eg. cbn [bind].
    destruct (qeqb (cont h k) 0) eqn:Ez.
    - apply qeqb_eq in Ez. rewrite Ez. replace (if ubin k then 0 else 0) with 0 by (destruct (ubin k); reflexivity).
      rewrite add_at_zero by exact Hgl. reflexivity.
    - rewrite Eb. rewrite (vat_nth _ _ 0%nat) by (rewrite map_length, seq_length; lia). cbn [bind].
      rewrite (nth_map2 gbin _ _ 0%nat) by (rewrite seq_length; lia). rewrite seq_nth by lia. cbn [Nat.add].
      rewrite Eu. rewrite (vat_nth _ _ false) by (rewrite map_length, seq_length; lia). cbn [bind].
      rewrite (nth_map2 ubin _ _ 0%nat) by (rewrite seq_length; lia). rewrite seq_nth by lia. cbn [Nat.add].
      destruct (ubin k).
      + f_equal. apply addBin_lt. rewrite SB. apply Hg. exact Hk'.
      + rewrite add_at_zero by exact Hgl. reflexivity. }
  rewrite Es. fold m0. rewrite E. cbn [bind]. eexists. split; [reflexivity|]. cbn [bdName bdObs bdHist].
  split; [reflexivity|]. split; [reflexivity|]. pose proof Sh as [SA _]. split; [rewrite SA; reflexivity|].
  split; [eapply same_shape_ok; eassumption|]. split.
  - intros i. rewrite N. unfold m0. rewrite mk_hist_cont. ring.
  - rewrite T. assert (total m0 = 0) as ->.
    { unfold total. apply qsum_map_0. intros; apply mk_hist_cont. }
    ring.
Qed.
End Bins.
