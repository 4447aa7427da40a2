(** Interpolated constraints (C35). *)
From Coq Require Import ZArith.
From Verif Require Import Base.Res Base.Num Base.SMap Model.Axis Model.Hist Model.Constraint Spec.AxisSpec Spec.HistSpec Spec.ConstraintSpec
  Proofs.AxisP Proofs.HistP.
Local Open Scope Qc_scope.

(** size_t folds *)
Lemma w64_range z : (0 <= w64 z < 2 ^ 64)%Z.
Proof. apply Z.mod_pos_bound. reflexivity. Qed.
Lemma w64_id z : (0 <= z < 2 ^ 64)%Z -> w64 z = z.
Proof. apply Z.mod_small. Qed.
Lemma mulW l : forall x, (0 <= x < 2 ^ 64)%Z -> fold_left (fun x n => w64 (x * Z.of_nat n)) l x = w64 (x * Z.of_nat (prod l)).
Proof.
  induction l as [|n l IH]; intros x Hx; cbn [fold_left prod].
  - change (Z.of_nat 1) with 1%Z. rewrite Z.mul_1_r. symmetry. now apply w64_id.
  - rewrite IH by apply w64_range. unfold w64. rewrite Nat2Z.inj_mul. rewrite Z.mul_mod_idemp_l by discriminate. f_equal. ring.
Qed.
Lemma addW (g : nat -> nat) l : forall acc, (0 <= acc < 2 ^ 64)%Z ->
  fold_left (fun i j => w64 (i + w64 (Z.of_nat (g j)))) l acc = w64 (acc + Z.of_nat (list_sum (map g l))).
Proof.
  induction l as [|j l IH]; intros acc Hx; cbn [fold_left map list_sum fold_right].
  - rewrite Z.add_0_r. symmetry. now apply w64_id.
  - rewrite IH by apply w64_range. unfold w64. rewrite Nat2Z.inj_add. rewrite Z.add_mod_idemp_r by discriminate.
    rewrite Z.add_mod_idemp_l by discriminate. f_equal. unfold list_sum. ring.
Qed.
Lemma fold_left_ext_in {A B} (f g : A -> B -> A) l : (forall b a, In b l -> f a b = g a b) -> forall a, fold_left f l a = fold_left g l a.
Proof. induction l as [|x l IH]; intros H a; [reflexivity|]. cbn. rewrite H by now left. apply IH. intros; apply H; now right. Qed.
Lemma nth_le_sum (nb idx : list nat) : in_shape nb idx -> forall i, (nth i idx 0 <= prod nb)%nat.
Proof.
  intros H. induction H as [|i n idx nb Hi H IH]; intros d; [destruct d; cbn; lia|].
  assert (1 <= prod nb)%nat. { apply prod_pos_all. clear -H. induction H; constructor; [lia|assumption]. }
  destruct d; cbn; [nia|]. specialize (IH d). nia.
Qed.
Lemma last_nth_in (l : list nat) : last l 0%nat = nth (List.length l - 1) l 0%nat.
Proof.
  induction l as [|x [|y l] IH]; [reflexivity|reflexivity|]. change (last (x :: y :: l) 0%nat) with (last (y :: l) 0%nat). rewrite IH.
  cbn [List.length]. replace (S (S (List.length l)) - 1)%nat with (S (S (List.length l) - 1)) by lia. reflexivity.
Qed.
Lemma flattenW_rowmajor ac idx : ac_ok ac -> acAxes ac <> [] -> in_shape (ac_nb ac) idx -> (Z.of_nat (prod (ac_nb ac)) < 2 ^ 64)%Z ->
  flattenW ac (map Z.of_nat idx) = Ok (Z.of_nat (rowmajor (ac_nb ac) idx)).
Proof.
  intros [_ [H2 [H3 _]]] Hne Hs Hb. pose proof (in_shape_length _ _ Hs) as Hl.
  assert (Hnl : List.length (ac_nb ac) = List.length (acAxes ac)) by apply map_length.
  unfold flattenW. rewrite H2, H3, map_length, Hl, Hnl, Nat.eqb_refl. cbn [negb]. fold (ac_nb ac).
  destruct (Nat.eqb_spec (List.length (acAxes ac)) 1) as [E1|E1].
  - destruct idx as [|i [|]]; cbn in Hl; try lia. destruct (ac_nb ac) as [|n [|]]; cbn in Hnl; try lia. cbn. f_equal. lia.
  - destruct (Nat.eqb_spec (List.length (acAxes ac)) 0) as [E0|E0]; [destruct (acAxes ac); [congruence|discriminate]|].
    f_equal. rewrite firstn_all2 by lia.
    assert (HN : forall i, (0 <= Z.of_nat (nth i idx 0%nat) < 2 ^ 64)%Z). { intros i. pose proof (nth_le_sum _ _ Hs i). lia. }
    assert (HT : forall i, nth i (map Z.of_nat idx) 0%Z = Z.of_nat (nth i idx 0%nat)) by (intros i; change 0%Z with (Z.of_nat 0); apply map_nth).
    rewrite (fold_left_ext_in _ (fun x i => w64 (x + w64 (Z.of_nat (nth i idx 0 * prod (skipn (i + 1) (ac_nb ac)))%nat)))).
    2:{ intros i a _. rewrite HT. rewrite mulW by apply HN. rewrite <- Nat2Z.inj_mul. reflexivity. }
    assert (HL : last (map Z.of_nat idx) 0%Z = Z.of_nat (last idx 0%nat)).
    { clear -HT. induction idx as [|x [|y l] IH]; [reflexivity|reflexivity|]. change (last (map Z.of_nat (y :: l)) 0%Z = Z.of_nat (last (y :: l) 0%nat)). apply IH. intros i. exact (HT (S i)). }
    rewrite HL. rewrite addW by (rewrite last_nth_in; apply HN). rewrite <- Nat2Z.inj_add.
    rewrite <- Hnl. rewrite rowmajor_sum; [|lia|intros C; rewrite C in Hnl; cbn in Hnl; lia].
    apply w64_id. pose proof (rowmajor_lt _ _ Hs). lia.
Qed.

(** one axis *)
Lemma centre_ok a i : built a -> (i < aNBins a)%nat -> binCentre a i = Ok (centre_of a i).
Proof.
  intros Hb Hi. unfold binCentre, centre_of, lo_of, hi_of. destruct Hb as [name mn mx n latex E|name lo hi latex E].
  - apply mk_equal_ok in E as [_ [_ ->]]. cbn [aNBins aLow aHigh aCentre] in *. rewrite (vat_nth _ _ 0) by (rewrite map_length, seq_length; exact Hi).
    rewrite !nth_map_seq by exact Hi. f_equal. set (w := (mx - mn) / qn n). change qhalf with (/ qz 2). assert (qz 2 <> 0) by discriminate.
    assert (E2 : qz 2 = 1 + 1) by (apply Qc_is_canon; reflexivity).
    replace ((mn + qn i * w + (mn + (qn i + 1) * w)) / qz 2) with ((qz 2 * mn + qz 2 * (qn i * w) + w) / qz 2) by (rewrite E2; f_equal; ring). field. assumption.
  - apply mk_var_ok in E as [Hl [_ [_ ->]]]. cbn [aNBins aLow aHigh aCentre] in *. rewrite (vat_nth _ _ 0) by (rewrite map_length, combine_length; lia).
    rewrite (nth_map2 _ _ _ (0, 0)) by (rewrite combine_length; lia). rewrite combine_nth by congruence. cbn [fst snd]. f_equal.
    change qhalf with (/ qz 2). unfold Qcdiv. ring.
Qed.
Lemma lo_centre a i : built a -> (i < aNBins a)%nat -> lo_of a i <= centre_of a i /\ centre_of a i <= hi_of a i.
Proof.
  intros Hb Hi. destruct (built_facts a Hb) as [_ [_ [_ [_ [_ [_ [Hle _]]]]]]]. specialize (Hle i Hi). unfold centre_of.
  set (l := lo_of a i) in *. set (h := hi_of a i) in *. change (/ qz 2) with qhalf. unfold Qcdiv. change (/ qz 2) with qhalf. split; qnra.
Qed.
Lemma low_mono a : built a -> forall i, (i < aNBins a)%nat -> lo_of a 0 <= lo_of a i.
Proof.
  intros Hb. destruct (built_facts a Hb) as [_ [_ [_ [_ [_ [Hlo _]]]]]]. induction i as [|i IH]; intros Hi; [qlra|].
  assert (lo_of a i <= lo_of a (S i)) by now apply Hlo. assert (lo_of a 0 <= lo_of a i) by (apply IH; lia). qlra.
Qed.
Lemma high_mono a : built a -> contiguous a -> forall i, (i < aNBins a)%nat -> hi_of a i <= hi_of a (aNBins a - 1).
Proof.
  intros Hb Hc i Hi. pose proof (contiguous_sorted a Hb Hc) as Hs. destruct (built_facts a Hb) as [_ [_ [Hh _]]]. apply Hs. lia.
Qed.
Lemma findBin_in a i x : built a -> contiguous a -> in_bin a i x -> findBin a x = i.
Proof.
  intros Hb Hc H. pose proof H as [Hi [H1 H2]]. destruct (built_facts a Hb) as [_ [_ [_ [_ [_ [_ [_ [Hmin Hmax]]]]]]]].
  pose proof (low_mono a Hb i Hi). pose proof (high_mono a Hb Hc i Hi).
  apply (in_bin_unique a _ _ x Hb Hc); [|exact H]. apply (findBin_regions a x Hb Hc); [rewrite Hmin|rewrite Hmax]; qlra.
Qed.
Lemma bracket_index a k x : built a -> contiguous a -> brackets a k x ->
  (Z.of_nat (findBin a x) + Z.b2z (qleb (centre_of a (findBin a x)) x) - 1 = Z.of_nat k)%Z.
Proof.
  intros Hb Hc [Hk [H1 H2]]. destruct (lo_centre a k Hb ltac:(lia)) as [A1 A2]. destruct (lo_centre a (S k) Hb Hk) as [B1 B2].
  destruct (qltb_spec x (hi_of a k)) as [C|C].
  - rewrite (findBin_in a k x Hb Hc) by (repeat split; [lia|qlra|exact C]). destruct (qleb_spec (centre_of a k) x) as [D|D]; [unfold Z.b2z; lia|].
    exfalso. exact (Qcle_not_lt _ _ H1 D).
  - rewrite (findBin_in a (S k) x Hb Hc). 2:{ split; [exact Hk|]. rewrite <- (Hc k Hk). split; [exact C|qlra]. }
    destruct (qleb_spec (centre_of a (S k)) x) as [D|D]; [exfalso; exact (Qcle_not_lt _ _ D H2)|unfold Z.b2z; lia].
Qed.

(** the corner with lattice number latt *)
Definition bit (latt d : nat) : nat := if Nat.testbit latt d then 1 else 0.
Definition cor (ks : list nat) (latt : nat) : list nat := map (fun d => (nth d ks 0 + bit latt d)%nat) (seq 0 (List.length ks)).
Lemma cor_cons k ks latt : cor (k :: ks) latt = (k + bit latt 0)%nat :: cor ks (Nat.div2 latt).
Proof. unfold cor. cbn [List.length seq map nth]. f_equal. rewrite <- seq_shift, map_map. reflexivity. Qed.
Lemma cor_length ks latt : List.length (cor ks latt) = List.length ks.
Proof. unfold cor. now rewrite map_length, seq_length. Qed.
Lemma cor_shape axs : forall ks xs latt, Forall2 (fun p x => brackets (fst p) (snd p) x) (combine axs ks) xs -> List.length ks = List.length axs ->
  in_shape (map aNBins axs) (cor ks latt).
Proof.
  induction axs as [|a axs IH]; intros [|k ks] xs latt H Hl; try discriminate; [constructor|]. cbn in H. inversion_clear H as [|? ? ? ? HB HF].
  rewrite cor_cons. constructor; [|eapply IH; [exact HF|cbn in Hl; lia]]. destruct HB as [HB _]. cbn in HB. unfold bit. destruct (Nat.testbit latt 0); cbn; lia.
Qed.

(** sum over the corners *)
Definition qprod (l : list Qc) : Qc := fold_right Qcmult 1 l.
Definition wt (ts : list Qc) (latt d : nat) : Qc := if Nat.testbit latt d then nth d ts 0 else 1 - nth d ts 0.
Lemma wt_cons t ts latt n : qprod (map (wt (t :: ts) latt) (seq 0 (S n))) = (if Nat.testbit latt 0 then t else 1 - t) * qprod (map (wt ts (Nat.div2 latt)) (seq 0 n)).
Proof. cbn [seq map qprod fold_right]. f_equal. rewrite <- seq_shift, map_map. reflexivity. Qed.
Lemma seq_double n : seq 0 (2 * n) = flat_map (fun m => [2 * m; 2 * m + 1]%nat) (seq 0 n).
Proof.
  induction n as [|n IH]; [reflexivity|]. replace (2 * S n)%nat with (2 * n + 2)%nat by lia. rewrite seq_app, IH.
  replace (S n) with (n + 1)%nat by lia. rewrite seq_app, flat_map_app. cbn. f_equal. repeat f_equal; lia.
Qed.
Lemma qsum_flat_map {A} (f : A -> list Qc) l : qsum (flat_map f l) = qsum (map (fun a => qsum (f a)) l).
Proof. induction l as [|a l IH]; [reflexivity|]. cbn [flat_map map]. assert (Q : forall u v, qsum (u ++ v) = qsum u + qsum v) by (induction u; intros; cbn; [ring|rewrite IHu; ring]). rewrite Q, IH. reflexivity. Qed.
Lemma map_flat_map {A B C} (f : B -> C) (g : A -> list B) l : map f (flat_map g l) = flat_map (fun a => map f (g a)) l.
Proof. induction l; [reflexivity|]. cbn. now rewrite map_app, IHl. Qed.
Lemma qsum_lin {A} (a b : Qc) (f g : A -> Qc) l : qsum (map (fun x => a * f x + b * g x) l) = a * qsum (map f l) + b * qsum (map g l).
Proof. induction l; cbn; [ring|]. rewrite IHl. ring. Qed.
Definition tof (a : axis) (k : nat) (x : Qc) : Qc := (x - centre_of a k) / (centre_of a (S k) - centre_of a k).
Fixpoint tlist (axs : list axis) (ks : list nat) (xs : list Qc) : list Qc :=
  match axs, ks, xs with a :: axs', k :: ks', x :: xs' => tof a k x :: tlist axs' ks' xs' | _, _, _ => [] end.
Lemma multilinear_sum axs : forall ks xs f, List.length ks = List.length axs -> List.length xs = List.length axs ->
  qsum (map (fun latt => f (cor ks latt) * qprod (map (wt (tlist axs ks xs) latt) (seq 0 (List.length axs)))) (seq 0 (2 ^ List.length axs)))
  = multilinear axs ks xs f.
Proof.
  induction axs as [|a axs IH]; intros [|k ks] [|x xs] f H1 H2; try discriminate.
  - cbn. ring.
  - cbn [List.length] in *. injection H1 as H1. injection H2 as H2. cbn [multilinear]. fold (tof a k x). cbv zeta. cbn [tlist].
    rewrite <- (IH ks xs (fun c => f (k :: c)) H1 H2), <- (IH ks xs (fun c => f (S k :: c)) H1 H2). rewrite <- qsum_lin.
    rewrite Nat.pow_succ_r', seq_double, map_flat_map, qsum_flat_map. f_equal. apply map_ext. intros m.
    cbn [map qsum fold_right]. rewrite !cor_cons, !wt_cons. unfold bit.
    replace (Nat.testbit (2 * m) 0) with false by (symmetry; rewrite Nat.testbit_even_0; reflexivity).
    replace (Nat.testbit (2 * m + 1) 0) with true by (symmetry; rewrite Nat.testbit_odd_0; reflexivity).
    replace (Nat.div2 (2 * m)) with m by (symmetry; apply Nat.div2_double).
    replace (Nat.div2 (2 * m + 1)) with m by (replace (2 * m + 1)%nat with (S (2 * m)) by lia; symmetry; apply Nat.div2_succ_double).
    rewrite Nat.add_0_r, Nat.add_1_r. unfold qsum; cbn. ring.
Qed.

Lemma foldM_ok {A S} (f : S -> A -> res S) (g : S -> A -> S) l : (forall s x, In x l -> f s x = Ok (g s x)) -> forall s, foldM f l s = Ok (fold_left g l s).
Proof.
  induction l as [|x l IH]; intros H s; [reflexivity|]. cbn. rewrite H by now left. cbn. apply IH. intros; apply H; now right.
Qed.
Lemma fold_left_qadd {A} (g : A -> Qc) l : forall a, fold_left (fun acc x => acc + g x) l a = a + qsum (map g l).
Proof. induction l as [|x l IH]; intros a; cbn; [ring|]. rewrite IH. ring. Qed.
Lemma fold_left_qmul {A} (g : A -> Qc) l : forall a, fold_left (fun acc x => acc * g x) l a = a * qprod (map g l).
Proof. induction l as [|x l IH]; intros a; cbn [fold_left map qprod fold_right]; [ring|]. rewrite IH. fold (qprod (map g l)). ring. Qed.

(** centres of the bin with the given indices *)
Definition centres (axs : list axis) (idx : list nat) : list Qc :=
  map (fun d => centre_of (nth d axs axis0) (nth d idx 0%nat)) (seq 0 (List.length axs)).
Lemma binCentres_at ac idx : ac_ok ac -> acAxes ac <> [] -> in_shape (ac_nb ac) idx -> binCentres ac (rowmajor (ac_nb ac) idx) = Ok (centres (acAxes ac) idx).
Proof.
  intros K Hne Hs. assert (Hk : (rowmajor (ac_nb ac) idx < acNBins ac)%nat) by (rewrite ac_nb_prod by assumption; now apply rowmajor_lt).
  destruct (binVec_ok binCentre centre_of ac _ K Hk centre_ok) as [idx' [Hu Hv]]. rewrite unpack_rowmajor in Hu by assumption. injection Hu as <-.
  exact Hv.
Qed.
Lemma Forall2_nth {A B} (P : A -> B -> Prop) l m da db : Forall2 P l m -> forall d, (d < List.length l)%nat -> P (nth d l da) (nth d m db).
Proof. induction 1; intros [|d] Hd; cbn in *; try lia; auto. apply IHForall2. lia. Qed.

Lemma lookup_all (d : smap Qc) l m : Forall2 (fun name x => sfind name d = Some x) l m ->
  mapM (fun n => match sfind n d with Some v => Ok v | None => Throw NotFoundError end) l = Ok m.
Proof. intros HN. unfold mapM. induction HN as [|nm x l m Hx HN' IH]; [reflexivity|]. cbn [map seqM]. rewrite Hx. cbn [bind]. rewrite IH. reflexivity. Qed.
Section Main.
Variables (h : hist) (ks : list nat) (xs : list Qc).
Hypothesis HR : h_reach h.
Let axs := acAxes (hAxes h).
Let n := List.length axs.
Hypothesis Hks : List.length ks = n.
Hypothesis Hxs : List.length xs = n.
Hypothesis HB : Forall2 (fun p x => brackets (fst p) (snd p) x) (combine axs ks) xs.
Hypothesis HC : Forall contiguous axs.
Hypothesis H20 : (n <= 20)%nat.
Hypothesis H64 : (Z.of_nat (hNBins h) < 2 ^ 64)%Z.

Let K : h_ok h := h_reach_ok h HR.
Lemma Kac : ac_ok (hAxes h). Proof. apply K. Qed.
Lemma Kne : acAxes (hAxes h) <> []. Proof. apply K. Qed.
Lemma Kdims : hNDims h = n. Proof. apply (h_ok_ndims h K). Qed.
Lemma Kbins : hNBins h = prod (ac_nb (hAxes h)). Proof. apply (h_ok_nbins h K). Qed.

Lemma br_nth d : (d < n)%nat -> brackets (nth d axs axis0) (nth d ks 0%nat) (nth d xs 0).
Proof.
  intros Hd. pose proof (Forall2_nth _ _ _ (axis0, 0%nat) 0 HB d) as H. rewrite combine_length, combine_nth in H by (symmetry; exact Hks). apply H. unfold n in *. lia.
Qed.
Lemma built_nth d : (d < n)%nat -> built (nth d axs axis0).
Proof. intros Hd. destruct Kac as [_ [_ [_ [_ [_ H]]]]]. rewrite Forall_forall in H. apply H. now apply nth_In. Qed.
Lemma cont_nth d : (d < n)%nat -> contiguous (nth d axs axis0).
Proof. intros Hd. rewrite Forall_forall in HC. apply HC. now apply nth_In. Qed.

Let fb := axes_bins axs xs.
Lemma fb_shape : in_shape (ac_nb (hAxes h)) fb.
Proof. apply axes_bins_shape; [apply Kac|exact Hxs]. Qed.
Lemma fb_nth d : (d < n)%nat -> nth d fb 0%nat = findBin (nth d axs axis0) (nth d xs 0).
Proof. intros Hd. now apply axes_bins_nth. Qed.
Definition larger := map (fun d => qleb (centre_of (nth d axs axis0) (nth d fb 0%nat)) (nth d xs 0)) (seq 0 n).
Lemma larger_nth d : (d < n)%nat -> nth d larger false = qleb (centre_of (nth d axs axis0) (nth d fb 0%nat)) (nth d xs 0).
Proof. intros Hd. unfold larger. rewrite (nth_map2 _ _ _ 0%nat) by (rewrite seq_length; exact Hd). now rewrite seq_nth. Qed.

Lemma cor_in latt : in_shape (ac_nb (hAxes h)) (cor ks latt).
Proof. eapply cor_shape; eauto. Qed.
Lemma latticePoint_ok latt : latticePoint h fb larger latt = Ok (centres axs (cor ks latt), cont_at h (cor ks latt)).
Proof.
  unfold latticePoint. rewrite Kdims.
  rewrite (seqM_ok _ (fun d => Z.of_nat (nth d ks 0 + bit latt d)%nat)).
  2:{ intros d Hd. apply in_seq in Hd. rewrite (vat_nth fb d 0%nat), (vat_nth larger d false).
      - cbn [bind]. rewrite larger_nth by lia. f_equal. pose proof (bracket_index _ _ _ (built_nth d ltac:(lia)) (cont_nth d ltac:(lia)) (br_nth d ltac:(lia))) as BI.
        rewrite <- fb_nth in BI by lia.
        assert (Z.b2z (Nat.testbit latt d) = Z.of_nat (bit latt d)) by (unfold bit; destruct (Nat.testbit latt d); reflexivity).
        replace (_ - 1)%Z with (Z.of_nat (nth d ks 0%nat + bit latt d)) by lia.
        apply w64_id. pose proof (nth_le_sum _ _ (cor_in latt) d) as L. unfold cor in L. rewrite (nth_map2 _ _ _ 0%nat) in L by (rewrite seq_length; lia).
        rewrite seq_nth in L by lia. cbn [Nat.add] in L. rewrite Kbins in H64. lia.
      - unfold larger. rewrite map_length, seq_length. lia.
      - unfold fb, axes_bins. rewrite map_length, combine_length. fold n. lia. }
  cbn [bind].
  replace (map (fun d => Z.of_nat (nth d ks 0 + bit latt d)%nat) (seq 0 n)) with (map Z.of_nat (cor ks latt)) by (unfold cor; now rewrite map_map, Hks).
  rewrite flattenW_rowmajor; [|apply Kac|apply Kne|apply cor_in|rewrite <- Kbins; exact H64]. cbn [bind].
  pose proof (rowmajor_lt _ _ (cor_in latt)) as RL. rewrite <- Kbins in RL.
  destruct (Z.ltb_spec (Z.of_nat (hNBins h)) (Z.of_nat (rowmajor (ac_nb (hAxes h)) (cor ks latt)))); [lia|].
  rewrite Nat2Z.id. unfold getBinContent. destruct (Nat.ltb_spec (hNBins h) (rowmajor (ac_nb (hAxes h)) (cor ks latt))); [lia|].
  assert (CL : List.length (hCont h) = hNBins h) by apply K.
  first [rewrite (vidx_nth _ _ 0) by (rewrite CL; exact RL) | rewrite (vat_nth _ _ 0) by (rewrite CL; exact RL)]. cbn [bind].
  rewrite binCentres_at by (try apply Kac; try apply Kne; apply cor_in). reflexivity.
Qed.
Lemma lattice_ok : latticeValues h xs = Ok (map (fun latt => (centres axs (cor ks latt), cont_at h (cor ks latt))) (seq 0 (2 ^ n))).
Proof.
  unfold latticeValues, h_findBin. rewrite ac_findBin_eq; [|apply Kac|apply Kne|exact Hxs]. cbn [bind]. fold axs fb.
  rewrite unpack_rowmajor by (try apply Kac; apply fb_shape). cbn [bind].
  rewrite binCentres_at by (try apply Kac; try apply Kne; apply fb_shape). cbn [bind]. fold axs. rewrite Kdims.
  rewrite (seqM_ok _ (fun d => qleb (centre_of (nth d axs axis0) (nth d fb 0%nat)) (nth d xs 0))).
  2:{ intros d Hd. apply in_seq in Hd. rewrite (vat_nth xs d 0) by lia. rewrite (vat_nth _ d 0) by (unfold centres; rewrite map_length, seq_length; fold n; lia).
      cbn [bind]. unfold centres. fold n. rewrite (nth_map2 _ _ _ 0%nat) by (rewrite seq_length; lia). rewrite seq_nth by lia. reflexivity. }
  cbn [bind]. fold larger. destruct (Nat.ltb_spec 20 n); [lia|]. apply seqM_ok. intros latt _. apply latticePoint_ok.
Qed.
Lemma centres_nth idx d : (d < n)%nat -> nth d (centres axs idx) 0 = centre_of (nth d axs axis0) (nth d idx 0%nat).
Proof. intros Hd. unfold centres. fold n. rewrite (nth_map2 _ _ _ 0%nat) by (rewrite seq_length; lia). now rewrite seq_nth. Qed.
Lemma cor_nth latt d : (d < n)%nat -> nth d (cor ks latt) 0%nat = (nth d ks 0 + bit latt d)%nat.
Proof. intros Hd. unfold cor. rewrite (nth_map2 _ _ _ 0%nat) by (rewrite seq_length; lia). now rewrite seq_nth by lia. Qed.
Lemma tlist_length : forall a k x, List.length k = List.length a -> List.length x = List.length a -> List.length (tlist a k x) = List.length a.
Proof. induction a as [|a0 a IH]; intros [|] [|] H1 H2; cbn in *; try discriminate; [reflexivity|]. f_equal. apply IH; lia. Qed.
Lemma tlist_nth : forall a k x d, List.length k = List.length a -> List.length x = List.length a -> (d < List.length a)%nat ->
  nth d (tlist a k x) 0 = tof (nth d a axis0) (nth d k 0%nat) (nth d x 0).
Proof.
  induction a as [|a0 a IH]; intros [|k0 k] [|x0 x] d H1 H2 Hd; cbn in *; try discriminate; [lia|]. destruct d; [reflexivity|]. apply IH; lia.
Qed.
Lemma interp_value vals locs : vals = map (fun latt => cont_at h (cor ks latt)) (seq 0 (2 ^ n)) -> locs = map (fun latt => centres axs (cor ks latt)) (seq 0 (2 ^ n)) ->
  nd_interp vals locs xs = Ok (multilinear axs ks xs (cont_at h)).
Proof.
  intros -> ->. unfold nd_interp.
  assert (EC : interp_coords (map (fun latt => centres axs (cor ks latt)) (seq 0 (2 ^ n))) xs = Ok (tlist axs ks xs)).
  { unfold interp_coords. rewrite Hxs.
    assert (LN : forall latt, (latt < 2 ^ n)%nat -> vat (map (fun latt => centres axs (cor ks latt)) (seq 0 (2 ^ n))) latt = Ok (centres axs (cor ks latt))).
    { intros latt Hl. rewrite (vat_nth _ _ []) by (rewrite map_length, seq_length; exact Hl). rewrite (nth_map2 _ _ _ 0%nat) by (rewrite seq_length; exact Hl). now rewrite seq_nth. }
    rewrite (seqM_ok _ (fun d => tof (nth d axs axis0) (nth d ks 0%nat) (nth d xs 0))).
    - f_equal. apply (nth_ext _ _ 0 0); [rewrite map_length, seq_length, tlist_length by assumption; reflexivity|].
      intros d Hd. rewrite map_length, seq_length in Hd. rewrite tlist_nth by assumption. rewrite (nth_map2 _ _ _ 0%nat) by (rewrite seq_length; exact Hd). now rewrite seq_nth.
    - intros d Hd. apply in_seq in Hd. rewrite (vat_nth xs d 0) by lia. cbn [bind]. rewrite LN by (apply Nat.neq_0_lt_0, Nat.pow_nonzero; lia). cbn [bind].
      rewrite (vat_nth _ d 0) by (unfold centres; rewrite map_length, seq_length; fold n; lia). cbn [bind]. rewrite LN by (apply Nat.pow_lt_mono_r; lia). cbn [bind].
      rewrite (vat_nth _ d 0) by (unfold centres; rewrite map_length, seq_length; fold n; lia). cbn [bind].
      rewrite !centres_nth, !cor_nth by lia. unfold bit. rewrite Nat.bits_0. rewrite Nat.pow2_bits_true. rewrite Nat.add_0_r, Nat.add_1_r.
      unfold qdiv, tof. destruct (br_nth d ltac:(lia)) as [_ [B1 B2]].
      destruct (qeqb _ 0) eqn:E; [|reflexivity]. apply qeqb_eq in E. exfalso.
      set (c0 := centre_of _ (nth d ks 0%nat)) in *. set (c1 := centre_of _ (S (nth d ks 0%nat))) in *. clearbody c0 c1. qlra. }
  rewrite EC. cbn [bind]. rewrite Hxs.
  rewrite (foldM_ok _ (fun acc latt => acc + cont_at h (cor ks latt) * qprod (map (wt (tlist axs ks xs) latt) (seq 0 n)))).
  - rewrite fold_left_qadd, multilinear_sum by assumption. f_equal. ring.
  - intros acc latt Hl. apply in_seq in Hl. rewrite (vat_nth _ latt 0) by (rewrite map_length, seq_length; lia). cbn [bind].
    rewrite (nth_map2 _ _ _ 0%nat) by (rewrite seq_length; lia). rewrite seq_nth by lia. cbn [Nat.add].
    rewrite (foldM_ok _ (fun v d => v * wt (tlist axs ks xs) latt d)).
    + cbn [bind]. rewrite fold_left_qmul. reflexivity.
    + intros v d Hd. apply in_seq in Hd. rewrite (vat_nth _ d 0) by (rewrite tlist_length by assumption; fold n; lia). reflexivity.
Qed.
Lemma interp_main d : Forall2 (fun name x => sfind name d = Some x) (names_of h) xs -> interp_eval h d = Ok (multilinear axs ks xs (cont_at h)).
Proof.
  intros HN. unfold interp_eval, interp_params.
  assert (E : mapM (fun n => match sfind n d with Some v => Ok v | None => Throw NotFoundError end) (acNames (hAxes h)) = Ok xs).
  { destruct Kac as [-> _]. fold axs. change (map aName axs) with (names_of h). now apply lookup_all. }
  rewrite E. cbn [bind]. rewrite lattice_ok. cbn [bind]. apply interp_value; rewrite map_map; reflexivity.
Qed.
End Main.

(** bounds and exactness of the multilinear formula *)
Lemma tof_range a k x : brackets a k x -> 0 <= tof a k x /\ tof a k x <= 1.
Proof.
  intros [_ [H1 H2]]. unfold tof. set (c0 := centre_of a k) in *. set (c1 := centre_of a (S k)) in *. clearbody c0 c1.
  assert (P : 0 < c1 - c0) by qlra. assert (E : (x - c0) / (c1 - c0) * (c1 - c0) = x - c0) by (field; intros C; rewrite C in P; discriminate).
  set (t := (x - c0) / (c1 - c0)) in *. clearbody t. split.
  - destruct (Qclt_le_dec t 0) as [N|N]; [exfalso; qnra|exact N].
  - destruct (Qclt_le_dec 1 t) as [N|N]; [exfalso; qnra|exact N].
Qed.
Lemma multilinear_bounds axs : forall ks xs f lo hi, List.length ks = List.length axs ->
  Forall2 (fun p x => brackets (fst p) (snd p) x) (combine axs ks) xs ->
  (forall c, In c (corners ks) -> lo <= f c /\ f c <= hi) -> lo <= multilinear axs ks xs f /\ multilinear axs ks xs f <= hi.
Proof.
  induction axs as [|a axs IH]; intros [|k ks] xs f lo hi Hl H HC; try discriminate.
  - cbn in *. apply HC. now left.
  - cbn in H. inversion H as [|? x ? xs' HB HF]; subst. cbn [multilinear]. fold (tof a k x). cbv zeta.
    cbn in Hl. injection Hl as Hl. destruct (tof_range a k x HB) as [T0 T1].
    assert (CC : forall c, In c (corners ks) -> In (k :: c) (corners (k :: ks)) /\ In (S k :: c) (corners (k :: ks))).
    { intros c Hc. cbn [corners]. rewrite !in_flat_map. split; exists c; split; try exact Hc; cbn; auto. }
    destruct (IH ks xs' (fun c => f (k :: c)) lo hi Hl HF) as [A1 A2]; [intros c Hc; apply HC; now apply CC|].
    destruct (IH ks xs' (fun c => f (S k :: c)) lo hi Hl HF) as [B1 B2]; [intros c Hc; apply HC; now apply CC|].
    set (u := multilinear axs ks xs' (fun c => f (k :: c))) in *. set (v := multilinear axs ks xs' (fun c => f (S k :: c))) in *. set (t := tof a k x) in *.
    clearbody u v t. split; qnra.
Qed.
Lemma multilinear_at axs : forall ks xs f, List.length ks = List.length axs ->
  Forall2 (fun p x => x = centre_of (fst p) (snd p)) (combine axs ks) xs -> multilinear axs ks xs f = f ks.
Proof.
  induction axs as [|a axs IH]; intros [|k ks] xs f Hl H; try discriminate; [inversion H; reflexivity|].
  cbn in H. inversion H as [|? x ? xs' HB HF]; subst. cbn in Hl. injection Hl as Hl. cbn [multilinear].
  rewrite (IH ks xs' (fun c => f (k :: c)) Hl HF). cbn [fst snd]. unfold Qcdiv. ring.
Qed.

Lemma interp_pkg h ks xs d : h_reach h -> let axs := acAxes (hAxes h) in
  List.length ks = List.length axs -> Forall2 (fun p x => brackets (fst p) (snd p) x) (combine axs ks) xs ->
  Forall contiguous axs -> (List.length axs <= 20)%nat -> (Z.of_nat (hNBins h) < 2 ^ 64)%Z ->
  Forall2 (fun name x => sfind name d = Some x) (names_of h) xs ->
  exists v, interp_eval h d = Ok v /\ v = multilinear axs ks xs (cont_at h) /\
    (forall lo hi, (forall c, In c (corners ks) -> lo <= cont_at h c /\ cont_at h c <= hi) -> lo <= v /\ v <= hi) /\
    (Forall2 (fun p x => x = centre_of (fst p) (snd p)) (combine axs ks) xs -> v = cont_at h ks).
Proof.
  intros HR axs Hks HB HC H20 H64 HN. exists (multilinear axs ks xs (cont_at h)). split.
  - apply interp_main; auto. assert (L : List.length (combine axs ks) = List.length xs) by (clear -HB; induction HB; cbn; congruence). rewrite combine_length in L. fold axs. lia.
  - split; [reflexivity|]. split; [intros lo hi; now apply multilinear_bounds|]. intros E. now apply multilinear_at.
Qed.
Lemma interp_missing_pkg h d n : h_reach h -> In n (names_of h) -> sfind n d = None -> interp_eval h d = Throw NotFoundError.
Proof.
  intros HR Hn Hd. unfold interp_eval, interp_params. pose proof (h_reach_ok h HR) as [[-> _] _]. change (map aName (acAxes (hAxes h))) with (names_of h).
  assert (E : mapM (fun n => match sfind n d with Some v => Ok v | None => Throw NotFoundError end) (names_of h) = Throw NotFoundError).
  { unfold mapM. induction (names_of h) as [|m l IH]; [contradiction|]. cbn [map seqM]. destruct Hn as [->|Hn]; [rewrite Hd; reflexivity|].
    destruct (sfind m d); [|reflexivity]. cbn [bind]. rewrite (IH Hn). reflexivity. }
  now rewrite E.
Qed.
