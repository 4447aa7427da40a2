From Coq Require Import ZArith.
From Verif Require Import Base.Res Base.Num Base.SMap Model.Axis Model.Hist Model.Param Model.Gauss Spec.GaussSpec Proofs.AxisP Proofs.HistP Proofs.BayesP2 Proofs.GaussP.
From Coq Require Import Lia.
Local Open Scope Qc_scope.
Local Open Scope res_scope.

Definition cv (U : Qc -> Qc) (g : gauss) (i : nat) (x : Qc) : Qc :=
  let nd := (x - mean_of g i) / std_of g i in if qltb (gCut g) nd then 1 else if qltb nd (- (1) * gCut g) then 0 else U nd.
Lemma cdf_ok U g i x : sized g -> (i < gND g)%nat -> std_of g i <> 0 -> gCdf U g i x = Ok (cv U g i x).
Proof.
  intros [S1 [S2 _]] Hi Hz. unfold gCdf, atZ, cv. destruct (Z.ltb_spec (Z.of_nat i) (Z.of_nat (List.length (gMeans g)))); [|lia].
  destruct (Z.ltb_spec (Z.of_nat i) (Z.of_nat (List.length (gStds g)))); [|lia]. rewrite Nat2Z.id. cbn [bind].
  fold (mean_of g i). fold (std_of g i). unfold qdiv. apply qeqb_neq in Hz. rewrite Hz. cbn [bind].
  destruct (qltb (gCut g) _); [reflexivity|]. destruct (qltb _ _); reflexivity.
Qed.
Lemma cv_range U g i x : cdf_like U -> 0 <= cv U g i x /\ cv U g i x <= 1.
Proof.
  intros [_ H]. unfold cv. destruct (qltb (gCut g) _); [split; discriminate|]. destruct (qltb _ _); [split; discriminate|apply H].
Qed.
Lemma cv_mono U g i x y : cdf_like U -> 0 < std_of g i -> x <= y -> cv U g i x <= cv U g i y.
Proof.
  intros HU Hs Hxy. pose proof (cv_range U g i x HU) as RX. pose proof (cv_range U g i y HU) as RY. unfold cv in *.
  assert (I := inv_pos _ Hs). assert (D : (x - mean_of g i) / std_of g i <= (y - mean_of g i) / std_of g i) by (unfold Qcdiv; qnra).
  set (a := (x - mean_of g i) / std_of g i) in *. set (b := (y - mean_of g i) / std_of g i) in *.
  destruct (qltb_spec (gCut g) a) as [A1|A1].
  - destruct (qltb_spec (gCut g) b) as [B1|B1]; [apply Qcle_refl|]. exfalso. qlra.
  - destruct (qltb_spec (gCut g) b) as [B1|B1]; [tauto|]. destruct (qltb_spec a (- (1) * gCut g)) as [A2|A2]; [tauto|].
    destruct (qltb_spec b (- (1) * gCut g)) as [B2|B2]; [exfalso; qlra|]. apply HU. exact D.
Qed.
Lemma cdf_pkg U g i : cdf_like U -> sized g -> (i < gND g)%nat -> 0 < std_of g i ->
  exists F, (forall x, gCdf U g i x = Ok (F x)) /\ (forall x, 0 <= F x /\ F x <= 1) /\ (forall x y, x <= y -> F x <= F y) /\
    (forall x, mean_of g i + gCut g * std_of g i < x -> F x = 1) /\
    (0 <= gCut g -> forall x, x < mean_of g i - gCut g * std_of g i -> F x = 0).
Proof.
  intros HU Hs Hi Hp. assert (Hz : std_of g i <> 0) by (intros Z; rewrite Z in Hp; discriminate Hp).
  exists (cv U g i). split; [intros x; apply cdf_ok; assumption|]. split; [intros x; apply cv_range, HU|]. split; [intros x y; apply cv_mono; assumption|].
  assert (K : std_of g i * / std_of g i = 1) by (apply Qcmult_inv_r; exact Hz). assert (I := inv_pos _ Hp).
  split.
  - intros x Hx. unfold cv. assert (L : gCut g < (x - mean_of g i) / std_of g i).
    { unfold Qcdiv. replace (gCut g) with (gCut g * std_of g i * / std_of g i) by (rewrite <- Qcmult_assoc, K; ring).
      apply Qcmult_lt_compat_r; [exact I|]. set (u := gCut g * std_of g i) in *. clearbody u. qlra. }
    apply qltb_lt in L. rewrite L. reflexivity.
  - intros Hc x Hx. unfold cv. assert (L : (x - mean_of g i) / std_of g i < - (1) * gCut g).
    { unfold Qcdiv. replace (- (1) * gCut g) with ((- (gCut g * std_of g i)) * / std_of g i).
      - apply Qcmult_lt_compat_r; [exact I|]. set (u := gCut g * std_of g i) in *. clearbody u. qlra.
      - replace (- (gCut g * std_of g i) * / std_of g i) with (- (1) * (gCut g * (std_of g i * / std_of g i))) by ring. rewrite K. ring. }
    destruct (qltb_spec (gCut g) ((x - mean_of g i) / std_of g i)) as [A|A].
    + exfalso. replace (- (1) * gCut g) with (- gCut g) in L by ring. set (w := (x - mean_of g i) / std_of g i) in *. clearbody w. set (ct := gCut g) in *. clearbody ct. clear - A L Hc. qlra.
    + apply qltb_lt in L. rewrite L. reflexivity.
Qed.

(** products *)
Fixpoint qprod (l : list Qc) : Qc := match l with [] => 1 | x :: t => x * qprod t end.
Lemma mul_pos a b : 0 <= a -> 0 <= b -> 0 <= a * b.
Proof. intros A B. apply (Qcmult_le_compat_r 0 a b) in A; [|exact B]. replace (0 * b) with 0 in A by ring. exact A. Qed.
Lemma mul_mono a b c d : 0 <= a -> a <= b -> 0 <= c -> c <= d -> a * c <= b * d.
Proof.
  intros A B C D. apply Qcle_trans with (b * c); [apply Qcmult_le_compat_r; assumption|]. rewrite !(Qcmult_comm b). apply Qcmult_le_compat_r; [exact D|].
  apply Qcle_trans with a; assumption.
Qed.
Lemma qprod_range l : (forall x, In x l -> 0 <= x /\ x <= 1) -> 0 <= qprod l /\ qprod l <= 1.
Proof.
  induction l as [|x l IH]; intros H; cbn [qprod]; [split; discriminate|]. destruct (H x (or_introl eq_refl)). destruct IH; [intros; apply H; now right|].
  split; [apply mul_pos; assumption|]. replace 1 with (1 * 1) by ring. apply mul_mono; assumption.
Qed.
Lemma qprod_mono {A} (f h : A -> Qc) l : (forall x, In x l -> 0 <= f x /\ f x <= h x) -> 0 <= qprod (map f l) /\ qprod (map f l) <= qprod (map h l).
Proof.
  induction l as [|x l IH]; intros H; cbn [map qprod]; [split; discriminate|]. destruct (H x (or_introl eq_refl)). destruct IH; [intros; apply H; now right|].
  split; [apply mul_pos; assumption|]. apply mul_mono; assumption.
Qed.
Lemma qprod_ext {A} (f h : A -> Qc) l : (forall x, In x l -> f x = h x) -> qprod (map f l) = qprod (map h l).
Proof. intros H. f_equal. apply map_ext_in, H. Qed.
Lemma qprod_app a b : qprod (a ++ b) = qprod a * qprod b.
Proof. induction a as [|x a IH]; cbn [app qprod]; [ring|]. rewrite IH. ring. Qed.
Lemma qprod_0 l : In 0 l -> qprod l = 0.
Proof. induction l as [|x l IH]; [intros []|]. intros [->|H]; cbn [qprod]; [ring|]. rewrite IH by exact H. ring. Qed.
(** one factor is a sum *)
Lemma qprod_split (f h k : nat -> Qc) n j : (j < n)%nat -> f j = h j + k j -> (forall i, i <> j -> f i = h i /\ f i = k i) ->
  qprod (map f (seq 0 n)) = qprod (map h (seq 0 n)) + qprod (map k (seq 0 n)).
Proof.
  intros Hj E H. replace n with (j + (1 + (n - j - 1)))%nat by lia. rewrite !seq_app, !map_app, !qprod_app. cbn [seq map qprod Nat.add].
  assert (G : forall p, (forall i, i <> j -> f i = p i) -> qprod (map p (seq 0 j)) = qprod (map f (seq 0 j)) /\ qprod (map p (seq (j + 1) (n - j - 1))) = qprod (map f (seq (j + 1) (n - j - 1)))).
  { intros p Hp. split; apply qprod_ext; intros i Hi; apply in_seq in Hi; symmetry; apply Hp; lia. }
  destruct (G h) as [-> ->]; [intros i Hi; apply H, Hi|]. destruct (G k) as [-> ->]; [intros i Hi; apply H, Hi|]. rewrite E. ring.
Qed.

Definition wid (U : Qc -> Qc) (g : gauss) (lo hi : list Qc) (i : nat) : Qc := cv U g i (nth i hi 0) - cv U g i (nth i lo 0).
Lemma integral_ok U g lo hi : sized g -> (forall i, (i < gND g)%nat -> std_of g i <> 0) -> List.length lo = gND g -> List.length hi = gND g ->
  gIntegral U g lo hi = Ok (qprod (map (wid U g lo hi) (seq 0 (gND g)))).
Proof.
  intros Hs Hz L1 L2. unfold gIntegral. rewrite L1, L2, Nat.eqb_refl. cbn [negb orb].
  assert (G : forall l a, (forall i, In i l -> (i < gND g)%nat) -> foldM (fun acc i => do h <- gCdf U g i (nth i hi 0); do b <- gCdf U g i (nth i lo 0); Ok (acc * (h - b))) l a
              = Ok (a * qprod (map (wid U g lo hi) l))).
  { induction l as [|i l IH]; intros a H; cbn [foldM map qprod]; [f_equal; ring|]. assert (Hi := H i (or_introl eq_refl)).
    rewrite !cdf_ok by (try assumption; apply Hz, Hi). cbn [bind]. rewrite IH by (intros; apply H; now right). f_equal. unfold wid. ring. }
  rewrite G; [f_equal; ring|]. intros i Hi. apply in_seq in Hi. lia.
Qed.
Lemma width_nz g : positive_widths g -> forall i, (i < gND g)%nat -> std_of g i <> 0.
Proof. intros H i Hi Z. specialize (H i Hi). rewrite Z in H. discriminate H. Qed.
Lemma integral_pkg U g lo hi : cdf_like U -> sized g -> positive_widths g -> a_box (gND g) lo hi ->
  exists p, gIntegral U g lo hi = Ok p /\ 0 <= p /\ p <= 1 /\ ((exists i, (i < gND g)%nat /\ nth i lo 0 = nth i hi 0) -> p = 0).
Proof.
  intros HU Hs Hp [L1 [L2 Hb]]. eexists. split; [apply integral_ok; try assumption; exact (width_nz _ Hp)|].
  assert (R : forall i, (i < gND g)%nat -> 0 <= wid U g lo hi i /\ wid U g lo hi i <= 1).
  { intros i Hi. unfold wid. destruct (cv_range U g i (nth i hi 0) HU) as [Z1 Z2]. destruct (cv_range U g i (nth i lo 0) HU) as [Z3 Z4].
    pose proof (cv_mono U g i _ _ HU (Hp i Hi) (Hb i Hi)). split; qlra. }
  assert (R2 := qprod_range (map (wid U g lo hi) (seq 0 (gND g)))). destruct R2 as [A B].
  { intros x Hx. apply in_map_iff in Hx. destruct Hx as [i [<- Hi]]. apply in_seq in Hi. apply R. lia. }
  split; [exact A|]. split; [exact B|]. intros [i [Hi E]]. apply qprod_0. apply in_map_iff. exists i. split; [|apply in_seq; lia]. unfold wid. rewrite E. ring.
Qed.
Lemma integral_mono_pkg U g lo hi lo' hi' : cdf_like U -> sized g -> positive_widths g -> a_box (gND g) lo hi -> a_box (gND g) lo' hi' -> box_within (gND g) lo hi lo' hi' ->
  exists p p', gIntegral U g lo hi = Ok p /\ gIntegral U g lo' hi' = Ok p' /\ p <= p'.
Proof.
  intros HU Hs Hp [L1 [L2 Hb]] [L1' [L2' Hb']] Hw. do 2 eexists. split; [apply integral_ok; try assumption; exact (width_nz _ Hp)|].
  split; [apply integral_ok; try assumption; exact (width_nz _ Hp)|]. apply qprod_mono. intros i Hi. apply in_seq in Hi.
  destruct (Hw i ltac:(lia)) as [W1 W2]. unfold wid. assert (P := Hp i ltac:(lia)).
  pose proof (cv_mono U g i _ _ HU P (Hb i ltac:(lia))). pose proof (cv_mono U g i _ _ HU P W1). pose proof (cv_mono U g i _ _ HU P W2). split; qlra.
Qed.
Lemma integral_split_pkg U g lo hi j c : sized g -> positive_widths g -> List.length lo = gND g -> List.length hi = gND g -> (j < gND g)%nat ->
  exists p p1 p2, gIntegral U g lo hi = Ok p /\ gIntegral U g lo (upd hi j c) = Ok p1 /\ gIntegral U g (upd lo j c) hi = Ok p2 /\ p = p1 + p2.
Proof.
  intros Hs Hp L1 L2 Hj. assert (W := width_nz _ Hp). do 3 eexists. split; [apply integral_ok; assumption|].
  split; [apply integral_ok; try assumption; rewrite upd_length; exact L2|]. split; [apply integral_ok; try assumption; rewrite upd_length; exact L1|].
  apply (qprod_split _ _ _ _ j Hj); unfold wid.
  - rewrite !nth_upd, !Nat.eqb_refl by lia. ring.
  - intros i Hi. rewrite !nth_upd by lia. destruct (Nat.eqb_spec i j); [congruence|]. split; reflexivity.
Qed.
Lemma dim_pkg U g lo hi : List.length lo <> gND g \/ List.length hi <> gND g -> gIntegral U g lo hi = Throw DimensionError.
Proof.
  intros H. unfold gIntegral. destruct (Nat.eqb_spec (List.length lo) (gND g)), (Nat.eqb_spec (List.length hi) (gND g)); try reflexivity. tauto.
Qed.
