(** C102: sums and Normalise with rounding; edges with rounding. *)
From Coq Require Import ZArith QArith Qcanon Reals Lia.
From Flocq Require Import Core Relative.
From Verif Require Import Base.Res Base.Num Base.RNum Model.Axis Model.Hist Model.Float Spec.AxisSpec Spec.HistSpec Spec.FloatSpec Proofs.AxisP Proofs.HistP Proofs.HistP4 Proofs.FloatP1 Proofs.FloatP2 Proofs.FloatP3.
From Coq Require Import Lra.
Local Open Scope Qc_scope.

Lemma qr_qpow x n : qr (qpow x n) = (qr x ^ n)%R.
Proof. induction n as [|n IH]; cbn [qpow pow]; [apply qr_1|]. now rewrite qr_mult, IH. Qed.
Lemma within_pos u r x : within u r -> 0 <= x -> ((1 - qr u) * qr x <= qr (r x) <= (1 + qr u) * qr x)%R.
Proof.
  intros W H. specialize (W x). apply qr_le in W, H. rewrite qr_mult, !qr_abs, qr_minus in W. rewrite qr_0 in H. rewrite (Rabs_pos_eq (qr x)) in W by exact H.
  apply Rabs_le_inv in W. lra.
Qed.
Lemma within_0 u r : within u r -> r 0 = 0.
Proof. intros W. apply qr_inj. pose proof (within_pos u r 0 W (Qcle_refl _)) as H. rewrite qr_0 in *. lra. Qed.
Lemma within_nonneg u r x : within u r -> u <= 1 -> 0 <= x -> 0 <= r x.
Proof. intros W U H. pose proof (within_pos u r x W H) as [A _]. apply qr_le. apply qr_le in U, H. rewrite qr_0 in *. rewrite qr_1 in U. eapply Rle_trans; [|exact A]. apply Rmult_le_pos; lra. Qed.
Section Sum.
Variables (u : Qc) (r : Qc -> Qc).
Hypotheses (W : within u r) (U0 : 0 <= u) (U1 : u <= 1).
Let U0' : (0 <= qr u)%R. Proof. apply qr_le in U0. now rewrite qr_0 in U0. Qed.
Let U1' : (qr u <= 1)%R. Proof. apply qr_le in U1. now rewrite qr_1 in U1. Qed.
Lemma sum_bounds (c : list Qc) n : (forall i, 0 <= nth i c 0) -> forall s k, (k + n <= List.length c)%nat -> 0 <= s ->
  exists t, foldM (fun s i => (do x <- vidx c i; Ok (r (s + x)))%res) (seq k n) s = Ok t /\ 0 <= t /\
    ((1 - qr u) ^ n * qr (s + qsum (map (fun i => nth i c 0%Qc) (seq k n))) <= qr t <= (1 + qr u) ^ n * qr (s + qsum (map (fun i => nth i c 0%Qc) (seq k n))))%R.
Proof.
  intros P. induction n as [|n IH]; intros s k Hk Hs; cbn [seq foldM].
  - exists s. split; [reflexivity|]. split; [exact Hs|]. cbn [map qsum pow]. replace (s + Q2Qc 0) with s by ring. lra.
  - unfold vidx at 1. rewrite (nth_error_nth' c 0) by lia. cbn [bind]. assert (Hx : 0 <= s + nth k c 0).
    { replace 0 with (0 + 0) by ring. apply Qcplus_le_compat; [exact Hs|apply P]. }
    pose proof (within_pos u r _ W Hx) as [A B]. destruct (IH (r (s + nth k c 0)) (S k)) as [t [E [T [L H]]]]; [lia|now apply (within_nonneg u)|].
    exists t. split; [exact E|]. split; [exact T|]. cbn [map qsum pow]. set (R0 := qsum (map (fun i => nth i c 0) (seq (S k) n))) in *.
    assert (HR : (0 <= qr R0)%R). { rewrite <- qr_0. apply qr_le. apply qsum_nonneg. intros x X. apply in_map_iff in X as [j [<- _]]. apply P. }
    rewrite qr_plus in L, H. replace (s + (nth k c 0 + R0)) with (s + nth k c 0 + R0) by ring. rewrite (qr_plus (s + nth k c 0)). set (a := qr (s + nth k c 0)) in *. set (b := qr (r (s + nth k c 0))) in *.
    assert (PL : (0 <= (1 - qr u) ^ n)%R) by (apply pow_le; lra). assert (PH : (0 <= (1 + qr u) ^ n)%R) by (apply pow_le; lra).
    split.
    + eapply Rle_trans; [|exact L]. rewrite Rmult_assoc, (Rmult_comm (1 - qr u)), Rmult_assoc. apply Rmult_le_compat_l; [exact PL|]. nra.
    + eapply Rle_trans; [exact H|]. rewrite Rmult_assoc, (Rmult_comm (1 + qr u)), Rmult_assoc. apply Rmult_le_compat_l; [exact PH|]. nra.
Qed.
Lemma integral_bounds h : h_ok h -> (forall i, 0 <= cont h i) ->
  exists t, integralF r h = Ok t /\ 0 <= t /\ ((1 - qr u) ^ hNBins h * qr (total h) <= qr t <= (1 + qr u) ^ hNBins h * qr (total h))%R.
Proof.
  intros [_ [_ [_ [_ L]]]] P. destruct (sum_bounds (hCont h) (hNBins h) P 0 0) as [t [E [T B]]]; [lia|apply Qcle_refl|].
  exists t. split; [exact E|]. split; [exact T|]. change (qsum (map (fun i => nth i (hCont h) 0) (seq 0 (hNBins h)))) with (total h) in B. replace (0 + total h) with (total h) in B by ring. exact B.
Qed.
End Sum.
Lemma nonneg_all h : h_ok h -> (forall i, (i < hNBins h)%nat -> 0 <= cont h i) -> forall i, 0 <= cont h i.
Proof. intros [_ [_ [_ [_ L]]]] P i. destruct (Nat.lt_ge_cases i (hNBins h)) as [H|H]; [now apply P|]. unfold cont. rewrite nth_overflow by lia. apply Qcle_refl. Qed.
Lemma integral_round u r h : h_reach h -> within u r -> 0 <= u -> u <= 1 -> (forall i, (i < hNBins h)%nat -> 0 <= cont h i) ->
  exists t, integralF r h = Ok t /\ qpow (1 - u) (hNBins h) * total h <= t /\ t <= qpow (1 + u) (hNBins h) * total h.
Proof.
  intros R W A B P. pose proof (h_reach_ok h R) as Hok. destruct (integral_bounds u r W A B h Hok (nonneg_all h Hok P)) as [t [E [_ [L H]]]]. exists t. split; [exact E|].
  split; apply qr_le; rewrite qr_mult, qr_qpow, ?qr_minus, ?qr_plus, qr_1; assumption.
Qed.
Lemma normalise_round u r h : h_reach h -> within u r -> 0 <= u -> u < 1 -> (forall i, (i < hNBins h)%nat -> 0 <= cont h i) -> 0 < total h ->
  exists h' t, normaliseF r h = (h', Ok tt) /\ same_axes h' h /\ integralF r h' = Ok t /\
    qpow (1 - u) (hNBins h + 1) <= t * qpow (1 + u) (hNBins h) /\ t * qpow (1 - u) (hNBins h) <= qpow (1 + u) (hNBins h + 1) /\
    forall i, (i < hNBins h)%nat -> (1 - u) * (cont h i / total h) <= cont h' i * qpow (1 + u) (hNBins h) /\ cont h' i * qpow (1 - u) (hNBins h) <= (1 + u) * (cont h i / total h).
Proof.
  intros R W A B P HT. pose proof (h_reach_ok h R) as Hok. assert (B' : u <= 1) by now apply Qclt_le_weak. pose proof (nonneg_all h Hok P) as P'.
  destruct (integral_bounds u r W A B' h Hok P') as [s [E [Hs [L H]]]]. set (n := hNBins h) in *.
  apply qr_le in A. apply qr_lt in B, HT. rewrite qr_0 in A, HT. rewrite qr_1 in B.
  assert (PL : (0 < (1 - qr u) ^ n)%R) by (apply pow_lt; lra). assert (PH : (0 < (1 + qr u) ^ n)%R) by (apply pow_lt; lra).
  set (T := total h) in *. assert (Sp : (0 < qr s)%R) by (eapply Rlt_le_trans; [|exact L]; now apply Rmult_lt_0_compat).
  assert (Sn : s <> 0) by (intros C; rewrite C, qr_0 in Sp; lra). assert (Tn : T <> 0) by (intros C; rewrite C, qr_0 in HT; lra).
  destruct (map_bins_ok (fun _ x => rmap r (qdiv x s)) (fun _ x => r (x / s)) h Hok) as [h' [E' [SS N]]].
  { intros i Hi. unfold qdiv. apply qeqb_neq in Sn. rewrite Sn. reflexivity. }
  assert (Hok' : h_ok h') by (eapply same_shape_ok; eassumption).
  assert (D : forall i, 0 <= cont h i / s). { intros i. apply qr_le. rewrite qr_div by exact Sn. rewrite qr_0. specialize (P' i). apply qr_le in P'. rewrite qr_0 in P'. apply Rmult_le_pos; [exact P'|]. left. now apply Rinv_0_lt_compat. }
  assert (C0 : forall i, (n <= i)%nat -> cont h i = 0) by (intros i Hi; unfold cont; apply nth_overflow; destruct Hok as [_ [_ [_ [_ ->]]]]; exact Hi).
  assert (N' : forall i, cont h' i = r (cont h i / s)).
  { intros i. rewrite N. fold n. destruct (Nat.ltb_spec i n) as [Hi|Hi]; [reflexivity|]. rewrite C0 by exact Hi. unfold Qcdiv. replace (0 * / s) with 0 by ring. symmetry. now apply (within_0 u). }
  assert (P2 : forall i, 0 <= cont h' i) by (intros i; rewrite N'; now apply (within_nonneg u)).
  assert (U0 : 0 <= u) by (apply qr_le; rewrite qr_0; exact A).
  destruct (integral_bounds u r W U0 B' h' Hok' P2) as [t [Et [_ [Lt Ht]]]].
  assert (Nn : hNBins h' = n) by apply SS. rewrite Nn in *.
  assert (S1 : ((1 - qr u) * (qr T / qr s) <= qr (total h') <= (1 + qr u) * (qr T / qr s))%R).
  { assert (G : forall k, ((1 - qr u) * (qr (qsum (map (cont h) (seq k n))) / qr s) <= qr (qsum (map (cont h') (seq k n))) <= (1 + qr u) * (qr (qsum (map (cont h) (seq k n))) / qr s))%R).
    { clear - W Sn N' D A B Sp. induction n as [|n IH]; intros k; cbn [seq map qsum]; [rewrite qr_0; unfold Rdiv; rewrite Rmult_0_l; lra|].
      specialize (IH (Datatypes.S k)). rewrite !qr_plus. pose proof (within_pos u r _ W (D k)) as X. rewrite <- N' in X. rewrite qr_div in X by exact Sn. unfold Rdiv in *. rewrite Rmult_plus_distr_r. lra. }
    specialize (G 0%nat). unfold total. rewrite Nn. exact G. }
  exists h', t. split; [unfold normaliseF; rewrite E; exact E'|]. split; [destruct SS as [X1 [X2 [X3 _]]]; split; [congruence|split; congruence]|]. split; [exact Et|].
  assert (Q1 : (1 <= qr T / qr s * (1 + qr u) ^ n)%R). { apply (Rmult_le_reg_r (qr s)); [exact Sp|]. unfold Rdiv. replace (qr T * / qr s * (1 + qr u) ^ n * qr s)%R with ((1 + qr u) ^ n * qr T)%R by (field; lra). lra. }
  assert (Q2 : (qr T / qr s * (1 - qr u) ^ n <= 1)%R). { apply (Rmult_le_reg_r (qr s)); [exact Sp|]. unfold Rdiv. replace (qr T * / qr s * (1 - qr u) ^ n * qr s)%R with ((1 - qr u) ^ n * qr T)%R by (field; lra). lra. }
  set (q := (qr T / qr s)%R) in *. assert (Q0 : (0 < q)%R) by (apply Rdiv_lt_0_compat; assumption).
  split; [|split].
  - apply qr_le. rewrite qr_mult, !qr_qpow, qr_minus, qr_plus, qr_1. rewrite pow_add. cbn [pow]. eapply Rle_trans; [|apply Rmult_le_compat_r; [left; exact PH|exact Lt]].
    rewrite Rmult_assoc. apply Rmult_le_compat_l; [left; exact PL|]. rewrite Rmult_1_r. eapply Rle_trans; [|apply Rmult_le_compat_r; [left; exact PH|apply S1]]. rewrite Rmult_assoc. rewrite <- (Rmult_1_r (1 - qr u)) at 1. apply Rmult_le_compat_l; [lra|exact Q1].
  - apply qr_le. rewrite qr_mult, !qr_qpow, qr_minus, qr_plus, qr_1. rewrite pow_add. cbn [pow]. eapply Rle_trans; [apply Rmult_le_compat_r; [left; exact PL|exact Ht]|].
    rewrite Rmult_assoc. apply Rmult_le_compat_l; [left; exact PH|]. rewrite Rmult_1_r. eapply Rle_trans; [apply Rmult_le_compat_r; [left; exact PL|apply S1]|]. rewrite Rmult_assoc. rewrite <- (Rmult_1_r (1 + qr u)) at 2. apply Rmult_le_compat_l; [lra|exact Q2].
  - intros i Hi. pose proof (within_pos u r _ W (D i)) as X. rewrite <- N' in X. rewrite qr_div in X by exact Sn. specialize (P' i). apply qr_le in P'. rewrite qr_0 in P'.
    assert (Y : (qr (cont h i) / qr s = qr (cont h i) / qr T * q)%R) by (unfold q; field; lra). rewrite Y in X. assert (Z : (0 <= qr (cont h i) / qr T)%R) by (apply Rmult_le_pos; [exact P'|left; now apply Rinv_0_lt_compat]).
    split; apply qr_le; rewrite !qr_mult, qr_qpow, !qr_minus, !qr_plus, qr_1, qr_div by exact Tn; set (z := (qr (cont h i) / qr T)%R) in *.
    + eapply Rle_trans; [|apply Rmult_le_compat_r; [left; exact PH|apply X]]. rewrite !Rmult_assoc. apply Rmult_le_compat_l; [lra|]. rewrite <- (Rmult_1_r z) at 1. now apply Rmult_le_compat_l.
    + eapply Rle_trans; [apply Rmult_le_compat_r; [left; exact PL|apply X]|]. rewrite !Rmult_assoc. apply Rmult_le_compat_l; [lra|]. rewrite <- (Rmult_1_r z) at 2. now apply Rmult_le_compat_l.
Qed.

(** doubles without underflow *)
Lemma r53_within : within (/ qz (2 ^ 53)) (rne (fun m => (m - 53)%Z)).
Proof.
  intros x. apply qr_le. rewrite qr_mult, !qr_abs, qr_minus, rne_ok.
  pose proof (relative_error_N_FLX radix2 53 prec53 (fun z => negb (Z.even z)) (qr x)) as H.
  change (FLX_exp 53) with (fun m => (m - 53)%Z) in H. eapply Rle_trans; [exact H|]. apply Rmult_le_compat_r; [apply Rabs_pos|].
  change (/ qz (2 ^ 53)) with (two_pow (-53)). rewrite qr_two_pow. change (-53 + 1)%Z with (-52)%Z. replace (/ 2)%R with (bpow radix2 (-1)) by reflexivity. rewrite <- bpow_plus. apply Rle_refl.
Qed.
Lemma b64_normal x : (x = 0 \/ two_pow (-1022) <= qabs x) -> b64 x = rne (fun m => (m - 53)%Z) x.
Proof.
  intros [->|H]; [reflexivity|]. unfold b64, rne. destruct (qeqb x 0) eqn:E; [reflexivity|]. apply qeqb_neq in E.
  assert (M : (-1021 <= mag2 x)%Z). { rewrite mag2_ok by exact E. apply qr_le in H. rewrite qr_two_pow, qr_abs in H. apply mag_ge_bpow. exact H. }
  rewrite Z.max_l by lia. reflexivity.
Qed.
Lemma edge_R (m Dr Nr X U e1 e2 e3 y : R) : (0 < Nr -> 0 <= Dr -> 0 <= X -> 0 <= U ->
  Rabs (e1 - Dr) <= U * Rabs Dr -> Rabs (e2 - e1 / Nr) <= U * Rabs (e1 / Nr) -> Rabs (e3 - X * e2) <= U * Rabs (X * e2) -> Rabs (y - (m + e3)) <= U * Rabs (m + e3) ->
  Rabs (y - (m + X * (Dr / Nr))) <= ((1 + U) ^ 4 - 1) * (Rabs m + X * (Dr / Nr)))%R.
Proof.
  intros NP D0 Hx U0 a1 a2 a3 a4. set (w := (Dr / Nr)%R). assert (W0 : (0 <= w)%R) by (apply Rmult_le_pos; [exact D0|left; now apply Rinv_0_lt_compat]).
  (* e1/Nr within u of w *)
  assert (b1 : (Rabs (e1 / Nr - w) <= U * w)%R). { unfold w. replace (e1 / Nr - Dr / Nr)%R with ((e1 - Dr) * / Nr)%R by (field; lra). rewrite Rabs_mult, (Rabs_pos_eq (/ Nr)) by (left; now apply Rinv_0_lt_compat). unfold Rdiv. rewrite <- Rmult_assoc. apply Rmult_le_compat_r; [left; now apply Rinv_0_lt_compat|]. rewrite (Rabs_pos_eq Dr) in a1 by exact D0. exact a1. }
  assert (c1 : (Rabs (e1 / Nr) <= (1 + U) * w)%R). { replace (e1 / Nr)%R with ((e1 / Nr - w) + w)%R by ring. eapply Rle_trans; [apply Rabs_triang|]. rewrite (Rabs_pos_eq w) by exact W0. lra. }
  assert (b2 : (Rabs (e2 - w) <= ((1 + U) ^ 2 - 1) * w)%R). { replace (e2 - w)%R with ((e2 - e1 / Nr) + (e1 / Nr - w))%R by ring. eapply Rle_trans; [apply Rabs_triang|]. assert (U * Rabs (e1 / Nr) <= U * ((1 + U) * w))%R by now apply Rmult_le_compat_l. cbn [pow]. nra. }
  assert (c2 : (Rabs (X * e2) <= (1 + U) ^ 2 * (X * w))%R). { rewrite Rabs_mult, (Rabs_pos_eq X) by exact Hx. assert (Rabs e2 <= (1 + U) ^ 2 * w)%R. { replace e2 with ((e2 - w) + w)%R by ring. eapply Rle_trans; [apply Rabs_triang|]. rewrite (Rabs_pos_eq w) by exact W0. lra. } rewrite <- Rmult_assoc, (Rmult_comm _ X), Rmult_assoc. now apply Rmult_le_compat_l. }
  assert (Z0 : (0 <= X * w)%R) by now apply Rmult_le_pos. set (z := (X * w)%R) in *.
  assert (b3 : (Rabs (e3 - z) <= ((1 + U) ^ 3 - 1) * z)%R).
  { replace (e3 - z)%R with ((e3 - X * e2) + X * (e2 - w))%R by (unfold z; ring). eapply Rle_trans; [apply Rabs_triang|]. rewrite (Rabs_mult X), (Rabs_pos_eq X) by exact Hx.
    assert (U * Rabs (X * e2) <= U * ((1 + U) ^ 2 * z))%R by now apply Rmult_le_compat_l. assert (X * Rabs (e2 - w) <= ((1 + U) ^ 2 - 1) * z)%R. { unfold z. rewrite <- Rmult_assoc, (Rmult_comm _ X), Rmult_assoc. now apply Rmult_le_compat_l. }
    cbn [pow] in *. lra. }
  assert (c3 : (Rabs (m + e3) <= Rabs m + (1 + U) ^ 3 * z)%R). { replace (m + e3)%R with (m + ((e3 - z) + z))%R by ring. eapply Rle_trans; [apply Rabs_triang|]. apply Rplus_le_compat_l. eapply Rle_trans; [apply Rabs_triang|]. rewrite (Rabs_pos_eq z) by exact Z0. lra. }
  replace (y - (m + z))%R with ((y - (m + e3)) + (e3 - z))%R by ring. eapply Rle_trans; [apply Rabs_triang|]. assert (U * Rabs (m + e3) <= U * (Rabs m + (1 + U) ^ 3 * z))%R by now apply Rmult_le_compat_l.
  pose proof (Rabs_pos m) as M0. assert (K : (U <= (1 + U) ^ 4 - 1)%R). { cbn [pow]. assert (0 <= U * U)%R by now apply Rmult_le_pos. assert (0 <= U * U * U)%R by now apply Rmult_le_pos. assert (0 <= U * U * (U * U))%R by now apply Rmult_le_pos. lra. }
  assert (K2 : (U * Rabs m <= ((1 + U) ^ 4 - 1) * Rabs m)%R) by now apply Rmult_le_compat_r. cbn [pow] in *. lra.
Qed.
Lemma edge_round u r mn mx n x : within u r -> 0 <= u -> mn < mx -> (0 < n)%nat -> r (qn n) = qn n -> 0 <= x ->
  qabs (edgeF r mn (r (r (mx - mn) / r (qn n))) x - (mn + x * ((mx - mn) / qn n))) <= (qpow (1 + u) 4 - 1) * (qabs mn + x * ((mx - mn) / qn n)).
Proof.
  intros W U Hlt Hn Rn Hx. rewrite Rn. assert (Nn : qn n <> 0) by (intros C; pose proof (proj1 (qn_pos n) Hn) as Q; rewrite C in Q; exact (Qclt_not_eq _ _ Q eq_refl)).
  assert (NP : (0 < qr (qn n))%R) by (rewrite <- qr_0; now apply qr_lt, qn_pos).
  set (D := mx - mn). assert (D0 : 0 <= D) by (apply qr_le; unfold D; rewrite qr_minus, qr_0; apply qr_lt in Hlt; lra).
  assert (U' : (0 <= qr u)%R) by (rewrite <- qr_0; now apply qr_le). pose proof (within_pos u r D W D0) as X1.
  unfold edgeF. set (d1 := r D) in *. set (d2 := r (d1 / qn n)). set (d3 := r (x * d2)).
  assert (a1 : (Rabs (qr d1 - qr D) <= qr u * Rabs (qr D))%R) by (pose proof (W D) as Q; apply qr_le in Q; now rewrite qr_mult, !qr_abs, qr_minus in Q).
  assert (a2 : (Rabs (qr d2 - qr d1 / qr (qn n)) <= qr u * Rabs (qr d1 / qr (qn n)))%R) by (pose proof (W (d1 / qn n)) as Q; apply qr_le in Q; rewrite qr_mult, !qr_abs, qr_minus, qr_div in Q by exact Nn; exact Q).
  assert (a3 : (Rabs (qr d3 - qr x * qr d2) <= qr u * Rabs (qr x * qr d2))%R) by (pose proof (W (x * d2)) as Q; apply qr_le in Q; rewrite qr_mult, !qr_abs, qr_minus, qr_mult in Q; exact Q).
  assert (a4 : (Rabs (qr (r (mn + d3)%Qc) - (qr mn + qr d3)) <= qr u * Rabs (qr mn + qr d3))%R) by (pose proof (W (mn + d3)) as Q; apply qr_le in Q; rewrite qr_mult, !qr_abs, qr_minus, qr_plus in Q; exact Q).
  apply qr_le. rewrite qr_mult, !qr_abs, !qr_minus, !qr_plus, qr_abs, qr_mult, qr_qpow, qr_plus, qr_1, qr_div by exact Nn.
  apply qr_le in D0, Hx. rewrite qr_0 in D0, Hx. set (y := qr (r (mn + d3))) in *. clearbody y.
  now apply (edge_R (qr mn) (qr D) (qr (qn n)) (qr x) (qr u) (qr d1) (qr d2) (qr d3)).
Qed.
Lemma axis_edges u r name mn mx n latex a i : within u r -> 0 <= u -> exact_to (Z.of_nat n) r -> mn < mx -> (i < n)%nat -> mk_equalF r name mn mx n latex = Ok a ->
  let lo := mn + qn i * ((mx - mn) / qn n) in let hi := mn + qn (i + 1) * ((mx - mn) / qn n) in
  qabs (lo_of a i - lo) <= (qpow (1 + u) 4 - 1) * (qabs mn + (lo - mn)) /\ qabs (hi_of a i - hi) <= (qpow (1 + u) 4 - 1) * (qabs mn + (hi - mn)).
Proof.
  intros W U E Hlt Hi Ea lo hi. assert (Rn : forall i, (i <= n)%nat -> r (qn i) = qn i) by (intros j Hj; apply E; lia).
  unfold mk_equalF in Ea. destruct (qleb_spec mx mn) as [C|C]; [exfalso; exact (Qclt_not_le _ _ Hlt C)|]. destruct (Nat.eqb_spec n 0); [lia|]. cbn [orb] in Ea. injection Ea as <-.
  unfold lo_of, hi_of. cbn [aLow aHigh]. rewrite !nth_map_seq by exact Hi. rewrite (Rn i), (Rn (i + 1)%nat) by lia.
  assert (Q : forall j, 0 <= qn j) by (intros j; change (0 <= qz (Z.of_nat j)); apply qr_le; rewrite qr_0, qr_z; apply IZR_le; lia).
  replace (lo - mn) with (qn i * ((mx - mn) / qn n)) by (unfold lo; ring). replace (hi - mn) with (qn (i + 1) * ((mx - mn) / qn n)) by (unfold hi; ring).
  split; (apply edge_round; [exact W|exact U|exact Hlt|lia|now apply Rn|apply Q]).
Qed.
