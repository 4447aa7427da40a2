From Coq Require Import ZArith.
From Verif Require Import Base.Res Base.Num Model.Axis Model.Hist Model.Shrink Model.Rand Proofs.BayesP2 Proofs.HMCP3 Proofs.GenP Proofs.GaussP3.
From Coq Require Import Lia.
Local Open Scope Qc_scope.
Local Open Scope res_scope.
Lemma shoot_pkg n u : (0 < n)%Z -> 0 <= u -> u < 1 -> (0 <= rShoot n u < n)%Z.
Proof. intros Hn A B. destruct (shoot_bounds n u ltac:(lia) A B) as [X [Y|[Y _]]]; lia. Qed.
Lemma shoot_exact_pkg n u k : (0 < n)%Z -> 0 <= u -> u < 1 -> (rShoot n u = k <-> qz k <= qz n * u /\ qz n * u < qz (k + 1)).
Proof.
  intros Hn A B. pose proof (shoot_pkg n u Hn A B) as R. unfold rShoot, rUniform in *. replace (1 * u) with u in * by ring.
  assert (N : 0 <= qz n * u). { apply mul_pos; [|exact A]. rewrite <- (Qcmult_1_r (qz n)). replace (qz n * 1) with (qz n) by ring.
    unfold qz. change 0 with (Q2Qc (inject_Z 0)). apply Qclt_le_weak. apply qlt_z. cbn. lia. }
  set (q := qz n * u) in *. clearbody q.
  assert (F : qz (qtrunc q) <= q /\ q < qz (qtrunc q + 1)).
  { assert (T : qtrunc q = (Qnum (this q) / Zpos (Qden (this q)))%Z).
    { unfold qtrunc. apply Z.quot_div_nonneg; [|lia]. apply qz_le in N. lia. }
    rewrite T. pose proof (Z.div_mod (Qnum (this q)) (Zpos (Qden (this q))) ltac:(lia)) as D. pose proof (Z.mod_pos_bound (Qnum (this q)) (Zpos (Qden (this q))) ltac:(lia)) as M.
    set (z := (Qnum (this q) / Zpos (Qden (this q)))%Z) in *. split; [apply Qcnot_lt_le; intros X; apply qlt_z in X; nia|apply qlt_z; nia]. }
  split; [intros <-; exact F|]. intros [C D]. destruct F as [F1 F2].
  assert (X : forall a b, qz a <= q -> q < qz b -> (a < b)%Z).
  { intros a b Xa Xb. assert (Y : qz a < qz b) by qlra. apply Z.nle_gt. intros L. apply HMCP3.qz_le in L. qlra. }
  pose proof (X _ _ F1 D). pose proof (X _ _ C F2). lia.
Qed.
Lemma range_pkg lo hi u : lo < hi -> 0 <= u -> u < 1 -> lo < rUniformRange lo hi u /\ rUniformRange lo hi u <= hi /\ (0 < u -> rUniformRange lo hi u < hi).
Proof.
  intros H A B. unfold rUniformRange. assert (P : 0 <= (hi - lo) * u) by (apply mul_pos; [qlra|exact A]).
  assert (Q : (hi - lo) * u < (hi - lo)). { rewrite (Qcmult_comm (hi - lo)). rewrite <- (Qcmult_1_l (hi - lo)) at 2. apply Qcmult_lt_compat_r; [qlra|exact B]. }
  split; [qlra|]. split; [qlra|]. intros C. assert (R : 0 < (hi - lo) * u).
  { rewrite (Qcmult_comm (hi - lo)). replace 0 with (0 * (hi - lo)) by ring. apply Qcmult_lt_compat_r; [qlra|exact C]. } qlra.
Qed.
Lemma range_onto_pkg lo hi x : lo < hi -> lo < x -> x <= hi -> exists u, 0 <= u /\ u < 1 /\ rUniformRange lo hi u = x.
Proof.
  intros H A B. exists ((hi - x) / (hi - lo)). assert (P : 0 < hi - lo) by qlra. assert (N : hi - lo <> 0) by (intros E; rewrite E in P; discriminate P).
  assert (I := BayesP2.inv_pos _ P). unfold Qcdiv. split; [apply mul_pos; qlra|]. split.
  - rewrite <- (Qcmult_inv_r (hi - lo) N). apply Qcmult_lt_compat_r; [exact I|qlra].
  - unfold rUniformRange. replace ((hi - lo) * ((hi - x) * / (hi - lo))) with ((hi - x) * ((hi - lo) * / (hi - lo))) by ring. rewrite Qcmult_inv_r by exact N. ring.
Qed.
Lemma vn_errors_pkg fuel nD f a b y us :
  (b <= a -> rVonNeumann fuel nD f a b y us = Throw ValueError) /\ (y <= 0 -> rVonNeumann fuel nD f a b y us = Throw ValueError) /\
  (nD <> 1%nat -> rVonNeumann fuel nD f a b y us = Throw ValueError).
Proof.
  unfold rVonNeumann. split; [|split]; intros H.
  - apply qleb_le in H. now rewrite H.
  - apply qleb_le in H. rewrite H. destruct (qleb b a); reflexivity.
  - apply Nat.eqb_neq in H. rewrite H. destruct (qleb b a), (qleb y 0); reflexivity.
Qed.
Lemma vn_zero_pkg fuel f a b y us : a < b -> 0 < y -> rVonNeumann fuel 1 f a b y us = Ok 0.
Proof.
  intros A B. unfold rVonNeumann. destruct (qleb b a) eqn:E; [apply qleb_le in E; qlra|]. destruct (qleb y 0) eqn:E2; [apply qleb_le in E2; qlra|]. cbn [Nat.eqb negb].
  destruct fuel; reflexivity.
Qed.
Lemma vn_outside_pkg : exists a b y, a < b /\ 0 < y /\ forall fuel f us x, rVonNeumann fuel 1 f a b y us = Ok x -> ~ (a <= x /\ x < b).
Proof.
  exists 1, (qz 2), 1. split; [reflexivity|]. split; [reflexivity|]. intros fuel f us x. rewrite vn_zero_pkg by reflexivity. intros [= <-] [H _]. now apply H.
Qed.
(** what the rejection loop does once it has been entered *)
Lemma vn_loop_pkg f a b y us : a < b -> (forall k, 0 <= us k /\ us k < 1) -> forall fuel k draw fx val x,
  fx < val -> vnLoop fuel f a b y us k draw fx val = Ok x ->
  a <= x /\ x < b /\ exists j fv, x = us (k + 2 * j)%nat * (b - a) + a /\ f x = Ok fv /\ us (k + 2 * j + 1)%nat * y <= fv /\
    (forall i, (i < j)%nat -> exists fi, f (us (k + 2 * i)%nat * (b - a) + a) = Ok fi /\ fi < us (k + 2 * i + 1)%nat * y).
Proof.
  intros Hab Hu. induction fuel as [|fuel IH]; intros k draw fx val x L; cbn [vnLoop]; apply qltb_lt in L; rewrite L; [discriminate|].
  unfold rUniform. replace (1 * us k) with (us k) by ring. replace (1 * us (S k)) with (us (S k)) by ring.
  set (d := us k * (b - a) + a). destruct (f d) as [fd| | | |] eqn:F; cbn [bind]; try discriminate. intros E.
  destruct (Qclt_le_dec fd (us (S k) * y)) as [C|C].
  - destruct (IH _ _ _ _ _ C E) as [A [B [j [fv [X1 [X2 [X3 X4]]]]]]]. split; [exact A|]. split; [exact B|]. exists (S j), fv.
    replace (k + 2 * S j)%nat with (S (S k) + 2 * j)%nat by lia. split; [exact X1|]. split; [exact X2|]. split; [exact X3|].
    intros [|i] Hi.
    + exists fd. replace (k + 2 * 0)%nat with k by lia. replace (k + 1)%nat with (S k) by lia. split; [exact F|exact C].
    + replace (k + 2 * S i)%nat with (S (S k) + 2 * i)%nat by lia. apply X4. lia.
  - assert (E' : Ok d = Ok x). { rewrite <- E. apply qltb_ge in C. destruct fuel; cbn [vnLoop]; rewrite C; reflexivity. } injection E' as <-.
    destruct (Hu k) as [U1 U2]. assert (P : 0 <= us k * (b - a)) by (apply mul_pos; [exact U1|qlra]).
    assert (Q : us k * (b - a) < b - a). { rewrite <- (Qcmult_1_l (b - a)) at 2. apply Qcmult_lt_compat_r; [qlra|exact U2]. }
    split; [unfold d; qlra|]. split; [unfold d; qlra|]. exists 0%nat, fd. replace (k + 2 * 0)%nat with k by lia. replace (k + 1)%nat with (S k) by lia.
    split; [reflexivity|]. split; [exact F|]. split; [exact C|]. intros i Hi; lia.
Qed.
