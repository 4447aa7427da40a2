From Coq Require Import ZArith Reals Lra.
From Verif Require Import Base.Res Base.Num Base.RNum Base.SMap Model.Axis Model.Event Model.Cut Model.Hist Model.ED Model.Param
  Model.Matrix Model.SystMan Model.Shrink Model.EDMan Model.Fill Model.Constraint Model.NLLH Spec.AxisSpec Spec.HistSpec Spec.CutSpec Spec.FillSpec Spec.ParamSpec Spec.EDManSpec Spec.NLLHSpec
  Proofs.AxisP Proofs.HistP Proofs.HistP2 Proofs.ParamP Proofs.ParamP3 Proofs.EDManP Proofs.EDManP2 Proofs.FillP2 Proofs.NLLHP Proofs.NLLHP2 Proofs.NLLHP3.
From Coq Require Import Lra Psatz.

(** ** the minimum *)
Local Open Scope R_scope.
Lemma ln_le_sub1 x : 0 < x -> ln x <= x - 1.
Proof.
  intros H. destruct (Req_dec x 1) as [->|N]; [rewrite ln_1; lra|].
  destruct (Rle_dec (ln x) (x - 1)) as [L|L]; [exact L|]. exfalso.
  assert (N0 : ln x <> 0). { intros C. apply N. rewrite <- (exp_ln x H), C. apply exp_0. }
  pose proof (exp_ineq1 (ln x) N0) as E. rewrite exp_ln in E by exact H. lra.
Qed.
Lemma ln_lt_sub1 x : 0 < x -> x <> 1 -> ln x < x - 1.
Proof.
  intros H N. assert (N0 : ln x <> 0). { intros C. apply N. rewrite <- (exp_ln x H), C. apply exp_0. }
  pose proof (exp_ineq1 (ln x) N0) as E. rewrite exp_ln in E by exact H. lra.
Qed.
Lemma poisson_min n mu : 0 <= n -> 0 < mu -> poisson_nll n n <= poisson_nll n mu /\ (poisson_nll n n = poisson_nll n mu -> mu = n).
Proof.
  intros Hn Hm. unfold poisson_nll. destruct (Req_dec n 0) as [->|N0]; [lra|]. assert (P : 0 < n) by lra.
  assert (Q : 0 < mu / n) by (apply Rdiv_lt_0_compat; assumption).
  assert (E : ln (mu / n) = ln mu - ln n) by (unfold Rdiv; rewrite ln_mult, ln_Rinv; [ring|exact P|exact Hm|now apply Rinv_0_lt_compat]).
  assert (K : n * (mu / n - 1) = mu - n) by (field; lra).
  split.
  - pose proof (ln_le_sub1 _ Q) as L. rewrite E in L. apply (Rmult_le_compat_l n) in L; [|lra]. rewrite K in L. lra.
  - intros Eq. destruct (Req_dec mu n) as [|N]; [assumption|]. exfalso.
    assert (N1 : mu / n <> 1). { intros C. apply N. apply (f_equal (fun x => n * x)) in C. rewrite Rmult_1_r in C. rewrite <- C. field. lra. }
    pose proof (ln_lt_sub1 _ Q N1) as L. rewrite E in L. apply (Rmult_lt_compat_l n) in L; [|exact P]. rewrite K in L. lra.
Qed.
Lemma minimum_pkg n mu : Forall2 (fun a b => 0 <= a /\ 0 < b) n mu -> nll n n <= nll n mu /\ (nll n n = nll n mu -> mu = n).
Proof.
  unfold nll. induction 1 as [|a b n mu [Ha Hb] F IH]; cbn [combine map rsum fst snd]; [split; [lra|reflexivity]|].
  destruct IH as [I1 I2]. destruct (poisson_min a b Ha Hb) as [J1 J2]. split; [lra|]. intros E. f_equal; [apply J2|apply I2]; lra.
Qed.

(** ** Barlow-Beeston *)
Lemma beta_pkg (s2 n mu : Qc) : (0 < s2)%Qc -> (0 <= n)%Qc -> (mu * s2 < 1)%Qc ->
  exists beta, bb_beta s2 n mu = Ok beta /\ bb_root (qr s2) (qr n) (qr mu) beta /\ 0 < beta /\
    (forall x, bb_root (qr s2) (qr n) (qr mu) x -> x <= beta) /\ (n = mu -> beta = 1).
Proof.
  intros Hs Hn Hb. apply qr_lt in Hs. apply qr_le in Hn. apply qr_lt in Hb. rewrite qr_mult, qr_1, qr_0 in *.
  unfold bb_beta. set (S := qr s2) in *. set (N := qr n) in *. set (M := qr mu) in *. set (b := M * S - 1).
  assert (Bn : b < 0) by (unfold b; lra). destruct (Rle_dec 0 b) as [C|_]; [exfalso; lra|].
  set (det := b * b + 4 * N * S). assert (Dp : 0 < det) by (unfold det; assert (0 < b * b) by nra; assert (0 <= N * S) by nra; lra).
  pose proof (sqrt_lt_R0 det Dp) as Rp. pose proof (sqrt_sqrt det (Rlt_le _ _ Dp)) as Rs. set (r := sqrt det) in *.
  set (q := - (1 / 2) * (b + -1 * r)). assert (Qp : 0 < q) by (unfold q; lra).
  destruct (Req_EM_T q 0) as [C|_]; [exfalso; lra|].
  assert (Hroot : q * q + b * q - N * S = 0).
  { unfold q. assert (E : (- (1 / 2) * (b + -1 * r)) * (- (1 / 2) * (b + -1 * r)) = (b * b - 2 * b * r + r * r) / 4) by field.
    rewrite E, Rs. unfold det. field. }
  assert (Hlt : N * S / q < q).
  { apply (Rmult_lt_reg_r q); [exact Qp|]. unfold Rdiv. rewrite Rmult_assoc, Rinv_l by lra. nra. }
  destruct (Rlt_dec (N * S / q) q) as [_|C]; [|contradiction].
  assert (Huniq : forall x, x * x + b * x - N * S = 0 -> x <= q).
  { intros x Hx. destruct (Rle_dec x q) as [L|L]; [exact L|]. exfalso. apply Rnot_le_lt in L.
    assert (E : (x - q) * (x + q + b) = 0) by nra. assert (0 < x + q + b) by (unfold q in *; lra). nra. }
  exists q. split; [reflexivity|]. unfold bb_root. fold b. split; [exact Hroot|]. split; [exact Qp|]. split; [exact Huniq|].
  intros Enm. assert (Em : N = M) by (unfold N, M; now rewrite Enm).
  assert (E1 : 1 * 1 + b * 1 - N * S = 0) by (unfold b; rewrite Em; ring).
  apply Rle_antisym; [|apply Huniq; exact E1].
  destruct (Rle_dec q 1) as [L|L]; [exact L|]. exfalso. apply Rnot_le_lt in L.
  assert (E : (q - 1) * (q + N * S) = 0) by (unfold b in Hroot; rewrite Em in *; nra). assert (0 <= N * S) by nra. nra.
Qed.
(** the other case: the scale comes out negative *)
Lemma beta_neg_pkg (s2 n mu : Qc) : (0 < s2)%Qc -> (0 < n)%Qc -> (1 <= mu * s2)%Qc ->
  exists beta, bb_beta s2 n mu = Ok beta /\ beta < 0 /\ bb_root (qr s2) (qr n) (qr mu) (- beta) /\ bb_term s2 n mu = NonFinite.
Proof.
  intros Hs Hn Hb. assert (Hm : 0 < qr mu).
  { apply qr_lt in Hs. apply qr_le in Hb. rewrite qr_mult, qr_1, qr_0 in *. destruct (Rle_dec (qr mu) 0); [exfalso; nra|lra]. }
  apply qr_lt in Hs. apply qr_lt in Hn. apply qr_le in Hb. rewrite qr_mult, qr_1, qr_0 in *.
  unfold bb_term. unfold bb_beta. set (S := qr s2) in *. set (N := qr n) in *. set (M := qr mu) in *. set (b := M * S - 1).
  assert (Bn : 0 <= b) by (unfold b; lra). destruct (Rle_dec 0 b) as [_|C]; [|contradiction].
  set (det := b * b + 4 * N * S). assert (NS : 0 < N * S) by nra. assert (Dp : 0 < det) by (unfold det; nra).
  pose proof (sqrt_lt_R0 det Dp) as Rp. pose proof (sqrt_sqrt det (Rlt_le _ _ Dp)) as Rs. set (r := sqrt det) in *.
  set (q := - (1 / 2) * (b + 1 * r)). assert (Qn : q < 0) by (unfold q; lra).
  destruct (Req_EM_T q 0) as [C|_]; [exfalso; lra|].
  assert (Hroot : q * q + b * q - N * S = 0).
  { unfold q. assert (E : (- (1 / 2) * (b + 1 * r)) * (- (1 / 2) * (b + 1 * r)) = (b * b + 2 * b * r + r * r) / 4) by field.
    rewrite E, Rs. unfold det. field. }
  set (x2 := N * S / q). assert (X : x2 * q = N * S) by (unfold x2; field; lra).
  assert (Xn : x2 < 0) by nra.
  assert (Xq : q <= x2) by nra.
  assert (Hb' : (if Rlt_dec x2 q then q else x2) = x2) by (destruct (Rlt_dec x2 q); [exfalso; lra|reflexivity]). rewrite Hb'.
  exists x2. split; [reflexivity|]. split; [exact Xn|]. split.
  - unfold bb_root. fold b. apply (Rmult_eq_reg_l (q * q)); [|nra]. rewrite Rmult_0_r.
    transitivity ((x2 * q) * (x2 * q) - b * (x2 * q) * q - q * q * (N * S)); [ring|]. rewrite X. 
    transitivity (- (N * S) * (q * q + b * q - N * S)); [ring|]. rewrite Hroot. ring.
  - destruct (Req_EM_T S 0); [reflexivity|]. unfold poisson_term. destruct (Rlt_dec 0 (x2 * M)) as [C|_]; [exfalso; nra|reflexivity].
Qed.
Lemma beta_zero_pkg (s2 mu : Qc) : (0 < s2)%Qc -> (1 <= mu * s2)%Qc -> bb_term s2 0 mu = NonFinite.
Proof.
  intros Hs Hb. assert (Hm : 0 < qr mu).
  { apply qr_lt in Hs. apply qr_le in Hb. rewrite qr_mult, qr_1, qr_0 in *. destruct (Rle_dec (qr mu) 0); [exfalso; nra|lra]. }
  apply qr_lt in Hs. apply qr_le in Hb. rewrite qr_mult, qr_1, qr_0 in *.
  unfold bb_term, bb_beta. rewrite qr_0. set (S := qr s2) in *. set (M := qr mu) in *. set (b := M * S - 1).
  assert (Bn : 0 <= b) by (unfold b; lra). destruct (Rle_dec 0 b) as [_|C]; [|contradiction].
  replace (b * b + 4 * 0 * S) with (b * b) by ring. rewrite sqrt_square by exact Bn.
  set (q := - (1 / 2) * (b + 1 * b)). destruct (Req_EM_T q 0) as [C|Nq]; [reflexivity|].
  assert (Qn : q < 0). { unfold q in *. lra. }
  replace (0 * S / q) with 0 by (field; exact Nq). destruct (Rlt_dec 0 q); [exfalso; lra|].
  destruct (Req_EM_T S 0); [reflexivity|]. unfold poisson_term. destruct (Rlt_dec 0 (0 * M)) as [C|_]; [exfalso; lra|reflexivity].
Qed.
