From Coq Require Import Reals.
From Verif Require Import Base.Res Model.BayesPoisson Spec.BayesPoissonSpec.
From Coq Require Import Lra Lia.
Local Open Scope R_scope.

Lemma series_eq n x : exp (- x) * expSeries n x = at_most n x.
Proof.
  unfold at_most. induction n as [|n IH]; cbn [expSeries sum_f_R0].
  - unfold exactly. cbn. field.
  - rewrite <- IH. unfold exactly. rewrite Rmult_plus_distr_l. unfold Rdiv. ring.
Qed.
Lemma exactly_nonneg k mu : 0 <= mu -> 0 <= exactly k mu.
Proof.
  intros H. unfold exactly. apply Rmult_le_pos; [apply Rmult_le_pos; [left; apply exp_pos|apply pow_le; exact H]|].
  left. apply Rinv_0_lt_compat. apply lt_0_INR, lt_O_fact.
Qed.
Lemma at_most_S n mu : at_most (S n) mu = at_most n mu + exactly (S n) mu. Proof. reflexivity. Qed.
Lemma at_most_pos n mu : 0 <= mu -> 0 < at_most n mu.
Proof.
  intros H. induction n as [|n IH].
  - unfold at_most, exactly. cbn. pose proof (exp_pos (- mu)). lra.
  - rewrite at_most_S. pose proof (exactly_nonneg (S n) mu H). lra.
Qed.
Lemma exactly_le n mu : 0 <= mu -> exactly n mu <= at_most n mu.
Proof.
  intros H. destruct n as [|n]; [unfold at_most; cbn; lra|]. rewrite at_most_S. pose proof (at_most_pos n mu H). lra.
Qed.
Lemma derive_exactly k mu : derivable_pt_lim (exactly k) mu (match k with O => 0 | S j => exactly j mu end - exactly k mu).
Proof.
  assert (D1 : derivable_pt_lim (fun x => exp (- x)) mu (exp (- mu) * - 1)).
  { apply (derivable_pt_lim_comp (fun x => - x) exp); [|apply derivable_pt_lim_exp]. apply derivable_pt_lim_opp, derivable_pt_lim_id. }
  assert (D2 := derivable_pt_lim_pow mu k).
  assert (D3 := derivable_pt_lim_mult _ _ _ _ _ D1 D2).
  assert (D4 := derivable_pt_lim_scal _ (/ INR (fact k)) _ _ D3).
  assert (N : INR (fact k) <> 0) by (apply not_0_INR, fact_neq_0).
  match goal with |- derivable_pt_lim _ _ ?l => match type of D4 with derivable_pt_lim _ _ ?m => replace l with m end end.
  - intros eps He. destruct (D4 eps He) as [d Hd]. exists d. intros h H1 H2. specialize (Hd h H1 H2).
    unfold mult_real_fct, mult_fct in Hd. unfold exactly, Rdiv.
    replace (exp (- (mu + h)) * (mu + h) ^ k * / INR (fact k)) with (/ INR (fact k) * (exp (- (mu + h)) * (mu + h) ^ k)) by ring.
    replace (exp (- mu) * mu ^ k * / INR (fact k)) with (/ INR (fact k) * (exp (- mu) * mu ^ k)) by ring. exact Hd.
  - unfold exactly. destruct k as [|j].
    + cbn. field.
    + cbn [Init.Nat.pred]. assert (Nj : INR (fact j) <> 0) by (apply not_0_INR, fact_neq_0).
      assert (Ns : INR (S j) <> 0) by (apply not_0_INR; lia).
      change (fact (S j)) with (S j * fact j)%nat. rewrite mult_INR. field. split; assumption.
Qed.
Lemma derive_at_most n mu : derivable_pt_lim (at_most n) mu (- exactly n mu).
Proof.
  induction n as [|n IH].
  - replace (- exactly 0 mu) with (0 - exactly 0 mu) by ring. exact (derive_exactly 0 mu).
  - replace (- exactly (S n) mu) with (- exactly n mu + (exactly n mu - exactly (S n) mu)) by ring.
    exact (derivable_pt_lim_plus _ _ _ _ _ IH (derive_exactly (S n) mu)).
Qed.
Lemma mvt n x y : x < y -> exists c, at_most n y - at_most n x = - exactly n c * (y - x) /\ x < c < y.
Proof.
  intros H. destruct (MVT_cor2 (at_most n) (fun m => - exactly n m) x y H) as [c [E C]].
  - intros c _. apply derive_at_most.
  - exists c. split; assumption.
Qed.
Lemma at_most_decr n x y : 0 <= x -> x <= y -> at_most n y <= at_most n x.
Proof.
  intros H0 H. destruct (Req_dec x y) as [->|N]; [lra|]. destruct (mvt n x y) as [c [E C]]; [lra|].
  pose proof (exactly_nonneg n c ltac:(lra)). nra.
Qed.
Lemma at_most_slow n x y : 0 <= x -> x <= y -> at_most n x - at_most n y <= at_most n x * (y - x).
Proof.
  intros H0 H. destruct (Req_dec x y) as [->|N]; [lra|]. destruct (mvt n x y) as [c [E C]]; [lra|].
  pose proof (exactly_le n c ltac:(lra)). pose proof (at_most_decr n x c H0 ltac:(lra)). pose proof (exactly_nonneg n c ltac:(lra)). nra.
Qed.
(** e^mu >= (mu / k)^k *)
Lemma exp_pow k x : exp (INR k * x) = exp x ^ k.
Proof.
  induction k as [|k IH]; [cbn; rewrite Rmult_0_l, exp_0; reflexivity|]. rewrite S_INR, Rmult_plus_distr_r, exp_plus, IH, Rmult_1_l. cbn. ring.
Qed.
Lemma exactly_small k mu : 0 < mu -> exactly k mu <= (INR (S k)) ^ S k / mu.
Proof.
  intros H. assert (P : 0 < INR (S k)) by (apply lt_0_INR; lia).
  assert (E : (mu / INR (S k)) ^ S k <= exp mu).
  { replace mu with (INR (S k) * (mu / INR (S k))) at 2 by (field; lra). rewrite exp_pow. apply pow_incr. split.
    - left. apply Rmult_lt_0_compat; [exact H|apply Rinv_0_lt_compat, P].
    - pose proof (exp_ineq1_le (mu / INR (S k))). lra. }
  unfold Rdiv in E. rewrite Rpow_mult_distr in E. rewrite pow_inv in E. set (c := INR (S k) ^ S k) in *. assert (Pc : 0 < c) by (apply pow_lt, P).
  assert (M : mu ^ S k <= c * exp mu). { apply Rmult_le_reg_r with (/ c); [apply Rinv_0_lt_compat, Pc|]. replace (c * exp mu * / c) with (exp mu) by (field; lra). exact E. }
  assert (F : 1 <= INR (fact k)) by (replace 1 with (INR 1) by reflexivity; apply le_INR; pose proof (lt_O_fact k); lia).
  assert (Pw : 0 <= mu ^ k) by (apply pow_le; lra). pose proof (exp_pos (- mu)) as Pe.
  assert (Q : exp (- mu) * mu ^ k <= c / mu).
  { apply Rmult_le_reg_r with mu; [exact H|]. replace (c / mu * mu) with (c * (exp (- mu) * exp mu)).
    - cbn [pow] in M. nra.
    - rewrite <- exp_plus. replace (- mu + mu) with 0 by ring. rewrite exp_0. field. lra. }
  unfold exactly. apply Rle_trans with (exp (- mu) * mu ^ k); [|exact Q].
  unfold Rdiv. rewrite <- (Rmult_1_r (exp (- mu) * mu ^ k)) at 2. apply Rmult_le_compat_l; [nra|].
  rewrite <- Rinv_1. apply Rinv_le_contravar; lra.
Qed.
Lemma at_most_small n : exists C, 0 < C /\ forall mu, 0 < mu -> at_most n mu <= C / mu.
Proof.
  induction n as [|n [C [PC IH]]].
  - exists (INR 1 ^ 1). split; [cbn; lra|]. intros mu H. unfold at_most. cbn [sum_f_R0]. apply (exactly_small 0 mu H).
  - exists (C + INR (S (S n)) ^ S (S n)). split; [apply Rplus_lt_0_compat; [exact PC|apply pow_lt, lt_0_INR; lia]|].
    intros mu H. rewrite at_most_S. pose proof (IH mu H). pose proof (exactly_small (S n) mu H). unfold Rdiv in *. lra.
Qed.
