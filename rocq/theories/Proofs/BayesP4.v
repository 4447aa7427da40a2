From Coq Require Import Reals.
From Verif Require Import Base.Res Model.BayesPoisson Spec.BayesPoissonSpec Proofs.BayesP3.
From Coq Require Import Lra Lia.
Local Open Scope R_scope.

Lemma oneSided_eq b n u : 0 <= b -> oneSided b n u = posterior_below b n u.
Proof.
  intros H. unfold oneSided, gammaP, posterior_below. rewrite !series_eq. pose proof (at_most_pos n b H). field. lra.
Qed.
Lemma post_0 b n : 0 <= b -> posterior_below b n 0 = 0.
Proof. intros H. unfold posterior_below. rewrite Rplus_0_r. pose proof (at_most_pos n b H). field. lra. Qed.
Lemma post_step b n u d : 0 <= b -> 0 <= u -> 0 <= d ->
  posterior_below b n u <= posterior_below b n (u + d) /\ posterior_below b n (u + d) - posterior_below b n u <= d.
Proof.
  intros Hb Hu Hd. pose proof (at_most_pos n b Hb) as P. unfold posterior_below.
  pose proof (at_most_decr n (b + u) (b + (u + d)) ltac:(lra) ltac:(lra)) as D.
  pose proof (at_most_slow n (b + u) (b + (u + d)) ltac:(lra) ltac:(lra)) as S1.
  pose proof (at_most_decr n b (b + u) ltac:(lra) ltac:(lra)) as D2.
  replace (b + (u + d) - (b + u)) with d in S1 by ring.
  set (A := at_most n b) in *. set (B := at_most n (b + u)) in *. set (C := at_most n (b + (u + d))) in *.
  assert (I := Rinv_0_lt_compat A P). split.
  - unfold Rdiv. assert (C * / A <= B * / A) by (apply Rmult_le_compat_r; lra). lra.
  - replace (1 - C / A - (1 - B / A)) with ((B - C) / A) by (field; lra).
    apply Rmult_le_reg_r with A; [exact P|]. replace ((B - C) / A * A) with (B - C) by (field; lra). nra.
Qed.
Lemma post_range b n u : 0 <= b -> 0 <= u -> 0 <= posterior_below b n u /\ posterior_below b n u < 1.
Proof.
  intros Hb Hu. split.
  - rewrite <- (post_0 b n Hb) at 1. replace u with (0 + u) by ring. apply post_step; lra.
  - unfold posterior_below. pose proof (at_most_pos n b Hb) as P. pose proof (at_most_pos n (b + u) ltac:(lra)) as P2.
    assert (0 < at_most n (b + u) / at_most n b) by (apply Rmult_lt_0_compat; [exact P2|apply Rinv_0_lt_compat, P]). lra.
Qed.
Lemma post_reach b n cl tol : 0 <= b -> 0 < tol -> cl < 1 -> exists k, cl <= posterior_below b n (INR k * tol).
Proof.
  intros Hb Ht Hc. pose proof (at_most_pos n b Hb) as P. destruct (at_most_small n) as [C [PC S1]].
  set (A := at_most n b) in *. assert (PA : 0 < A * (1 - cl)) by (apply Rmult_lt_0_compat; lra).
  set (need := C / (A * (1 - cl))). assert (Pn : 0 < need) by (apply Rmult_lt_0_compat; [exact PC|apply Rinv_0_lt_compat, PA]).
  destruct (archimed_cor1 (tol / need)) as [k [Hk1 Hk2]]; [apply Rmult_lt_0_compat; [exact Ht|apply Rinv_0_lt_compat, Pn]|].
  assert (Hk : need < INR k * tol).
  { assert (Pk : 0 < INR k) by (apply lt_0_INR; exact Hk2).
    apply Rmult_lt_reg_r with (/ INR k * / need); [apply Rmult_lt_0_compat; apply Rinv_0_lt_compat; assumption|].
    replace (need * (/ INR k * / need)) with (/ INR k) by (field; lra). replace (INR k * tol * (/ INR k * / need)) with (tol / need) by (field; lra). exact Hk1. }
  exists k. unfold posterior_below. fold A.
  assert (Pm : need < b + INR k * tol) by lra. assert (P0 : 0 < b + INR k * tol) by lra.
  pose proof (S1 _ P0) as L. set (m := b + INR k * tol) in *.
  assert (L2 : C / m <= A * (1 - cl)).
  { apply Rmult_le_reg_r with m; [exact P0|]. replace (C / m * m) with C by (field; lra).
    replace C with (A * (1 - cl) * need) by (unfold need; field; lra). apply Rmult_le_compat_l; lra. }
  assert (at_most n m / A <= 1 - cl).
  { apply Rmult_le_reg_r with A; [exact P|]. replace (at_most n m / A * A) with (at_most n m) by (field; lra). lra. }
  lra.
Qed.
Lemma loop_pkg b n cl tol : 0 <= b -> forall k i fuel, (k <= fuel)%nat ->
  (forall j, (i <= j < i + k)%nat -> tol < Rabs (posterior_below b n (INR j * tol) - cl)) ->
  ~ tol < Rabs (posterior_below b n (INR (i + k) * tol) - cl) ->
  poissonLoop fuel b n cl tol (posterior_below b n (INR i * tol)) (INR i * tol) = Ok (INR (i + k) * tol).
Proof.
  intros Hb. induction k as [|k IH]; intros i fuel Hf Hlo Hhi.
  - replace (i + 0)%nat with i in * by lia. destruct fuel; cbn [poissonLoop]; destruct (Rlt_dec _ _); tauto.
  - destruct fuel as [|fuel]; [lia|]. cbn [poissonLoop]. destruct (Rlt_dec _ _) as [_|N]; [|destruct N; apply Hlo; lia].
    rewrite oneSided_eq by exact Hb. replace (INR i * tol + tol) with (INR (S i) * tol) by (rewrite S_INR; ring).
    replace (i + S k)%nat with (S i + k)%nat in * by lia. apply IH; [lia| |exact Hhi]. intros j Hj. apply Hlo. lia.
Qed.
Lemma first_nat (P : nat -> Prop) : (forall k, P k \/ ~ P k) -> forall k, P k -> exists m, (m <= k)%nat /\ P m /\ forall j, (j < m)%nat -> ~ P j.
Proof.
  intros D. assert (G : forall k, (exists m, (m < k)%nat /\ P m /\ forall j, (j < m)%nat -> ~ P j) \/ forall j, (j < k)%nat -> ~ P j).
  { induction k as [|k [[m [M1 M2]]|IH]]; [right; intros; lia|left; exists m; split; [lia|exact M2]|].
    destruct (D k) as [H|H]; [left; exists k; split; [lia|split; assumption]|]. right. intros j Hj. destruct (Nat.eq_dec j k) as [->|]; [exact H|apply IH; lia]. }
  intros k H. destruct (G (S k)) as [[m [M1 M2]]|N]; [exists m; split; [lia|exact M2]|]. destruct (N k); [lia|exact H].
Qed.
Lemma poisson_pkg b n cl tol : 0 <= b -> 0 < tol -> 0 <= cl -> cl < 1 ->
  exists k, (forall fuel, (k <= fuel)%nat -> poissonUpper fuel b n cl tol = Ok (INR k * tol)) /\
    Rabs (posterior_below b n (INR k * tol) - cl) <= tol /\
    (tol < cl -> posterior_below b n (INR k * tol) < cl) /\
    (forall j, (j < k)%nat -> posterior_below b n (INR j * tol) < cl - tol).
Proof.
  intros Hb Ht H0 H1.
  destruct (post_reach b n cl tol Hb Ht H1) as [k0 K0].
  destruct (first_nat (fun k => cl - tol <= posterior_below b n (INR k * tol))) with (k := k0) as [k [_ [K1 K2]]]; [intros k; lra|lra|].
  assert (Hpos : forall j : nat, 0 <= INR j * tol) by (intros j; apply Rmult_le_pos; [apply pos_INR|lra]).
  assert (Up : posterior_below b n (INR k * tol) <= cl + tol /\ (tol < cl -> posterior_below b n (INR k * tol) < cl)).
  { destruct k as [|k].
    - cbn [INR] in *. rewrite Rmult_0_l, post_0 in * by exact Hb. split; lra.
    - specialize (K2 k ltac:(lia)). pose proof (post_step b n (INR k * tol) tol Hb (Hpos k) ltac:(lra)) as [_ S1].
      replace (INR k * tol + tol) with (INR (S k) * tol) in S1 by (rewrite S_INR; ring). split; lra. }
  destruct Up as [U1 U2]. exists k. split; [|split; [|split]].
  - intros fuel Hf. unfold poissonUpper. rewrite <- (post_0 b n Hb).
    replace (posterior_below b n 0) with (posterior_below b n (INR 0 * tol)) by (cbn [INR]; rewrite Rmult_0_l; reflexivity).
    replace (poissonLoop fuel b n cl tol (posterior_below b n (INR 0 * tol)) (posterior_below b n (INR 0 * tol)))
      with (poissonLoop fuel b n cl tol (posterior_below b n (INR 0 * tol)) (INR 0 * tol))
      by (cbn [INR]; rewrite Rmult_0_l, post_0 by exact Hb; reflexivity).
    apply (loop_pkg b n cl tol Hb k 0 fuel Hf).
    + intros j Hj. specialize (K2 j ltac:(lia)). rewrite Rabs_left1; lra.
    + cbn [Nat.add]. intros L. unfold Rabs in L. destruct (Rcase_abs _); lra.
  - unfold Rabs. destruct (Rcase_abs _); lra.
  - exact U2.
  - intros j Hj. specialize (K2 j Hj). lra.
Qed.
(** what [posterior_below] is: 0 at 0, derivative = likelihood over its normalisation, 1 at infinity *)
Lemma density_pkg b n u : derivable_pt_lim (posterior_below b n) u (exactly n (b + u) / at_most n b).
Proof.
  assert (D1 : derivable_pt_lim (fun u => at_most n (b + u)) u (- exactly n (b + u) * 1)).
  { apply (derivable_pt_lim_comp (fun u => b + u) (at_most n)); [|apply derive_at_most].
    replace 1 with (0 + 1) by ring. apply derivable_pt_lim_plus; [apply derivable_pt_lim_const|apply derivable_pt_lim_id]. }
  assert (D2 := derivable_pt_lim_scal _ (/ at_most n b) _ _ D1).
  assert (D3 := derivable_pt_lim_minus (fun _ => 1) _ _ _ _ (derivable_pt_lim_const 1 u) D2).
  replace (exactly n (b + u) / at_most n b) with (0 - / at_most n b * (- exactly n (b + u) * 1)) by (unfold Rdiv; ring).
  intros eps He. destruct (D3 eps He) as [d Hd]. exists d. intros h X1 X2. specialize (Hd h X1 X2).
  unfold minus_fct, mult_real_fct in Hd. unfold posterior_below, Rdiv.
  replace (at_most n (b + (u + h)) * / at_most n b) with (/ at_most n b * at_most n (b + (u + h))) by ring.
  replace (at_most n (b + u) * / at_most n b) with (/ at_most n b * at_most n (b + u)) by ring. exact Hd.
Qed.
(** a tolerance of 0 never moves *)
Lemma stuck_pkg fuel b n cl : 0 < cl -> poissonUpper fuel b n cl 0 = Diverge.
Proof.
  intros Hc. unfold poissonUpper.
  assert (G : forall fuel, poissonLoop fuel b n cl 0 (oneSided b n 0) 0 = Diverge \/ True) by auto.
  destruct fuel as [|fuel]; cbn [poissonLoop].
  - destruct (Rlt_dec _ _) as [_|N]; [reflexivity|]. destruct N. rewrite Rabs_left; lra.
  - destruct (Rlt_dec _ _) as [_|N]; [|destruct N; rewrite Rabs_left; lra].
    replace (0 + 0) with 0 by ring. assert (O : oneSided b n 0 = 0). { unfold oneSided. rewrite Rplus_0_r. unfold Rdiv. replace (gammaP n b - gammaP n b) with 0 by ring. ring. }
    rewrite O. clear G. induction fuel as [|fuel IH]; cbn [poissonLoop].
    + destruct (Rlt_dec _ _) as [_|N]; [reflexivity|]. destruct N. rewrite Rabs_left; lra.
    + destruct (Rlt_dec _ _) as [_|N]; [|destruct N; rewrite Rabs_left; lra]. replace (0 + 0) with 0 by ring. rewrite O. exact IH.
Qed.
(** asking for more than certainty never ends *)
Lemma never_pkg fuel b n cl tol : 0 <= b -> 0 < tol -> 1 + tol <= cl -> poissonUpper fuel b n cl tol = Diverge.
Proof.
  intros Hb Ht Hc. unfold poissonUpper.
  assert (G : forall fuel u c, 0 <= u -> c < 1 -> poissonLoop fuel b n cl tol c u = Diverge).
  { clear fuel. induction fuel as [|fuel IH]; intros u c Hu H; cbn [poissonLoop].
    - destruct (Rlt_dec _ _) as [_|N]; [reflexivity|]. destruct N. rewrite Rabs_left; lra.
    - destruct (Rlt_dec _ _) as [_|N]; [|destruct N; rewrite Rabs_left; lra]. apply IH; [lra|]. rewrite oneSided_eq by exact Hb. apply post_range; lra. }
  apply G; lra.
Qed.
