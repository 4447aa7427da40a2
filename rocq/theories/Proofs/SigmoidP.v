From Coq Require Import Reals.
From Verif Require Import Base.Res Base.Num Base.RNum Base.SMap Model.Sigmoid Spec.SigmoidSpec.
From Coq Require Import Lra.
Local Open Scope R_scope.

Lemma soft_pos z : 0 < ln (1 + exp z).
Proof. pose proof (exp_pos z). pose proof (ln_increasing 1 (1 + exp z) Rlt_0_1 ltac:(lra)) as H0. rewrite ln_1 in H0. exact H0. Qed.
Lemma soft_id z : z <= ln (1 + exp z).
Proof. pose proof (exp_pos z). pose proof (ln_increasing (exp z) (1 + exp z) (exp_pos z) ltac:(lra)) as H0. rewrite ln_exp in H0. lra. Qed.
Lemma soft_up z : ln (1 + exp z) <= Rmax 0 z + ln 2.
Proof.
  pose proof (exp_pos z) as P. destruct (Rle_dec z 0) as [H|H].
  - rewrite Rmax_left by lra. rewrite Rplus_0_l.
    assert (exp z <= 1). { rewrite <- exp_0. destruct (Req_dec z 0) as [->|N]; [lra|]. left. apply exp_increasing. lra. }
    destruct (Req_dec (exp z) 1) as [E|N]; [rewrite E; replace (1 + 1) with 2 by ring; lra|]. left. apply ln_increasing; lra.
  - rewrite Rmax_right by lra. assert (1 < exp z) by (rewrite <- exp_0; apply exp_increasing; lra).
    pose proof (ln_increasing (1 + exp z) (exp z * 2) ltac:(lra) ltac:(lra)) as H1. rewrite ln_mult, ln_exp in H1 by lra. lra.
Qed.
Lemma soft_low z : Rmax 0 z <= ln (1 + exp z).
Proof. apply Rmax_lub; [left; apply soft_pos|apply soft_id]. Qed.
Lemma rmax_scale mu z : 0 <= mu -> Rmax 0 (mu * z) = mu * Rmax 0 z.
Proof. intros H. rewrite <- RmaxRmult by exact H. rewrite Rmult_0_r. reflexivity. Qed.

Lemma low_bounds mu p l : 0 <= mu -> forall a,
  a + mu * below_walls p l <= lowTerms mu p l a /\ lowTerms mu p l a <= a + mu * below_walls p l + INR (List.length l) * ln 2.
Proof.
  intros Hm. induction l as [|[k m] t IH]; intros a; cbn [lowTerms below_walls]; [cbn [List.length INR]; lra|].
  specialize (IH (a + ln (1 + exp (- mu * (rget k p - m))))).
  change (rget k p) with (coord k p) in *.
  pose proof (soft_low (- mu * (coord k p - m))) as L. pose proof (soft_up (- mu * (coord k p - m))) as U.
  replace (- mu * (coord k p - m)) with (mu * (m - coord k p)) in * by ring. rewrite rmax_scale in L, U by exact Hm.
  change (List.length ((k, m) :: t)) with (S (List.length t)). rewrite S_INR. nra.
Qed.
Lemma high_bounds mu p l : 0 <= mu -> forall a,
  a + mu * above_walls p l <= highTerms mu p l a /\ highTerms mu p l a <= a + mu * above_walls p l + INR (List.length l) * ln 2.
Proof.
  intros Hm. induction l as [|[k m] t IH]; intros a; cbn [highTerms above_walls]; [cbn [List.length INR]; lra|].
  specialize (IH (a + ln (1 + exp (mu * (rget k p - m))))).
  change (rget k p) with (coord k p) in *.
  pose proof (soft_low (mu * (coord k p - m))) as L. pose proof (soft_up (mu * (coord k p - m))) as U.
  rewrite rmax_scale in L, U by exact Hm.
  change (List.length ((k, m) :: t)) with (S (List.length t)). rewrite S_INR. nra.
Qed.
Lemma walls_zero p mi ma : within_walls p mi ma -> below_walls p mi = 0 /\ above_walls p ma = 0.
Proof.
  intros [Hl Hh]. split.
  - clear Hh. induction mi as [|[k m] t IH]; cbn [below_walls]; [reflexivity|].
    rewrite IH by (intros k' m' H; apply Hl; right; exact H). pose proof (Hl k m (or_introl eq_refl)). rewrite Rmax_left by lra. lra.
  - clear Hl. induction ma as [|[k m] t IH]; cbn [above_walls]; [reflexivity|].
    rewrite IH by (intros k' m' H; apply Hh; right; exact H). pose proof (Hh k m (or_introl eq_refl)). rewrite Rmax_left by lra. lra.
Qed.
Lemma eval_pkg energy mu mi ma p e : 0 <= mu -> energy p = Ok e ->
  exists v, sigmoidEval energy mu mi ma p = Ok v /\
    e + mu * (below_walls p mi + above_walls p ma) <= v /\
    v <= e + mu * (below_walls p mi + above_walls p ma) + INR (List.length mi + List.length ma) * ln 2 /\
    (within_walls p mi ma -> e <= v /\ v <= e + INR (List.length mi + List.length ma) * ln 2).
Proof.
  intros Hm E. unfold sigmoidEval. rewrite E. cbn [bind]. eexists. split; [reflexivity|].
  pose proof (low_bounds mu p mi Hm e) as L. pose proof (high_bounds mu p ma Hm (lowTerms mu p mi e)) as H.
  rewrite plus_INR. split; [nra|]. split; [nra|]. intros W. destruct (walls_zero p mi ma W) as [Z1 Z2]. rewrite Z1 in L. rewrite Z2 in H. nra.
Qed.
Lemma fail_pkg energy mu mi ma p : (forall e, energy p <> Ok e) -> forall v, sigmoidEval energy mu mi ma p <> Ok v.
Proof. intros H v. unfold sigmoidEval. destruct (energy p) as [e| | | |]; cbn [bind]; try discriminate. destruct (H e eq_refl). Qed.
Lemma none_pkg energy mu p : sigmoidEval energy mu [] [] p = energy p.
Proof. unfold sigmoidEval. destruct (energy p); reflexivity. Qed.
