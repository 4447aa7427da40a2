(** The rounding of Model/Float.v is the one of the Flocq library. *)
From Coq Require Import ZArith QArith Qcanon Qround Reals Qreals Lia.
From Flocq Require Import Core.
From Verif Require Import Base.Res Base.Num Base.RNum Model.Float.
From Coq Require Import Lra.
Local Open Scope R_scope.

Lemma qr_two_pow e : qr (two_pow e) = bpow radix2 e.
Proof.
  unfold two_pow. destruct (Z.leb_spec 0 e).
  - rewrite qr_z. rewrite <- IZR_Zpower by exact H. reflexivity.
  - rewrite qr_inv.
    + rewrite qr_z. change (2 ^ - e)%Z with (Zpower radix2 (- e)). rewrite IZR_Zpower by lia. rewrite bpow_opp. apply Rinv_inv.
    + intros C. apply (f_equal qr) in C. rewrite qr_z, qr_0 in C. change (2 ^ - e)%Z with (Zpower radix2 (- e)) in C. rewrite IZR_Zpower in C by lia. pose proof (bpow_gt_0 radix2 (- e)). lra.
Qed.
Lemma qr_abs x : qr (qabs x) = Rabs (qr x).
Proof.
  unfold qabs. destruct (qltb_spec x (Q2Qc 0)) as [H|H].
  - rewrite qr_opp. apply qr_lt in H. rewrite qr_0 in H. now rewrite Rabs_left.
  - apply qr_le in H. rewrite qr_0 in H. rewrite Rabs_right by lra. reflexivity.
Qed.
Lemma log2_bounds n : (0 < n)%Z -> bpow radix2 (Z.log2 n) <= IZR n < bpow radix2 (Z.log2 n + 1).
Proof.
  intros H. pose proof (Z.log2_spec n H) as [A B]. pose proof (Z.log2_nonneg n). rewrite <- !IZR_Zpower by lia. split; [apply IZR_le; exact A|apply IZR_lt; exact B].
Qed.
Lemma abs_frac x : Rabs (qr x) = IZR (Z.abs (Qnum (this x))) / IZR (Z.pos (Qden (this x))).
Proof.
  unfold qr, Q2R. rewrite Rabs_mult, abs_IZR. unfold Rdiv. apply f_equal2; [reflexivity|]. rewrite Rabs_right; [reflexivity|]. apply Rle_ge, Rlt_le, Rinv_0_lt_compat, IZR_lt. reflexivity.
Qed.
Lemma qr_zero x : qr x = 0 -> x = 0%Qc.
Proof. intros H. apply qr_inj. rewrite H. symmetry. exact qr_0. Qed.
Lemma mag2_ok x : x <> 0%Qc -> mag2 x = mag radix2 (qr x).
Proof.
  intros Hx. symmetry. apply mag_unique. unfold mag2. set (a := Z.log2 (Z.abs (Qnum (this x)))). set (b := Z.log2 (Z.pos (Qden (this x)))).
  assert (Hn : (0 < Z.abs (Qnum (this x)))%Z).
  { assert (Qnum (this x) <> 0)%Z; [|lia]. intros E. apply Hx. apply qr_zero. unfold qr, Q2R. rewrite E. lra. }
  destruct (log2_bounds _ Hn) as [A1 A2]. fold a in A1, A2. destruct (log2_bounds (Z.pos (Qden (this x)))) as [B1 B2]; [reflexivity|]. fold b in B1, B2.
  assert (B0 : 0 < IZR (Z.pos (Qden (this x)))) by (apply IZR_lt; reflexivity).
  pose proof (abs_frac x) as E. set (N := IZR (Z.abs (Qnum (this x)))) in *. set (Dn := IZR (Z.pos (Qden (this x)))) in *.
  pose proof (bpow_gt_0 radix2 a) as Pa. pose proof (bpow_gt_0 radix2 b) as Pb.
  assert (E1 : N = Rabs (qr x) * Dn) by (rewrite E; field; lra).
  assert (L : bpow radix2 (a - b - 1) < Rabs (qr x)).
  { apply Rmult_lt_reg_r with Dn; [exact B0|]. rewrite <- E1. apply Rlt_le_trans with (2 := A1). apply Rlt_le_trans with (bpow radix2 (a - b - 1) * bpow radix2 (b + 1)); [apply Rmult_lt_compat_l; [apply bpow_gt_0|exact B2]|]. rewrite <- bpow_plus. apply bpow_le. lia. }
  assert (U : Rabs (qr x) < bpow radix2 (a - b + 1)).
  { apply Rmult_lt_reg_r with Dn; [exact B0|]. rewrite <- E1. apply Rlt_le_trans with (1 := A2). apply Rle_trans with (bpow radix2 (a - b + 1) * bpow radix2 b); [rewrite <- bpow_plus; apply bpow_le; lia|]. apply Rmult_le_compat_l; [apply bpow_ge_0|exact B1]. }
  destruct (qleb_spec (two_pow (a - b)) (qabs x)) as [H|H].
  - apply qr_le in H. rewrite qr_two_pow, qr_abs in H. replace (a - b + 1 - 1)%Z with (a - b)%Z by lia. split; assumption.
  - apply qr_lt in H. rewrite qr_two_pow, qr_abs in H. split; [lra|exact H].
Qed.
Lemma nearest_ok x : nearest_even x = ZnearestE (qr x).
Proof.
  unfold nearest_even, Znearest. set (f := Qfloor (this x)).
  assert (F : Zfloor (qr x) = f).
  { apply Zfloor_imp. split.
    - pose proof (Qfloor_le (this x)) as H. apply Qle_Rle in H. unfold f, qr. unfold inject_Z in H. unfold Q2R at 1 in H. cbn in H. lra.
    - pose proof (Qlt_floor (this x)) as H. apply Qlt_Rlt in H. unfold f, qr. unfold inject_Z in H. unfold Q2R at 2 in H. cbn in H. lra. }
  rewrite F. assert (Sf : Q2R (inject_Z f) = IZR f) by (unfold Q2R, inject_Z; cbn; lra).
  assert (Sd : Q2R (this x - inject_Z f) = qr x - IZR f) by (rewrite Q2R_minus, Sf; reflexivity).
  assert (Sh : Q2R (1 # 2) = / 2) by (unfold Q2R; cbn; lra).
  assert (Ce : qr x - IZR f <> 0 -> Zceil (qr x) = (f + 1)%Z) by (intros H; rewrite Zceil_floor_neq, F; [reflexivity|rewrite F; intros C; apply H; rewrite C; ring]).
  destruct (Qcompare_spec (this x - inject_Z f) (1 # 2)) as [H|H|H].
  - apply Qeq_eqR in H. rewrite Sd, Sh in H. rewrite Rcompare_Eq by exact H. rewrite Ce by lra. now destruct (Z.even f).
  - apply Qlt_Rlt in H. rewrite Sd, Sh in H. now rewrite Rcompare_Lt by exact H.
  - apply Qlt_Rlt in H. rewrite Sd, Sh in H. rewrite Rcompare_Gt by exact H. rewrite Ce by lra. reflexivity.
Qed.
Lemma rne_ok fexp x : qr (rne fexp x) = round radix2 fexp ZnearestE (qr x).
Proof.
  unfold rne. destruct (qeqb x 0) eqn:E.
  - apply qeqb_eq in E. subst x. rewrite qr_0, round_0 by apply valid_rnd_N. reflexivity.
  - apply qeqb_neq in E. rewrite qr_mult, qr_z, qr_two_pow, nearest_ok, qr_mult, qr_two_pow. rewrite (mag2_ok x E). reflexivity.
Qed.
