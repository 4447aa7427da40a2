(** Real numbers for the few formulas that leave the rationals (log, sqrt).  Not repo content. *)
From Coq Require Import Reals Qreals Lra QArith Qcanon.
From Verif Require Import Base.Num.
Local Open Scope R_scope.

(** a rational as a real *)
Definition qr (x : Qc) : R := Q2R (this x).
Lemma qr_plus x y : qr (x + y)%Qc = qr x + qr y.
Proof. unfold qr. rewrite <- Q2R_plus. apply Qeq_eqR, this_add. Qed.
Lemma qr_mult x y : qr (x * y)%Qc = qr x * qr y.
Proof. unfold qr. rewrite <- Q2R_mult. apply Qeq_eqR, this_mul. Qed.
Lemma qr_opp x : qr (- x)%Qc = - qr x.
Proof. unfold qr. rewrite <- Q2R_opp. apply Qeq_eqR, this_opp. Qed.
Lemma qr_minus x y : qr (x - y)%Qc = qr x - qr y.
Proof. unfold Qcminus. rewrite qr_plus, qr_opp. reflexivity. Qed.
Lemma qr_inj x y : qr x = qr y -> x = y.
Proof. intros H. apply Qc_is_canon. apply eqR_Qeq. exact H. Qed.
Lemma qr_z z : qr (qz z) = IZR z.
Proof.
  unfold qr. rewrite (Qeq_eqR _ _ (this_qz z)). unfold Q2R, inject_Z. cbn. field.
Qed.
Lemma qr_0 : qr 0%Qc = 0.
Proof. exact (qr_z 0). Qed.
Lemma qr_1 : qr 1%Qc = 1.
Proof. exact (qr_z 1). Qed.
Lemma qr_n n : qr (qn n) = INR n.
Proof. unfold qn. rewrite qr_z. symmetry. apply INR_IZR_INZ. Qed.
Lemma qr_lt x y : (x < y)%Qc <-> qr x < qr y.
Proof. split; [apply Qlt_Rlt|apply Rlt_Qlt]. Qed.
Lemma qr_le x y : (x <= y)%Qc <-> qr x <= qr y.
Proof. split; [apply Qle_Rle|apply Rle_Qle]. Qed.
Lemma qr_neq x y : x <> y -> qr x <> qr y.
Proof. intros H E. apply H, qr_inj, E. Qed.
Lemma qr_inv x : x <> 0%Qc -> qr (/ x)%Qc = / qr x.
Proof.
  intros H. assert (N : qr x <> 0) by (rewrite <- qr_0; apply qr_neq; exact H).
  apply Rmult_eq_reg_l with (qr x); [|exact N]. rewrite <- qr_mult, Qcmult_inv_r by exact H. rewrite qr_1. field. exact N.
Qed.
Lemma qr_div x y : y <> 0%Qc -> qr (x / y)%Qc = qr x / qr y.
Proof. intros H. unfold Qcdiv. rewrite qr_mult, qr_inv by exact H. reflexivity. Qed.
(** sum of a list *)
Fixpoint rsum (l : list R) : R := match l with nil => 0 | cons x t => x + rsum t end.
