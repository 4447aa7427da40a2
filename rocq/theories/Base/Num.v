(** Exact numbers standing for C++ doubles: canonical rationals (Leibniz equality, computable,
    no axioms) plus decision procedures.  Not repo content. *)
From Coq Require Export QArith Qcanon Lqa.
From Coq Require Import ZArith List Lia Bool Permutation.
Import ListNotations.

Definition qc := Qc.
Definition qleb (x y : Qc) : bool := Qle_bool (this x) (this y).
Definition qltb (x y : Qc) : bool := negb (qleb y x).
Definition qeqb (x y : Qc) : bool := Qeq_bool (this x) (this y).
Definition qmin (x y : Qc) : Qc := if qleb x y then x else y.
Definition qmax (x y : Qc) : Qc := if qleb x y then y else x.
Definition qz (z : Z) : Qc := Q2Qc (inject_Z z).
Definition qn (n : nat) : Qc := qz (Z.of_nat n).
Definition qhalf : Qc := Q2Qc (1 # 2).
Definition qabs (x : Qc) : Qc := if qltb x (Q2Qc 0) then Qcopp x else x.
(** [qq a b] is the fraction a/b, for writing examples *)
Definition qq (a : Z) (b : positive) : Qc := Q2Qc (a # b).

Lemma this_add x y : (this (x + y)%Qc == this x + this y)%Q.
Proof. unfold Qcplus, Q2Qc; cbn [this]; apply Qred_correct. Qed.
Lemma this_mul x y : (this (x * y)%Qc == this x * this y)%Q.
Proof. unfold Qcmult, Q2Qc; cbn [this]; apply Qred_correct. Qed.
Lemma this_opp x : (this (- x)%Qc == - this x)%Q.
Proof. unfold Qcopp, Q2Qc; cbn [this]; apply Qred_correct. Qed.
Lemma this_sub x y : (this (x - y)%Qc == this x - this y)%Q.
Proof. unfold Qcminus. rewrite this_add, this_opp. reflexivity. Qed.
Lemma this_inv x : (this (/ x)%Qc == / this x)%Q.
Proof. unfold Qcinv, Q2Qc; cbn [this]; apply Qred_correct. Qed.
Lemma this_div x y : (this (x / y)%Qc == this x * this (/ y)%Qc)%Q.
Proof. unfold Qcdiv. rewrite this_mul. reflexivity. Qed.
Lemma this_Q2Qc q : (this (Q2Qc q) == q)%Q.
Proof. apply Qred_correct. Qed.
Lemma Qc_eq_this (x y : Qc) : x = y -> (this x == this y)%Q.
Proof. intros ->; reflexivity. Qed.
Lemma this_qz z : (this (qz z) == inject_Z z)%Q.
Proof. unfold qz; apply this_Q2Qc. Qed.
Lemma this_qn n : (this (qn n) == inject_Z (Z.of_nat n))%Q.
Proof. apply this_qz. Qed.
Lemma this_half : (this qhalf == 1 # 2)%Q.
Proof. reflexivity. Qed.
Lemma Qcneq_this (x y : Qc) : x <> y -> ~ (this x == this y)%Q.
Proof. intros H E; apply H, Qc_is_canon, E. Qed.

Lemma qleb_le x y : qleb x y = true <-> (x <= y)%Qc.
Proof. unfold qleb, Qcle; apply Qle_bool_iff. Qed.
Lemma qleb_gt x y : qleb x y = false <-> (y < x)%Qc.
Proof.
  split; intros H.
  - apply Qcnot_le_lt; intros C; apply qleb_le in C; congruence.
  - destruct (qleb x y) eqn:E; [|reflexivity].
    apply qleb_le in E. exfalso; apply (Qcle_not_lt _ _ E H).
Qed.
Lemma qltb_lt x y : qltb x y = true <-> (x < y)%Qc.
Proof. unfold qltb; rewrite negb_true_iff; apply qleb_gt. Qed.
Lemma qltb_ge x y : qltb x y = false <-> (y <= x)%Qc.
Proof. unfold qltb; rewrite negb_false_iff; apply qleb_le. Qed.
Lemma qeqb_eq x y : qeqb x y = true <-> x = y.
Proof.
  unfold qeqb; rewrite Qeq_bool_iff; split; [apply Qc_is_canon | apply Qc_eq_this].
Qed.
Lemma qeqb_neq x y : qeqb x y = false <-> x <> y.
Proof.
  rewrite <- (qeqb_eq x y); destruct (qeqb x y); split; congruence.
Qed.
Lemma qeqb_refl x : qeqb x x = true.
Proof. now apply qeqb_eq. Qed.

Inductive qle_spec (x y : Qc) : bool -> Prop :=
| qle_t : (x <= y)%Qc -> qle_spec x y true
| qle_f : (y < x)%Qc -> qle_spec x y false.
Lemma qleb_spec x y : qle_spec x y (qleb x y).
Proof. destruct (qleb x y) eqn:E; constructor; [now apply qleb_le | now apply qleb_gt]. Qed.
Inductive qlt_spec (x y : Qc) : bool -> Prop :=
| qlt_t : (x < y)%Qc -> qlt_spec x y true
| qlt_f : (y <= x)%Qc -> qlt_spec x y false.
Lemma qltb_spec x y : qlt_spec x y (qltb x y).
Proof. destruct (qltb x y) eqn:E; constructor; [now apply qltb_lt | now apply qltb_ge]. Qed.

(** push every Qc fact down to Q, recording one equation per compound subterm, for lra/nra *)
Ltac q_eqs t :=
  match t with
  | Qcplus ?a ?b => q_eqs a; q_eqs b; pose proof (this_add a b)
  | Qcmult ?a ?b => q_eqs a; q_eqs b; pose proof (this_mul a b)
  | Qcminus ?a ?b => q_eqs a; q_eqs b; pose proof (this_sub a b)
  | Qcdiv ?a ?b => q_eqs a; q_eqs b; pose proof (this_div a b)
  | Qcopp ?a => q_eqs a; pose proof (this_opp a)
  | qhalf => pose proof this_half
  | qn ?n => pose proof (this_qn n)
  | qz ?n => pose proof (this_qz n)
  | Q2Qc ?q => pose proof (this_Q2Qc q)
  | _ => idtac
  end.
Ltac q_prep :=
  intros;
  repeat match goal with
  | H : @eq Qc ?x ?y |- _ => q_eqs x; q_eqs y; apply Qc_eq_this in H
  | H : ~ (Qcle ?x ?y) |- _ => apply Qcnot_le_lt in H
  | H : ~ (Qclt ?x ?y) |- _ => apply Qcnot_lt_le in H
  | H : Qcle ?x ?y |- _ => q_eqs x; q_eqs y; change (Qle (this x) (this y)) in H
  | H : Qclt ?x ?y |- _ => q_eqs x; q_eqs y; change (Qlt (this x) (this y)) in H
  | H : qleb ?x ?y = true |- _ => apply qleb_le in H
  | H : qleb ?x ?y = false |- _ => apply qleb_gt in H
  | H : qltb ?x ?y = true |- _ => apply qltb_lt in H
  | H : qltb ?x ?y = false |- _ => apply qltb_ge in H
  | H : qeqb ?x ?y = true |- _ => apply qeqb_eq in H
  end;
  match goal with
  | |- @eq Qc ?x ?y => q_eqs x; q_eqs y; apply Qc_is_canon
  | |- Qcle ?x ?y => q_eqs x; q_eqs y; change (Qle (this x) (this y))
  | |- Qclt ?x ?y => q_eqs x; q_eqs y; change (Qlt (this x) (this y))
  | |- ~ (@eq Qc ?x ?y) =>
      let H := fresh in intro H; q_eqs x; q_eqs y; apply Qc_eq_this in H
  | _ => idtac
  end.
Ltac qlra := q_prep; lra.
Ltac qnra := q_prep; nra.

Lemma qn_add a b : qn (a + b) = (qn a + qn b)%Qc.
Proof.
  unfold qn, qz. apply Qc_is_canon. rewrite this_add, !this_Q2Qc, Nat2Z.inj_add, inject_Z_plus. reflexivity.
Qed.
Lemma qn_mul a b : qn (a * b) = (qn a * qn b)%Qc.
Proof.
  unfold qn, qz. apply Qc_is_canon. rewrite this_mul, !this_Q2Qc, Nat2Z.inj_mul, inject_Z_mult. reflexivity.
Qed.
Lemma qn_0 : qn 0 = Q2Qc 0. Proof. reflexivity. Qed.
Lemma qn_1 : qn 1 = Q2Qc 1. Proof. reflexivity. Qed.
Lemma qn_S n : qn (S n) = (qn n + Q2Qc 1)%Qc.
Proof. replace (S n) with (n + 1)%nat by lia. rewrite qn_add. reflexivity. Qed.
Lemma qn_le a b : (a <= b)%nat <-> (qn a <= qn b)%Qc.
Proof.
  unfold Qcle. rewrite !this_qn. rewrite <- Zle_Qle. lia.
Qed.
Lemma qn_lt a b : (a < b)%nat <-> (qn a < qn b)%Qc.
Proof.
  unfold Qclt. rewrite !this_qn. rewrite <- Zlt_Qlt. lia.
Qed.
Lemma qn_inj a b : qn a = qn b -> a = b.
Proof.
  intros H. apply Qc_eq_this in H. rewrite !this_qn in H.
  unfold Qeq in H; cbn in H. lia.
Qed.
Lemma qn_pos n : (0 < n)%nat <-> (Q2Qc 0 < qn n)%Qc.
Proof. rewrite <- qn_0. apply qn_lt. Qed.
Lemma qn_nonneg n : (Q2Qc 0 <= qn n)%Qc.
Proof. rewrite <- qn_0. apply qn_le. lia. Qed.

Lemma qmin_l x y : (qmin x y <= x)%Qc.
Proof. unfold qmin; destruct (qleb_spec x y); qlra. Qed.
Lemma qmin_r x y : (qmin x y <= y)%Qc.
Proof. unfold qmin; destruct (qleb_spec x y); qlra. Qed.
Lemma qmax_l x y : (x <= qmax x y)%Qc.
Proof. unfold qmax; destruct (qleb_spec x y); qlra. Qed.
Lemma qmax_r x y : (y <= qmax x y)%Qc.
Proof. unfold qmax; destruct (qleb_spec x y); qlra. Qed.

(** sum of a list: std::accumulate with a floating start value *)
Fixpoint qsum (l : list Qc) : Qc :=
  match l with [] => Q2Qc 0 | x :: t => (x + qsum t)%Qc end.

Lemma qsum_app a b : qsum (a ++ b) = (qsum a + qsum b)%Qc.
Proof. induction a as [|x a IH]; cbn [qsum app]; [ring|rewrite IH; ring]. Qed.
Lemma qsum_map_add {A} (f g : A -> Qc) l :
  qsum (map (fun x => (f x + g x)%Qc) l) = (qsum (map f l) + qsum (map g l))%Qc.
Proof. induction l as [|x l IH]; cbn [qsum map]; [ring|rewrite IH; ring]. Qed.
Lemma qsum_map_mul {A} k (f : A -> Qc) l :
  qsum (map (fun x => (k * f x)%Qc) l) = (k * qsum (map f l))%Qc.
Proof. induction l as [|x l IH]; cbn [qsum map]; [ring|rewrite IH; ring]. Qed.
Lemma qsum_map_ext {A} (f g : A -> Qc) l :
  (forall x, In x l -> f x = g x) -> qsum (map f l) = qsum (map g l).
Proof.
  induction l as [|x l IH]; cbn [qsum map]; intros H; [reflexivity|].
  rewrite (H x) by (now left). rewrite IH; [reflexivity|]. intros y Hy; apply H; now right.
Qed.
Lemma qsum_map_0 {A} (f : A -> Qc) l :
  (forall x, In x l -> f x = Q2Qc 0) -> qsum (map f l) = Q2Qc 0.
Proof.
  induction l as [|x l IH]; cbn [qsum map]; intros H; [reflexivity|].
  rewrite (H x) by (now left). rewrite IH; [ring|]. intros y Hy; apply H; now right.
Qed.
Lemma qsum_nonneg l : (forall x, In x l -> (Q2Qc 0 <= x)%Qc) -> (Q2Qc 0 <= qsum l)%Qc.
Proof.
  induction l as [|x l IH]; cbn [qsum]; intros H; [qlra|].
  assert (Q2Qc 0 <= x)%Qc by (apply H; now left).
  assert (Q2Qc 0 <= qsum l)%Qc by (apply IH; intros; apply H; now right). qlra.
Qed.
Lemma qsum_map_swap {A B} (f : A -> B -> Qc) la lb :
  qsum (map (fun a => qsum (map (fun b => f a b) lb)) la) =
  qsum (map (fun b => qsum (map (fun a => f a b) la)) lb).
Proof.
  induction la as [|a la IH]; cbn [qsum map].
  - symmetry; apply qsum_map_0; reflexivity.
  - rewrite IH. rewrite <- qsum_map_add. reflexivity.
Qed.
(** one-hot sum *)
Lemma qsum_seq_single (g : nat -> Qc) j : forall n s, (s <= j < s + n)%nat ->
  qsum (map (fun i => if Nat.eqb i j then g i else Q2Qc 0) (seq s n)) = g j.
Proof.
  induction n as [|n IH]; intros s Hj; [lia|].
  cbn [seq map qsum]. destruct (Nat.eqb_spec s j) as [->|Hne].
  - rewrite qsum_map_0; [ring|]. intros x Hx. apply in_seq in Hx.
    destruct (Nat.eqb_spec x j); [lia|reflexivity].
  - rewrite IH by lia. ring.
Qed.
Lemma qsum_perm l l' : Permutation l l' -> qsum l = qsum l'.
Proof.
  induction 1 as [|x l l' _ IH|x y l|l1 l2 l3 _ IH1 _ IH2]; cbn [qsum].
  - reflexivity.
  - now rewrite IH.
  - ring.
  - congruence.
Qed.
