(** Vocabulary for the properties that hold in spite of rounding (C100-C103). *)
From Coq Require Import ZArith QArith Qcanon.
From Verif Require Import Base.Res Base.Num Base.SMap Model.Axis Model.Hist Model.Grid Model.Float Spec.AxisSpec Spec.HistSpec Spec.GridSpec.
Local Open Scope Qc_scope.

(** what every IEEE rounding direction satisfies as long as nothing overflows: it respects the order, keeps zero and does
    not change a number that is already a double *)
Definition rounding (r : Qc -> Qc) : Prop :=
  (forall x y, x <= y -> r x <= r y) /\ r 0 = 0 /\ (forall x, r (r x) = r x).
(** the whole numbers up to N are doubles *)
Definition exact_to (N : Z) (r : Qc -> Qc) : Prop := forall k, (0 <= k <= N)%Z -> r (qz k) = qz k.
(** the relative error of one operation is at most u (no underflow) *)
Definition within (u : Qc) (r : Qc -> Qc) : Prop := forall x, qabs (r x - x) <= u * qabs x.
(** a history of Fill calls *)
Fixpoint fillsF (r : Qc -> Qc) (h : hist) (l : list (list Qc * Qc)) : hist :=
  match l with [] => h | e :: t => fillsF r (fst (fillF r h (fst e) (snd e))) t end.
(** a number of events *)
Definition whole (x : Qc) : Prop := exists z, (0 <= z)%Z /\ x = qz z.
(** x^n *)
Fixpoint qpow (x : Qc) (n : nat) : Qc := match n with O => 1 | S n' => x * qpow x n' end.
(** every step from a point of the grid is exact *)
Definition exact_steps (r : Qc -> Qc) (g : grid) : Prop := forall k (j : nat), In k (skeys (grMin g)) ->
  val (grMin g) k + qn j * val (grStep g) k <= val (grMax g) k -> r (val (grMin g) k + qn (S j) * val (grStep g) k) = val (grMin g) k + qn (S j) * val (grStep g) k.
(** each parameter's settings are multiples of some power of two, with at most 53 bits *)
Definition few_bits (g : grid) : Prop := forall k, In k (skeys (grMin g)) -> exists e a s b : Z,
  (-1074 <= e)%Z /\ (- 2 ^ 53 <= a)%Z /\ (b + s <= 2 ^ 53)%Z /\
  val (grMin g) k = qz a * two_pow e /\ val (grStep g) k = qz s * two_pow e /\ val (grMax g) k = qz b * two_pow e.
