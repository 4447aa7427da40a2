(** Independent vocabulary for C86. *)
From Coq Require Import Reals.
From Verif Require Import Base.Res Base.Num Base.RNum Model.Gauss Spec.GaussSpec.
Local Open Scope R_scope.
(** the normal density with mean m and standard deviation s *)
Definition normal (m s x : R) : R := exp (- ((x - m) * (x - m)) / (2 * s * s)) / (s * sqrt (2 * PI)).
(** product of f 0, ..., f (n-1) *)
Fixpoint rprod (n : nat) (f : nat -> R) : R := match n with O => 1 | S k => rprod k f * f k end.
(** its dimensions are independent: product of the normal densities *)
Definition density_at (g : gauss) (x : nat -> R) : R := rprod (gND g) (fun i => normal (qr (mean_of g i)) (qr (std_of g i)) (x i)).
(** coordinate i of a point *)
Definition coord (x : list Qc) (i : nat) : R := qr (nth i x 0%Qc).
(** x is no further from the mean than y in any dimension *)
Definition no_further (g : gauss) (x y : list Qc) : Prop :=
  forall i, (i < gND g)%nat -> Rabs (coord x i - qr (mean_of g i)) <= Rabs (coord y i - qr (mean_of g i)).
