(** Independent vocabulary for C112. *)
From Verif Require Import Base.Res Base.Num Model.Axis Spec.AxisSpec Spec.SystSpec.
Local Open Scope Qc_scope.

(** both ends of the image, the first not below the second, lie in bin t (the last bin has its upper edge) *)
Definition both_in (a : axis) (t : nat) (x y : Qc) : Prop :=
  lo_of a t <= y /\ (x < hi_of a t \/ (x = aMax a /\ S t = aNBins a)).
(** e is the part that bin t gets of a bin whose edges are taken to x and y: the fraction of the image inside t if the function
    keeps their order; otherwise everything if t holds both ends, and else nothing *)
Definition moved (a : axis) (t : nat) (x y e : Qc) : Prop :=
  (x < y -> e = overlap x y (lo_of a t) (hi_of a t) / (y - x)) /\
  (y <= x -> both_in a t x y -> e = 1) /\
  (y <= x -> ~ both_in a t x y -> e = 0).
(** the part of a bin's content that survives *)
Definition kept_part (a : axis) (x y e : Qc) : Prop :=
  (x < y -> e = frac_inside a x y) /\
  (y <= x -> (exists t, (t < aNBins a)%nat /\ both_in a t x y) -> e = 1) /\
  (y <= x -> (forall t, (t < aNBins a)%nat -> ~ both_in a t x y) -> e = 0).
