(** Independent vocabulary for the axis properties (C01-C05). *)
From Verif Require Import Base.Res Base.Num Model.Axis.
Local Open Scope Qc_scope.

(** an axis object a user can hold: one of the two constructors succeeded *)
Inductive built (a : axis) : Prop :=
| built_equal name mn mx n latex : mk_equal name mn mx n latex = Ok a -> built a
| built_var name lo hi latex : mk_var name lo hi latex = Ok a -> built a.

(** edges of bin i *)
Definition lo_of (a : axis) (i : nat) : Qc := nth i (aLow a) 0.
Definition hi_of (a : axis) (i : nat) : Qc := nth i (aHigh a) 0.

(** consecutive bins touch: no gaps and no overlaps *)
Definition contiguous (a : axis) : Prop :=
  forall i, (S i < aNBins a)%nat -> hi_of a i = lo_of a (S i).

(** x lies in bin i, low edge included, high edge excluded *)
Definition in_bin (a : axis) (i : nat) (x : Qc) : Prop :=
  (i < aNBins a)%nat /\ lo_of a i <= x /\ x < hi_of a i.

(** product of a list, and row-major index of a tuple (last index fastest) *)
Fixpoint prod (l : list nat) : nat := match l with [] => 1%nat | x :: t => (x * prod t)%nat end.
Fixpoint rowmajor (shape idx : list nat) : nat :=
  match shape, idx with
  | n :: shape', i :: idx' => (i * prod shape' + rowmajor shape' idx')%nat
  | _, _ => 0%nat
  end.
(** idx is a valid index tuple for the shape *)
Definition in_shape (shape idx : list nat) : Prop := Forall2 (fun i n => (i < n)%nat) idx shape.

(** axis collections reachable through the public interface *)
Inductive ac_reach : axcol -> Prop :=
| ar_empty : ac_reach ac_empty
| ar_add ac a ac' : ac_reach ac -> built a -> addAxis ac a = Ok ac' -> ac_reach ac'
| ar_adds ac l : ac_reach ac -> Forall built l -> ac_reach (fst (addAxes ac l)).

(** what a collection should look like: derived fields agree with the axes, names distinct *)
Definition ac_ok (ac : axcol) : Prop :=
  acNames ac = map aName (acAxes ac) /\
  acNbins ac = map aNBins (acAxes ac) /\
  acNDims ac = List.length (acAxes ac) /\
  acNBins ac = (match acAxes ac with [] => 0%nat | _ => prod (map aNBins (acAxes ac)) end) /\
  NoDup (map aName (acAxes ac)) /\
  Forall built (acAxes ac).
