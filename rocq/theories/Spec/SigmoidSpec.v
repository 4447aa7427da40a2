(** Independent vocabulary for C76: how far outside its walls a point is. *)
From Coq Require Import Reals.
From Verif Require Import Base.Res Base.Num Base.RNum Base.SMap.
Local Open Scope R_scope.
(** value of a parameter (0 when absent) *)
Definition coord (k : string) (p : smap R) : R := match sfind k p with Some v => v | None => 0 end.
(** distance below the lower walls and above the upper walls, summed over the walls; 0 exactly for points inside *)
Fixpoint below_walls (p minima : smap R) : R :=
  match minima with [] => 0 | (k, m) :: t => Rmax 0 (m - coord k p) + below_walls p t end.
Fixpoint above_walls (p maxima : smap R) : R :=
  match maxima with [] => 0 | (k, m) :: t => Rmax 0 (coord k p - m) + above_walls p t end.
Definition within_walls (p minima maxima : smap R) : Prop :=
  (forall k m, In (k, m) minima -> m <= coord k p) /\ (forall k m, In (k, m) maxima -> coord k p <= m).
