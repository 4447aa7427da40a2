(** Independent vocabulary for the grid search (C43). *)
From Coq Require Import ZArith.
From Verif Require Import Base.Res Base.Num Base.SMap Model.Grid.
Local Open Scope Qc_scope.
(** value of parameter k *)
Definition val (p : smap Qc) (k : string) : Qc := match sfind k p with Some x => x | None => Q2Qc 0 end.
(** settings that describe a grid: the same parameters everywhere, positive steps, minimum <= maximum, fewer than 2^64 steps, and more than one parameter value *)
Definition well_set (g : grid) : Prop :=
  swf (grMin g) /\ swf (grMax g) /\ swf (grStep g) /\ skeys (grMax g) = skeys (grMin g) /\ skeys (grStep g) = skeys (grMin g) /\ grMin g <> grMax g /\
  forall k, In k (skeys (grMin g)) -> 0 < val (grStep g) k /\ val (grMin g) k <= val (grMax g) k /\ val (grMax g) k - val (grMin g) k < qz (2 ^ 64) * val (grStep g) k.
(** p is a point of the grid: each parameter is its minimum plus a whole number of steps, and not above its maximum *)
Definition on_grid (g : grid) (p : smap Qc) : Prop :=
  skeys p = skeys (grMin g) /\
  forall k, In k (skeys (grMin g)) -> val p k <= val (grMax g) k /\ exists j : nat, val p k = val (grMin g) k + qn j * val (grStep g) k.
(** [r] is what every long enough run gives *)
Definition ends (g : grid) (f : smap Qc -> res Qc) (r : res gres) : Prop := exists n, forall fuel, (n <= fuel)%nat -> gOptimise g f fuel = r.
(** the quantity compared: the statistic, or its negative when maximising *)
Definition score (g : grid) (x : Qc) : Qc := if grMaximise g then - x else x.
