(** Independent vocabulary for C51, C52, C78. *)
From Verif Require Import Base.Res Base.Num Base.SMap Model.Gauss.
Local Open Scope Qc_scope.
(** parameters of dimension i and their names *)
Definition mean_of (g : gauss) (i : nat) : Qc := nth i (gMeans g) 0.
Definition std_of (g : gauss) (i : nat) : Qc := nth i (gStds g) 0.
Definition mean_name (g : gauss) (i : nat) : string := nth i (gMN g) ""%string.
Definition std_name (g : gauss) (i : nat) : string := nth i (gSN g) ""%string.
(** one mean, one standard deviation and two names per dimension *)
Definition sized (g : gauss) : Prop :=
  List.length (gMeans g) = gND g /\ List.length (gStds g) = gND g /\ List.length (gMN g) = gND g /\ List.length (gSN g) = gND g.
(** Gaussians a user can hold, as long as whole vectors of means or deviations are replaced by vectors of the right length *)
Inductive g_reach : gauss -> Prop :=
| gr_new m s name g : newGauss m s name = Ok g -> g_reach g
| gr_copy g g' : g_reach g -> copyGauss g = Ok g' -> g_reach g'
| gr_setMean g i v g' : g_reach g -> setMean g i v = Ok g' -> g_reach g'
| gr_setStDev g i v g' : g_reach g -> setStDev g i v = Ok g' -> g_reach g'
| gr_setMeans g l : g_reach g -> List.length l = gND g -> g_reach (setMeans g l)
| gr_setStDevs g l : g_reach g -> List.length l = gND g -> g_reach (setStDevs g l)
| gr_cut g c : g_reach g -> g_reach (setCut g c)
| gr_set n v g g' : g_reach g -> gSet n v g = Ok g' -> g_reach g'
| gr_setAll d g g' : g_reach g -> gSetAll d g = Ok g' -> g_reach g'
| gr_rename f o n g g' : g_reach g -> gRename f o n g = Ok g' -> g_reach g'.
(** what changes when every parameter called n becomes v: exactly those *)
Definition set_effect (n : string) (v : Qc) (g g' : gauss) : Prop :=
  gName g' = gName g /\ gCut g' = gCut g /\ gND g' = gND g /\ gMN g' = gMN g /\ gSN g' = gSN g /\
  (forall i, (i < gND g)%nat -> mean_of g' i = if String.eqb (mean_name g i) n then v else mean_of g i) /\
  (forall i, (i < gND g)%nat -> std_of g' i = if String.eqb (std_name g i) n then v else std_of g i).
(** what is assumed of the unit Gaussian cdf *)
Definition cdf_like (U : Qc -> Qc) : Prop := (forall x y, x <= y -> U x <= U y) /\ (forall x, 0 <= U x /\ U x <= 1).
Definition positive_widths (g : gauss) : Prop := forall i, (i < gND g)%nat -> 0 < std_of g i.
(** a box: one interval [lo, hi] per dimension; the second box contains the first *)
Definition a_box (n : nat) (lo hi : list Qc) : Prop :=
  List.length lo = n /\ List.length hi = n /\ forall i, (i < n)%nat -> nth i lo 0 <= nth i hi 0.
Definition box_within (n : nat) (lo hi lo' hi' : list Qc) : Prop :=
  forall i, (i < n)%nat -> nth i lo' 0 <= nth i lo 0 /\ nth i hi 0 <= nth i hi' 0.
(** moved by d *)
Fixpoint translate (x d : list Qc) : list Qc := match x, d with a :: t, b :: u => (a + b) :: translate t u | _, _ => [] end.
(** what changes when the parameters named in d take the values given there: exactly those *)
Definition set_all_effect (d : smap Qc) (g g' : gauss) : Prop :=
  gName g' = gName g /\ gCut g' = gCut g /\ gND g' = gND g /\ gMN g' = gMN g /\ gSN g' = gSN g /\
  (forall i, (i < gND g)%nat -> mean_of g' i = match sfind (mean_name g i) d with Some v => v | None => mean_of g i end) /\
  (forall i, (i < gND g)%nat -> std_of g' i = match sfind (std_name g i) d with Some v => v | None => std_of g i end).
