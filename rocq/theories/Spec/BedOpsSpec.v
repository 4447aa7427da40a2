(** Independent vocabulary for C88. *)
From Verif Require Import Base.Res Base.Num Base.SMap Model.Axis Model.Event Model.Hist Model.ED Spec.AxisSpec Spec.HistSpec Spec.FillSpec Spec.CompSpec.
Local Open Scope Qc_scope.
(** the distribution reads observables called like its axes, in order *)
Definition named_by_axes (b : bed) : Prop := osNames (bdObs b) = names_of (bdHist b).
(** per-axis bin numbers of the bin the event falls into *)
Definition cell (b : bed) (e : event) (idx : list nat) : Prop :=
  in_shape (shape_of (bdHist b)) idx /\ falls b e (rowmajor (shape_of (bdHist b)) idx).
