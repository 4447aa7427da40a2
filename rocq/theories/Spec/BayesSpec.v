(** Independent vocabulary for C50. *)
From Verif Require Import Base.Res Base.Num Base.SMap Model.Axis Model.Hist Spec.AxisSpec Spec.HistSpec.
Local Open Scope Qc_scope.
(** the only axis of a one-dimensional histogram *)
Definition one_axis (h : hist) (a : axis) : Prop := acAxes (hAxes h) = [a].
(** content of the first b bins *)
Definition first_bins (h : hist) (b : nat) : Qc := qsum (map (cont h) (seq 0 b)).
(** fraction of the interval [lo,hi] below x *)
Definition part_below (lo hi x : Qc) : Qc := if qleb x lo then 0 else if qleb hi x then 1 else (x - lo) / (hi - lo).
(** posterior probability below x, spread evenly inside each bin *)
Definition prob_below (h : hist) (a : axis) (x : Qc) : Qc :=
  qsum (map (fun i => cont h i / total h * part_below (lo_of a i) (hi_of a i) x) (seq 0 (hNBins h))).
(** the bin in which the probability cl is first reached *)
Definition limit_bin (h : hist) (cl : Qc) (b : nat) : Prop :=
  (b < hNBins h)%nat /\ (forall c, (c <= b)%nat -> first_bins h c / total h < cl) /\ cl <= first_bins h (b + 1) / total h.
(** the point of that bin below which the probability is cl *)
Definition exact_limit (h : hist) (a : axis) (cl : Qc) (b : nat) : Qc :=
  lo_of a b + (hi_of a b - lo_of a b) * (cl - first_bins h b / total h) / (cont h b / total h).
