(** Independent vocabulary for the histogram properties (C06-C12). *)
From Verif Require Import Base.Res Base.Num Base.SMap Model.Axis Model.Hist Spec.AxisSpec.
Local Open Scope Qc_scope.

(** histograms a user can hold: built on an axis collection with at least one axis and changed by any
    sequence of calls of the public interface, successful or not *)
Inductive h_reach : hist -> Prop :=
| hr_new ac : ac_reach ac -> acAxes ac <> [] -> h_reach (mk_hist ac)
| hr_setAxes h ac : h_reach h -> ac_reach ac -> acAxes ac <> [] -> h_reach (setAxes h ac)
| hr_fill h v w : h_reach h -> h_reach (fst (fill h v w))
| hr_fill_map h m w : h_reach h -> h_reach (fst (fill_map h m w))
| hr_normalise h : h_reach h -> h_reach (fst (normalise h))
| hr_scale h s : h_reach h -> h_reach (fst (scale h s))
| hr_empty h : h_reach h -> h_reach (fst (empty_bins h))
| hr_addBin h b w : h_reach h -> h_reach (fst (addBinContent h b w))
| hr_setBin h b w : h_reach h -> h_reach (fst (setBinContent h b w))
| hr_setBins h d : h_reach h -> h_reach (fst (setBinContents h d))
| hr_add h o w : h_reach h -> h_reach o -> h_reach (fst (h_add h o w))
| hr_multiply h o : h_reach h -> h_reach o -> h_reach (fst (h_multiply h o))
| hr_divide h o : h_reach h -> h_reach o -> h_reach (fst (h_divide h o))
| hr_padding h p : h_reach h -> h_reach (addPadding h p).

(** content of bin i *)
Definition cont (h : hist) (i : nat) : Qc := nth i (hCont h) 0.
(** numbers of bins per axis *)
Definition shape_of (h : hist) : list nat := map aNBins (acAxes (hAxes h)).
Definition names_of (h : hist) : list string := map aName (acAxes (hAxes h)).
(** content of the bin with the given per-axis indices *)
Definition cont_at (h : hist) (idx : list nat) : Qc := cont h (rowmajor (shape_of h) idx).
(** sum of all bins *)
Definition total (h : hist) : Qc := qsum (map (cont h) (seq 0 (hNBins h))).
(** same axes (binning and names) *)
Definition same_axes (h h' : hist) : Prop := hAxes h = hAxes h' /\ hNBins h = hNBins h' /\ hNDims h = hNDims h'.

(** all index tuples of a shape *)
Fixpoint tuples (shape : list nat) : list (list nat) :=
  match shape with
  | [] => [[]]
  | n :: s => flat_map (fun i => map (cons i) (tuples s)) (seq 0 n)
  end.

(** a history of Fill calls: (coordinates, weight) *)
Fixpoint fills (h : hist) (l : list (list Qc * Qc)) : hist :=
  match l with [] => h | (v, w) :: t => fills (fst (fill h v w)) t end.

(** the entry of an index tuple that belongs to the axis called n *)
Fixpoint coord (names : list string) (idx : list nat) (n : string) : nat :=
  match names, idx with
  | m :: names', i :: idx' => if String.eqb m n then i else coord names' idx' n
  | _, _ => 0%nat
  end.
(** the part of an index tuple belonging to the named axes, in the order of the names *)
Definition project (names : list string) (idx : list nat) (wanted : list string) : list nat :=
  map (coord names idx) wanted.
Definition nlist_eqb (a b : list nat) : bool := if list_eq_dec Nat.eq_dec a b then true else false.

(** two axes have the same binning *)
Definition same_edges (a b : axis) : Prop := aLow a = aLow b /\ aHigh a = aHigh b.
