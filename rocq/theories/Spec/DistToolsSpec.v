(** Independent vocabulary for C80-C82. *)
From Verif Require Import Base.Res Base.Num Base.SMap Model.Axis Model.Hist Model.DistTools Spec.AxisSpec Spec.HistSpec.
Local Open Scope Qc_scope.
(** the corners of a bin: low and high edge on each axis *)
Definition lows (axs : list axis) (idx : list nat) : list Qc := map (fun p => lo_of (fst p) (snd p)) (combine axs idx).
Definition highs (axs : list axis) (idx : list nat) : list Qc := map (fun p => hi_of (fst p) (snd p)) (combine axs idx).
(** F is additive over boxes in d dimensions: cutting a box in two along any one dimension splits its integral *)
Definition box_additive (d : nat) (F : list Qc -> list Qc -> Qc) : Prop :=
  forall lo hi i m, List.length lo = d -> List.length hi = d -> (i < d)%nat -> nth i lo 0 <= m -> m <= nth i hi 0 ->
    F lo hi = F lo (upd hi i m) + F (upd lo i m) hi.
(** axes whose bins touch and all have positive width *)
Definition regular (a : axis) : Prop := contiguous a /\ forall i, (i < aNBins a)%nat -> lo_of a i < hi_of a i.
(** all bins of the same width *)
Definition evenly (a : axis) : Prop :=
  forall i, (i < aNBins a)%nat -> lo_of a i = aMin a + qn i * ((aMax a - aMin a) / qn (aNBins a)) /\
                                  hi_of a i = aMin a + qn (S i) * ((aMax a - aMin a) / qn (aNBins a)).
(** ROOT histogram of d axes, each with at least one bin *)
Definition th_ok (d : nat) (t : th) : Prop :=
  List.length (thEdges t) = d /\ List.length (thTitles t) = d /\ Forall (fun e => (2 <= List.length e)%nat) (thEdges t).
(** numbers of bins per axis; first and last edge of an axis *)
Definition th_shape (t : th) : list nat := map (fun e => (List.length e - 1)%nat) (thEdges t).
Definition first_edge (e : list Qc) : Qc := nth 0 e 0.
Definition last_edge (e : list Qc) : Qc := nth (List.length e - 1) e 0.
(** ROOT bin with the given zero-based indices: ROOT counts from one *)
Definition root_bin (idx : list nat) : list nat := map S idx.
(** every axis has a positive range *)
Definition ranges_ok (t : th) : Prop := Forall (fun e => first_edge e < last_edge e) (thEdges t).
(** h is t: one bin of h for each bin of t, named after the titles, evenly binned over the range of each axis, under- and overflow left out *)
Definition from_root (t : th) (h : hist) : Prop :=
  h_reach h /\ shape_of h = th_shape t /\ names_of h = thTitles t /\
  Forall2 (fun e a => aMin a = first_edge e /\ aMax a = last_edge e /\ evenly a) (thEdges t) (acAxes (hAxes h)) /\
  forall idx, in_shape (th_shape t) idx -> cont_at h idx = thCont t (root_bin idx).
(** what converting t must give: a histogram if all ranges are positive and no two titles agree, an error otherwise *)
Definition outcome (t : th) (r : res hist) : Prop :=
  (ranges_ok t -> NoDup (thTitles t) -> exists h, r = Ok h) /\
  (forall h, r = Ok h -> ranges_ok t /\ NoDup (thTitles t) /\ from_root t h) /\
  (ranges_ok t -> ~ NoDup (thTitles t) -> r = Throw ValueError) /\
  (~ ranges_ok t -> NoDup (thTitles t) -> r = Throw LogicError).
