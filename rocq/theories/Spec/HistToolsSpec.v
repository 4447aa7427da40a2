(** Independent vocabulary for C61. *)
From Coq Require Import Ascii.
From Verif Require Import Base.Res Base.Num Base.SMap Model.Axis Model.Hist Model.HistTools Spec.AxisSpec Spec.HistSpec.
Local Open Scope nat_scope.

(** the axes of a histogram are the named axes of a collection, in the order of the names *)
Definition axes_named (ac : axcol) (names : list string) (h : hist) : Prop :=
  Forall2 (fun n a => In a (acAxes ac) /\ aName a = n) names (acAxes (hAxes h)).
(** an empty histogram *)
Definition all_zero (h : hist) : Prop := forall i, cont h i = 0%Qc.
(** two names form an unordered pair of distinct names of the list *)
Definition distinct_pair (names : list string) (p : string * string) : Prop :=
  In (fst p) names /\ In (snd p) names /\ fst p <> snd p.
(** a list of pairs holds every unordered pair of distinct names exactly once *)
Definition covers_pairs (names : list string) (l : list (string * string)) : Prop :=
  NoDup l /\ (forall p, In p l -> distinct_pair names p) /\
  (forall x y, In x names -> In y names -> x <> y ->
     (In (x, y) l /\ ~ In (y, x) l) \/ (In (y, x) l /\ ~ In (x, y) l)).
(** a history of FillAllHists calls *)
Fixpoint fill_history (hs : smap hist) (l : list (smap Qc)) : smap hist :=
  match l with [] => hs | v :: t => fill_history (fst (fillAllHists hs v)) t end.
(** every histogram of the map finds all its axes among the values *)
Definition has_values (hs : smap hist) (v : smap Qc) : Prop :=
  forall k h n, sfind k hs = Some h -> In n (names_of h) -> exists x, sfind n v = Some x.
(** the name holds no underscore *)
Fixpoint no_us (s : string) : Prop :=
  match s with EmptyString => True | String c t => c <> "_"%char /\ no_us t end.
(** m is the projection of h on the named axes: its axes are those of h, each bin sums the bins of h that
    project on it, and the integral is that of h *)
Definition projection (h : hist) (names : list string) (m : hist) : Prop :=
  axes_named (hAxes h) names m /\ integral m = Ok (total h) /\
  forall j, in_shape (shape_of m) j ->
        cont_at m j = qsum (map (cont_at h)
          (filter (fun idx => nlist_eqb (project (names_of h) idx names) j) (tuples (shape_of h)))).
