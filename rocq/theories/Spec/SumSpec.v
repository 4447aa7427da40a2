(** Independent vocabulary for sums of statistics (C36). *)
From Coq Require Import Reals.
From Verif Require Import Base.Res Base.Num Base.RNum Base.SMap Model.Constraint Model.Sum.
Local Open Scope nat_scope.

(** the nesting of a sum: at the ends the addresses of the statistics that are not sums themselves, in the order they
    were added, at each node the constraints of that sum *)
Inductive tree := End (p : nat) | Node (ts : list tree) (c : cman).
Inductive unfolds {T} (h : theap T) : nat -> tree -> Prop :=
| U_end p x : h p = Some (TLeaf x) -> unfolds h p (End p)
| U_node p l c ts : h p = Some (TSum l c) -> Forall2 (unfolds h) l ts -> unfolds h p (Node ts c).
Fixpoint depth (t : tree) : nat :=
  match t with End _ => 1 | Node ts _ => S (list_max (map depth ts)) end.
(** the parts, with multiplicity, left to right *)
Fixpoint ends (t : tree) : list nat :=
  match t with End p => [p] | Node ts _ => List.concat (map ends ts) end.
(** parameters seen by a sum with these parts: for each name the value of the first part that has it *)
Definition first_of (pars : nat -> smap Qc) (l : list nat) (n : string) : option Qc :=
  fold_right (fun p r => match sfind n (pars p) with Some v => Some v | None => r end) None l.
Definition merged (pars : nat -> smap Qc) (l : list nat) (d : smap Qc) : Prop :=
  swf d /\ forall n, sfind n d = first_of pars l n.
(** w is the total of the constraints of all the sums in the tree, each at the parameters of its own parts *)
Inductive constraints (pars : nat -> smap Qc) : tree -> R -> Prop :=
| K_end p : constraints pars (End p) 0%R
| K_node ts c d v ws : merged pars (ends (Node ts c)) d -> cman_eval c d = Ok v -> Forall2 (constraints pars) ts ws ->
    constraints pars (Node ts c) (rsum ws + qr v)%R.
(** states of a statistic after k evaluations *)
Definition evaluated {T} (o : tsops T) (k : nat) (x : T) : T := Nat.iter k (fun y => fst (lEval o y)) x.
(** a statistic that has value v and parameters d, however often it is evaluated *)
Definition steady {T} (o : tsops T) (x : T) (v : R) (d : smap Qc) : Prop :=
  swf d /\ forall k, snd (lEval o (evaluated o k x)) = Ok v /\ lGet o (evaluated o k x) = Ok d.
(** the part at address p has value vals p and parameters pars p *)
Definition part {T} (o : tsops T) (h : theap T) (vals : nat -> R) (pars : nat -> smap Qc) (p : nat) : Prop :=
  exists x, h p = Some (TLeaf x) /\ steady o x (vals p) (pars p).
(** do f to the part at p: the heap afterwards, and how it went *)
Definition on_part {T} (f : T -> T * res unit) (h : theap T) (p : nat) : theap T * res unit :=
  match h p with
  | Some (TLeaf x) => (tput h p (TLeaf (fst (f x))), snd (f x))
  | _ => (h, UB)
  end.
(** the two heaps have the same statistics and sums at the same addresses, up to the states of the parts in l *)
Definition same_but {T} (l : list nat) (h h' : theap T) : Prop :=
  forall p, (~ In p l -> h' p = h p) /\ (forall ls c, h p = Some (TSum ls c) <-> h' p = Some (TSum ls c)) /\
    (forall x, h p = Some (TLeaf x) -> exists x', h' p = Some (TLeaf x')).
(** what a sum or statistic at p is worth: the total over the parts and over the constraints of its sums *)
Definition worth {T} (o : tsops T) (h : theap T) (vals : nat -> R) (pars : nat -> smap Qc) (p : nat) (v : R) : Prop :=
  exists t w, unfolds h p t /\ (forall q, In q (ends t) -> part o h vals pars q) /\ constraints pars t w /\
    v = (rsum (map vals (ends t)) + w)%R.
(** Evaluate at p gives v, however large the stack beyond some size *)
Definition evaluates {T} (o : tsops T) (h : theap T) (p : nat) (v : R) : Prop :=
  exists n, forall fuel, n <= fuel -> snd (ts_eval o fuel h p) = Ok v.
(** d' has all of d's entries *)
Definition extends (d' d : smap Qc) : Prop := forall n v, sfind n d = Some v -> sfind n d' = Some v.
