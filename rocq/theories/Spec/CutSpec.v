(** Independent vocabulary for C13, C14, C21. *)
From Coq Require Import ZArith.
From Verif Require Import Base.Res Base.Num Model.Axis Model.Event Model.Cut.
Local Open Scope Qc_scope.

(** the event has value v for the observable called n *)
Definition has_value (e : event) (n : string) (v : Qc) : Prop :=
  exists ns i, evNames e = Some ns /\ nth_error ns i = Some n /\ nth_error (evObs e) i = Some v /\
    forall j, (j < i)%nat -> nth_error ns j <> Some n.
(** the event knows its names and has no observable called n *)
Definition lacks (e : event) (n : string) : Prop := exists ns, evNames e = Some ns /\ ~ In n ns.

(** which values a cut is documented to accept *)
Definition cut_obs (c : cut) : string :=
  match c with BoxCut _ o _ _ => o | LineCut _ o _ _ => o | BoolCut _ o _ => o end.
Definition region (c : cut) (v : Qc) : Prop :=
  match c with
  | BoxCut _ _ lo hi => lo < v /\ v < hi
  | LineCut _ _ x side => (side = "lower"%string /\ x < v) \/ (side = "upper"%string /\ v < x)
  | BoolCut _ _ x => v = x
  end.
(** cuts a user can construct *)
Definition cut_built (c : cut) : Prop :=
  match c with LineCut n o v s => mk_line n o v s = Ok c | _ => True end.
Definition accepts (c : cut) (e : event) : Prop := exists v, has_value e (cut_obs c) v /\ region c v.
Definition rejects (c : cut) (e : event) : Prop := exists v, has_value e (cut_obs c) v /\ ~ region c v.

(** cut number i is the first that rejects the event *)
Definition charged_to (cs : list cut) (e : event) (i : nat) : Prop :=
  exists c, nth_error cs i = Some c /\ rejects c e /\
    forall j d, (j < i)%nat -> nth_error cs j = Some d -> accepts d e.
Definition passes_all (cs : list cut) (e : event) : Prop := forall c, In c cs -> accepts c e.

(** run a list of events through PassesCuts(event, log) *)
Fixpoint run_cuts (cs : list cut) (evs : list event) (l : cutlog) : cutlog * list (res bool) :=
  match evs with
  | [] => (l, [])
  | e :: t => let (l', r) := passesCutsLog cs e l in let (l'', rs) := run_cuts cs t l' in (l'', r :: rs)
  end.
(** number of members of a list with a decidable property given as boolean *)
Fixpoint zcount {A} (p : A -> bool) (l : list A) : Z :=
  match l with [] => 0%Z | x :: t => ((if p x then 1 else 0) + zcount p t)%Z end.
Fixpoint zsum (l : list Z) : Z := match l with [] => 0%Z | x :: t => (x + zsum t)%Z end.
