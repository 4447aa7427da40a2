(** Independent vocabulary for C87. *)
From Coq Require Import ZArith.
From Verif Require Import Base.Res Base.Num Base.SMap Model.Event Model.Root.
(** the file can be read and holds a tree under that name *)
Definition holds (f : rfile) (name : string) (o : robj) : Prop := exists d, f = Some d /\ sfind name d = Some o.
(** every branch has one leaf *)
Definition one_leaf (t : ttree) : Prop := Forall (fun b => exists l, brLeaves b = [l]) (trBranches t).
(** every branch has one leaf, of its own name; names are different, and none is another's name twice with a dot between *)
Definition ordinary (t : ttree) : Prop :=
  NoDup (map brName (trBranches t)) /\
  Forall (fun b => exists l, brLeaves b = [l] /\ lfName l = brName b) (trBranches t) /\
  forall b c, In b (trBranches t) -> In c (trBranches t) -> brName c <> (brName b ++ "." ++ brName b)%string.
(** the values of entry i, in the order of the branches *)
Definition row (t : ttree) (i : Z) : list Qc := map (fun b => match brLeaves b with l :: _ => lfVal l i | [] => 0%Qc end) (trBranches t).
(** the entries fit the 32-bit count *)
Definition countable (t : ttree) : Prop := (0 <= trEntries t < 2 ^ 32)%Z.
