(** Independent vocabulary for files (C41, C42, C72). *)
From Coq Require Import ZArith Ascii.
From Verif Require Import Base.Res Base.Num Base.SMap Model.Axis Model.Event Model.Hist Model.Data.

Fixpoint no_char (c : ascii) (s : string) : Prop := match s with EmptyString => True | String d t => d <> c /\ no_char c t end.
(** a name the file format can hold: no ':' and no NUL *)
Definition plain (s : string) : Prop := no_char ":"%char s /\ no_char Ascii.zero s.
(** number of characters of the names written one after the other with a separator between them *)
Fixpoint joined (l : list string) : nat := match l with [] => 0 | [s] => String.length s | s :: t => (String.length s + 1 + joined t)%nat end.
(** the events of a data set *)
Definition rows (d : dset) : list (list Qc) := map dvObs (dData d).
(** one name per observable, every event with all observables, at least one of each *)
Definition filled (d : dset) : Prop :=
  (0 < dNObs d)%nat /\ List.length (dNames d) = dNObs d /\ Forall (fun r => List.length r = dNObs d) (rows d) /\ rows d <> [].
(** the number of values in a data set *)
Definition values (d : dset) : Z := (Z.of_nat (dNObs d) * Z.of_nat (List.length (rows d)))%Z.
