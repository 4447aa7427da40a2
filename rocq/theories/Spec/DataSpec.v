(** Independent vocabulary for data sets (C40, C60, C66). *)
From Verif Require Import Base.Res Base.Num Model.Event Model.Data.

(** the observable values of the events, in order *)
Definition values (d : dset) : list (list Qc) := map dvObs (dData d).
(** a operation that writes a copy of another data set into object a *)
Definition copies_into (a : nat) (o : dop) : Prop :=
  match o with DCopy _ b => b = a | DPlus _ _ _ r => r = a | _ => False end.
(** same heap, address by address *)
Definition same_heap (h h' : dheap) : Prop := forall a, h a = h' a.
(** object a of the lazy world holds its data in memory *)
Definition in_memory {E} (s : lazy E) (a : nat) : Prop :=
  exists o d, lzObj s a = Some o /\ lzData o = Some d.
Definition alive {E} (s : lazy E) (a : nat) (f : string) : Prop := exists o, lzObj s a = Some o /\ lzFile o = f.
(** operations that neither copy-construct nor assign a lazy data set *)
Definition no_copy_op (o : lop) : Prop := match o with LCopy _ _ | LAssign _ _ => False | _ => True end.
(** nothing loaded has been lost, and at most one of the objects holds its data *)
Definition one_resident {E} (s : lazy E) : Prop :=
  lzLeak s = 0%nat /\ forall a b, in_memory s a -> in_memory s b -> a = b.
