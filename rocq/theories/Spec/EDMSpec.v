(** Independent vocabulary for C83. *)
From Verif Require Import Base.Res Base.Num Base.SMap Model.Axis Model.Event Model.Hist Model.ED Model.Param Model.Comp Model.EDM Spec.ParamSpec.
Local Open Scope Qc_scope.
(** calls on the manager; a call that throws leaves whatever it leaves *)
Inductive xop := XAdd (d : dist) | XAdds (l : list dist) | XNorms (l : list Qc) | XSet (n : string) (v : Qc) | XSets (d : smap Qc) | XRename (o n : string).
Definition xdo (s : xman) (o : xop) : xman :=
  match o with
  | XAdd d => fst (xm_add s d)
  | XAdds l => fst (xm_adds s l)
  | XNorms l => fst (xm_setNorms s l)
  | XSet n v => fst (xm_set s n v)
  | XSets d => fst (xm_setAll s d)
  | XRename o n => fst (xm_rename s o n)
  end.
Definition xrun (ops : list xop) : xman := fold_left xdo ops xm_new.
Definition renames (o : xop) : Prop := match o with XRename _ _ => True | _ => False end.
(** a distribution fits those already held if it has as many dimensions as the first *)
Definition fits (held : list dist) (d : dist) : Prop := match held with [] => True | d0 :: _ => dndims d = dndims d0 end.
Definition fitsb (held : list dist) (d : dist) : bool := match held with [] => true | d0 :: _ => Nat.eqb (dndims d) (dndims d0) end.
(** the distributions held after some calls: a list is taken up to the first that does not fit *)
Fixpoint taking (held l : list dist) : list dist :=
  match l with [] => held | d :: t => if fitsb held d then taking (held ++ [d]) t else held end.
Definition held_by (held : list dist) (o : xop) : list dist :=
  match o with XAdd d => taking held [d] | XAdds l => taking held l | _ => held end.
Definition held_after (ops : list xop) : list dist := fold_left held_by ops [].
(** GetName gives the same name for the copy the manager keeps *)
Definition keeps_name (d : dist) : Prop := dname (dclone d) = dname d.
Definition value_in (d : smap Qc) (n : string) : Qc := match sfind n d with Some v => v | None => 0 end.
(** the parameters are named after the distributions; if the names differ there is one each, worth that distribution's normalisation *)
Definition labelled (s : xman) (held : list dist) : Prop :=
  (forall n, In n (xm_names s) <-> In n (map dname held)) /\
  (NoDup (map dname held) -> xm_count s = List.length held /\ forall i n, nth_error (map dname held) i = Some n -> xm_get s n = Ok (nth i (xmNorms s) 0)).
