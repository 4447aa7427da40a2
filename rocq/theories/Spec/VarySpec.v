(** Independent vocabulary for C85. *)
From Verif Require Import Base.Res Base.Num Base.SMap Model.Vary.
Local Open Scope Qc_scope.
(** the kernel parameter par is governed by the function object at address a, now f *)
Definition governs (h : heap) (v : vcdf) (par : string) (a : nat) (f : sqs) : Prop := sfind par v = Some a /\ h a = Some f.
(** every function object is alive and belongs to one kernel parameter *)
Definition sound (h : heap) (v : vcdf) : Prop :=
  swf v /\ (forall par a, sfind par v = Some a -> exists f, h a = Some f) /\ (forall p q a, sfind p v = Some a -> sfind q v = Some a -> p = q).
(** some function has a parameter of that name *)
Definition has_parameter (h : heap) (v : vcdf) (n : string) : Prop := exists par a f, governs h v par a f /\ sqPar f = n.
(** every function's parameter has that name *)
Definition only_parameter (h : heap) (v : vcdf) (n : string) : Prop := forall par a f, governs h v par a f -> sqPar f = n.
(** nothing outside the functions of v changed *)
Definition others_untouched (h h' : heap) (v : vcdf) : Prop := forall a, (forall par, sfind par v <> Some a) -> h' a = h a.
