(** Independent vocabulary for C55, C58, C59. *)
From Coq Require Import ZArith.
From Verif Require Import Base.Res Base.Num Base.SMap Model.Axis Model.Event Model.Hist Model.Cut Model.ED Model.Fill Spec.CutSpec.
Local Open Scope Qc_scope.

(** the observable a systematic writes, and the value it writes given the values of the event *)
Definition writes (s : evsys) (n : string) : Prop := nth_error (osNames (esOut s)) 0 = Some n.
Definition new_value (s : evsys) (e : event) (w : Qc) : Prop :=
  exists n v, writes s n /\ has_value e n v /\
  match esKind s with
  | KShift => w = v + esVal s
  | KScale => w = v * esVal s
  | KRecon => exists m t, nth_error (osNames (esIn s)) 0 = Some m /\ has_value e m t /\ w = t + esVal s * (v - t)
  end.
(** e' is e with that one observable replaced *)
Definition effect (s : evsys) (e e' : event) : Prop :=
  exists n w, writes s n /\ new_value s e w /\ has_value e' n w /\
    evNames e' = evNames e /\ (forall m v, m <> n -> (has_value e' m v <-> has_value e m v)).
(** all of them, first to last *)
Inductive in_order : list evsys -> event -> event -> Prop :=
| io_nil e : in_order [] e e
| io_cons s ss e e1 e2 : effect s e e1 -> in_order ss e1 e2 -> in_order (s :: ss) e e2.

(** every cut finds its observable *)
Definition cuttable (cs : list cut) (e : event) : Prop := forall c, In c cs -> exists v, has_value e (cut_obs c) v.
(** the named values of an event, in order *)
Definition values (names : list string) (e : event) (vals : list Qc) : Prop := Forall2 (has_value e) names vals.
