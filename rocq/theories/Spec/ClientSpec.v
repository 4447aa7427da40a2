(** Programs that use a statistic (C97): an optimiser, a sampler, a scan, a user's own loop. *)
From Coq Require Import ZArith Reals.
From Verif Require Import Base.Res Base.Num Base.RNum Base.SMap Model.Axis Model.Event Model.Hist Model.ED Model.Param Model.Matrix Model.SystMan
  Model.EDMan Model.NLLH Spec.HistSpec Spec.ParamSpec Spec.EDManSpec Spec.SystManSpec Spec.NLLHSpec Spec.NLLHSysSpec Spec.FitSpec Spec.AsimovSpec.

(** A program stops with an answer; or sets the parameters d, reads them back, evaluates n + 1 times and goes on depending on what it saw; or makes
    some other call of a fit (registering, setting any parameters or normalisations, evaluating) and ignores its outcome. *)
Inductive client (A : Type) :=
| Stop (a : A)
| Look (d : smap Qc) (n : nat) (k : res (smap Qc) -> res R -> client A)
| Poke (o : nlop) (c : client A).
Arguments Stop {A}. Arguments Look {A}. Arguments Poke {A}.
(** what happens on a statistic *)
Fixpoint on_statistic {A} (c : client A) (s : nllh) : nllh * A :=
  match c with
  | Stop a => (s, a)
  | Look d n k => let s1 := nlrun (fst (nl_setParams s d)) (repeat NEval n) in
                  on_statistic (k (nl_getParams s1) (snd (nl_eval s1))) (fst (nl_eval s1))
  | Poke o c' => on_statistic c' (nldo s o)
  end.
(** what would happen if the statistic were two functions of the parameters *)
Fixpoint on_function {A} (c : client A) (g : smap Qc -> res (smap Qc)) (f : smap Qc -> res R) : A :=
  match c with
  | Stop a => a
  | Look d n k => on_function (k (g d) (f d)) g f
  | Poke o c' => on_function c' g f
  end.
(** every point looked at, along the way the functions send it, is one the configuration can handle; every other call is one of a fit *)
Fixpoint proper {A} (P : smap Qc -> Prop) (c : client A) (g : smap Qc -> res (smap Qc)) (f : smap Qc -> res R) : Prop :=
  match c with
  | Stop a => True
  | Look d n k => P d /\ proper P (k (g d) (f d)) g f
  | Poke o c' => tuning o /\ proper P c' g f
  end.
