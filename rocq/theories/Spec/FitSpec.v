(** Vocabulary for a grid search over a live likelihood (C95). *)
From Coq Require Import ZArith Reals.
From Verif Require Import Base.Res Base.Num Base.RNum Base.SMap Model.Axis Model.Event Model.Hist Model.ED Model.Param Model.Matrix Model.SystMan
  Model.EDMan Model.NLLH Model.Grid Model.Fit Spec.HistSpec Spec.ParamSpec Spec.EDManSpec Spec.SystManSpec Spec.NLLHSpec Spec.NLLHSysSpec.

(** a statistic configured by the calls ops, its parameters registered and set to p, without any search: and what it evaluates to *)
Definition at_point (names : nat -> string) (par : nat -> comp) (build : nat -> comp -> smat * res unit) (ops : list nlop) (p : smap Qc) : nllh :=
  fst (nl_setParams (nlrun (nl_new names par build) (ops ++ [NReg])) p).
Definition value_at (names : nat -> string) (par : nat -> comp) (build : nat -> comp -> smat * res unit) (ops : list nlop) (p : smap Qc) : res R :=
  snd (nl_eval (at_point names par build ops p)).
(** the response matrices can be built at p and have the right sizes *)
Definition responds (names : nat -> string) (par : nat -> comp) (build : nat -> comp -> smat * res unit) (ops : list nlop) (p : smap Qc) : Prop :=
  let s := at_point names par build ops p in
  (forall q, is_sys names ops q -> snd (build q (nlPar s q)) = Ok tt) /\ fits names ops (fun q => fst (build q (nlPar s q))) (NLLHSpec.added ops).
(** the quantity compared *)
Definition rscore (g : grid) (x : R) : R := if grMaximise g then (- x)%R else x.
(** every long enough run of the search ends with the statistic in the state s' and the result r *)
Definition fends (g : grid) (s s' : nllh) (r : fres) : Prop := exists n, forall fuel, (n <= fuel)%nat -> fOptimise g s fuel = (s', Ok r).
