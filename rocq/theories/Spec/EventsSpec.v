(** Vocabulary for data given as events (C107, C108). *)
From Coq Require Import ZArith Reals.
From Verif Require Import Base.Res Base.Num Base.SMap Model.Axis Model.Event Model.Hist Model.ED Model.EDMan Model.NLLH Spec.NLLHSpec Spec.NLLHSysSpec Spec.FitSpec Spec.AsimovSpec Spec.ClientSpec.

(** a call that does not change the data or the cuts *)
Definition keeps_data (o : nlop) : Prop := match o with NData _ | NDataSet _ | NCuts _ => False | _ => True end.
(** a program that never does: whatever it sees, it sets parameters, reads them back, evaluates, or makes other calls of any kind *)
Fixpoint only_keeps_data {A} (c : client A) : Prop :=
  match c with
  | Stop _ => True
  | Look d n k => forall g v, only_keeps_data (k g v)
  | Poke o c' => keeps_data o /\ only_keeps_data c'
  end.
