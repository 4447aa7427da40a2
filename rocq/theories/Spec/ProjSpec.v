(** Vocabulary for a likelihood whose data have fewer observables than its pdfs (C99). *)
From Coq Require Import ZArith.
From Verif Require Import Base.Res Base.Num Base.SMap Model.Axis Model.Event Model.Hist Model.ED Model.EDMan
  Spec.AxisSpec Spec.HistSpec Spec.EDManSpec Spec.NLLHSpec.
Local Open Scope Qc_scope.

(** setting the statistic up, in any order, before the first evaluation: every pdf is a proper histogram over the
    observables [obs]; the data are not restricted *)
Definition setting_pdfs (obs : list string) (o : nlop) : Prop :=
  match o with
  | NAdd b g r st => osNames (bdObs b) = obs /\ h_reach (bdHist b)
  | NEval => False
  | _ => True
  end.
(** no call asks for a buffer *)
Definition no_buffer (o : nlop) : Prop := match o with NBuffer _ _ _ => False | _ => True end.
