(** Vocabulary for the likelihood with buffers and systematics together (C98). *)
From Coq Require Import ZArith.
From Verif Require Import Base.Res Base.Num Base.SMap Model.Axis Model.Event Model.Hist Model.ED Model.Shrink Model.EDMan
  Spec.AxisSpec Spec.HistSpec Spec.ShrinkSpec Spec.EDManSpec Spec.NLLHSpec.
Local Open Scope Qc_scope.

(** setting the statistic up, in any order, before the first evaluation: every pdf is a proper histogram over the
    observables of the data *)
Definition setting_up (obs : list string) (o : nlop) : Prop :=
  match o with
  | NAdd b g r st => osNames (bdObs b) = obs /\ h_reach (bdHist b)
  | NData b => osNames (bdObs b) = obs
  | NEval => False
  | _ => True
  end.
(** the calls about buffers *)
Fixpoint buffers (ops : list nlop) : list shop :=
  match ops with
  | [] => []
  | NBuffer n lo up :: t => SBuf n lo up :: buffers t
  | NOver b :: t => SOver b :: buffers t
  | _ :: t => buffers t
  end.
(** all sizes ever asked for, added up *)
Definition sizes (bs : list shop) : Z := fold_right (fun o a => match o with SBuf _ lo up => lo + up + a | SOver _ => a end)%Z 0%Z bs.
(** h' is h without its buffers: the axes trimmed, every kept bin as before, or - buffers as overflow - every bin of h
    added to the nearest kept bin *)
Definition cut_down (bs : list shop) (h h' : hist) : Prop :=
  h_reach h' /\
  Forall2 (fun a a' => trimmed (lower bs a) (upper bs a) a a') (acAxes (hAxes h)) (acAxes (hAxes h')) /\
  forall J, in_shape (shape_of h') J ->
    cont_at h' J =
    if over_wanted bs false
    then qsum (map (cont_at h) (filter (fun t => nlist_eqb (nearests (map (lower bs) (acAxes (hAxes h))) (shape_of h') t) J) (tuples (shape_of h))))
    else cont_at h (old_index (map (lower bs) (acAxes (hAxes h))) J).
(** a DIRECT pdf is normalised again over the kept bins, any other is not *)
Definition kept (p : bed * nfs) (h : hist) (k : nat) : Qc := if is_direct (snd p) then cont h k / total h else cont h k.
(** buffers are asked for on one axis only *)
Definition only_axis (n : string) (o : shop) : Prop := match o with SBuf m _ _ => m = n | SOver _ => True end.
