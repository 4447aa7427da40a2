(** Independent vocabulary for C84. *)
From Verif Require Import Base.Res Base.Num Base.SMap Model.Axis Model.Event Model.Gauss Model.Smear Spec.CutSpec Spec.FillSpec Spec.GaussSpec.
Local Open Scope Qc_scope.
(** a one-dimensional kernel *)
Definition kernel_ok (c : cpdf) : Prop :=
  match c with
  | CJump (Some g) => sized g /\ gND g = 1%nat
  | CVary fns (Some g) => swf fns /\ sized g /\ gND g = 1%nat
  | _ => False
  end.
(** value of a parameter at the point x: that of its dependence, or else what it was set to *)
Definition parameter_at (fns : smap (list Qc -> res Qc)) (name : string) (set_to : Qc) (x : list Qc) (v : Qc) : Prop :=
  match sfind name fns with Some f => f x = Ok v | None => v = set_to end.
(** mean and width the kernel draws with at the point x, all dependences being defined there *)
Definition draws_with (c : cpdf) (x : list Qc) (m sd : Qc) : Prop :=
  match c with
  | CJump (Some g) => m = mean_of g 0 /\ sd = std_of g 0
  | CVary fns (Some g) => (forall n f, sfind n fns = Some f -> exists v, f x = Ok v) /\
      parameter_at fns (mean_name g 0) (mean_of g 0) x m /\ parameter_at fns (std_name g 0) (std_of g 0) x sd
  | _ => False
  end.
(** e' is e with observable n replaced by w *)
Definition replaces (e : event) (n : string) (w : Qc) (e' : event) : Prop :=
  has_value e' n w /\ evNames e' = evNames e /\ forall m v, m <> n -> (has_value e' m v <-> has_value e m v).
(** the event has the observables, and the kernel its parameters there *)
Definition smearable (c : cpdf) (names : list string) (e : event) : Prop :=
  exists vals m sd, values names e vals /\ draws_with c vals m sd.
(** e' is e with its first observable moved by draw number k *)
Definition smeared (gaus : nat -> Qc -> Qc -> Qc) (c : cpdf) (names : list string) (k : nat) (e e' : event) : Prop :=
  exists n ns v vs m sd, names = n :: ns /\ values names e (v :: vs) /\ draws_with c (v :: vs) m sd /\ replaces e n (v + gaus k m sd) e'.
(** same events from the same events, whatever came before *)
Definition same_results (gaus : nat -> Qc -> Qc -> Qc) (s s' : evconv) : Prop :=
  forall k e, rmap (fun r => (snd (fst r), snd r)) (ec_apply gaus s k e) = rmap (fun r => (snd (fst r), snd r)) (ec_apply gaus s' k e).
