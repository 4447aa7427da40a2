(** Independent vocabulary for C110. *)
From Coq Require Import ZArith.
From Verif Require Import Base.Res Base.Num Base.SMap Model.Axis Model.Hist Model.HistTools Model.MCMC Model.Chain Spec.MCMCSpec.
Local Open Scope Qc_scope.

(** a history of Fill calls with the chain *)
Definition chain_calls (usable : bool) (guess : nat -> nat -> nat) (minima maxima : smap Qc) (maxIter : nat) (c : schain) (log : list entry) : res schain :=
  foldM (fun c e => scFill usable guess minima maxima maxIter c (eP e) (eV e) (eA e)) log c.
(** the rows tell the steps: the value, the decision, the number of the step, the value of every parameter under its branch *)
Definition tells (names : list string) (first : nat) (log : list entry) (rows : list chainrow) : Prop :=
  List.length rows = List.length log /\
  forall i e row, nth_error log i = Some e -> nth_error rows i = Some row ->
    chLogL row = eV e /\ chAcc row = eA e /\ chStep row = (first + i)%nat /\ List.length (chVals row) = List.length names /\
    forall k n, nth_error names k = Some n -> exists v, sfind n (eP e) = Some v /\ nth_error (chVals row) k = Some v.
(** the sum of squares about the mean, over n *)
Definition variance (vs : list Qc) : Qc :=
  let m := qsum vs / qn (List.length vs) in qsum (map (fun v => (v - m) * (v - m)) vs) / qn (List.length vs).
