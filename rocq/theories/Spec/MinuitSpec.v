(** Independent vocabulary for C62, C79. *)
From Coq Require Import ZArith.
From Verif Require Import Base.Res Base.Num Base.SMap Model.Hist Model.Matrix Model.Minuit Spec.SystSpec.
Local Open Scope Qc_scope.
(** std::map invariants of the dictionaries a user can set *)
Definition dicts_ok (m : minuit) : Prop := swf (mVals m) /\ swf (mErrs m) /\ swf (mMin m) /\ swf (mMax m) /\ swf (mSet m).
Definition same_keys {A B} (a : smap A) (b : smap B) : Prop := forall k, In k (skeys a) <-> In k (skeys b).
Definition ranges_ok (m : minuit) : Prop := forall k lo hi, sfind k (mMin m) = Some lo -> sfind k (mMax m) = Some hi -> lo < hi.
Definition method_known (s : string) : Prop := s = "Migrad"%string \/ s = "Minimize"%string \/ s = "Simplex"%string.
(** a configuration Optimise has no reason to refuse *)
Definition ready (m : minuit) (ts : stat) : Prop :=
  dicts_ok m /\ same_keys (mMin m) (mMax m) /\ same_keys (mErrs m) (mVals m) /\ ranges_ok m /\ method_known (mMethod m) /\
  tsNames ts = skeys (mErrs m) /\ (forall n, In n (mFixed m) -> In n (skeys (mErrs m))).
(** the dictionary that gives names in order the values in order *)
Definition is_dict (d : smap Qc) (names : list string) (vals : list Qc) : Prop :=
  List.length vals = List.length names /\ swf d /\ (forall k, In k (skeys d) <-> In k names) /\
  forall i, (i < List.length names)%nat -> sfind (nth i names ""%string) d = Some (nth i vals 0).
(** an answer with one value per parameter and a packed covariance of some number of parameters *)
Definition sized_answer (n : nat) (a : answer) (free : nat) : Prop := List.length (anParams a) = n /\ List.length (anCov a) = tri free.
(** Optimise hands pb to the minimiser: whatever the minimiser makes of pb is what happens *)
Definition runs_on (m : minuit) (ts : stat) (pb : problem) : Prop :=
  (forall M e, M pb = Throw e -> snd (mOptimise M ts m) = Throw e) /\ forall M, mOptimise M ts m = mOptimise (fun _ => M pb) ts m.
