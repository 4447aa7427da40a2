(** Vocabulary for programs that use a sum of binned likelihoods (C113): a joint fit. *)
From Coq Require Import ZArith Reals.
From Verif Require Import Base.Res Base.Num Base.RNum Base.SMap Model.Axis Model.Event Model.Hist Model.ED Model.Param Model.Matrix Model.SystMan
  Model.EDMan Model.Constraint Model.NLLH Model.Sum
  Spec.HistSpec Spec.ParamSpec Spec.EDManSpec Spec.SystManSpec Spec.NLLHSpec Spec.NLLHSysSpec Spec.FitSpec Spec.AsimovSpec.

(** an experiment: the systematics there are, and the calls that configure its likelihood *)
Record jexp := mkJ { jNames : nat -> string; jPar : nat -> comp; jBuild : nat -> comp -> smat * res unit; jObs : list string; jOps : list nlop; jData : bed }.
Definition jstart (e : jexp) : nllh := nlrun (nl_new (jNames e) (jPar e) (jBuild e)) (jOps e).
Definition jgood (e : jexp) : Prop := configured (jNames e) (jPar e) (jBuild e) (jObs e) (jOps e) (jData e).
(** the fit parameters of an experiment: its fitted normalisations and the parameters of its systematics *)
Definition owns (e : jexp) (n : string) : Prop :=
  In n (fitted (NLLHSpec.added (jOps e))) \/ exists q, is_sys (jNames e) (jOps e) q /\ In n (c_names (jPar e q)).
(** d has them all, and the response matrices can be built there *)
Definition jpoint (e : jexp) (d : smap Qc) : Prop :=
  gives_all (jNames e) (jPar e) (jOps e) d /\ responds (jNames e) (jPar e) (jBuild e) (jOps e) d.
(** what the likelihood of the experiment alone evaluates to at d *)
Definition jvalue (e : jexp) (d : smap Qc) : res R := value_at (jNames e) (jPar e) (jBuild e) (jOps e) d.

(** the total of outcomes: the first that is not a number at all ends it; a non-finite one spoils it *)
Fixpoint all_of (l : list (res R)) : res R :=
  match l with
  | [] => Ok 0%R
  | Ok v :: t => match all_of t with Ok w => Ok (v + w)%R | r => r end
  | NonFinite :: t => match all_of t with Ok _ => NonFinite | r => r end
  | r :: _ => r
  end.
Definition as_real (x : res Qc) : res R := rmap qr x.

(** calls between the looks: on the sum, or on one of its likelihoods directly *)
Inductive jcall := JSet (d : smap Qc) | JReg | JEval | JOne (q : nat) (o : nlop).
Definition jdo (fuel s : nat) (h : theap nllh) (o : jcall) : theap nllh :=
  match o with
  | JSet d => fst (ts_set nl_tsops fuel h s d)
  | JReg => fst (ts_reg nl_tsops fuel h s)
  | JEval => fst (ts_eval nl_tsops fuel h s)
  | JOne q o => match h q with Some (TLeaf x) => tput h q (TLeaf (nldo x o)) | _ => h end
  end.
(** A program stops with an answer; or sets the parameters d of the sum, reads them back, evaluates n + 1 times and goes on depending on what
    it saw; or makes some other call. *)
Inductive jclient (A : Type) :=
| JStop (a : A)
| JLook (d : smap Qc) (n : nat) (k : res (smap Qc) -> res R -> jclient A)
| JPoke (o : jcall) (c : jclient A).
Arguments JStop {A}. Arguments JLook {A}. Arguments JPoke {A}.
Fixpoint on_sum {A} (fuel s : nat) (c : jclient A) (h : theap nllh) : A :=
  match c with
  | JStop a => a
  | JLook d n k =>
      let h1 := Nat.iter n (fun h => fst (ts_eval nl_tsops fuel h s)) (fst (ts_set nl_tsops fuel h s d)) in
      on_sum fuel s (k (ts_get nl_tsops fuel h1 s) (snd (ts_eval nl_tsops fuel h1 s))) (fst (ts_eval nl_tsops fuel h1 s))
  | JPoke o c' => on_sum fuel s c' (jdo fuel s h o)
  end.
Fixpoint on_functions {A} (c : jclient A) (g : smap Qc -> res (smap Qc)) (f : smap Qc -> res R) : A :=
  match c with
  | JStop a => a
  | JLook d n k => on_functions (k (g d) (f d)) g f
  | JPoke o c' => on_functions c' g f
  end.
Fixpoint jproper {A} (l : list nat) (P : smap Qc -> Prop) (c : jclient A) (g : smap Qc -> res (smap Qc)) (f : smap Qc -> res R) : Prop :=
  match c with
  | JStop a => True
  | JLook d n k => P d /\ jproper l P (k (g d) (f d)) g f
  | JPoke o c' => (match o with JOne q o' => In q l /\ tuning o' | _ => True end) /\ jproper l P c' g f
  end.
(** g gives, of d, what belongs to one of the experiments *)
Definition picks (exps : nat -> jexp) (l : list nat) (P : smap Qc -> Prop) (g : smap Qc -> res (smap Qc)) : Prop :=
  forall d, P d -> exists m, g d = Ok m /\ swf m /\
    forall n v, sfind n m = Some v <-> sfind n d = Some v /\ exists q, In q l /\ owns (exps q) n.
