(** Vocabulary for fits to data that equal the expectation (C96). *)
From Coq Require Import ZArith Reals.
From Verif Require Import Base.Res Base.Num Base.RNum Base.SMap Model.Axis Model.Event Model.Hist Model.ED Model.Param Model.Matrix Model.SystMan
  Model.EDMan Model.Constraint Model.NLLH Model.Grid Model.Fit Spec.HistSpec Spec.ParamSpec Spec.EDManSpec Spec.SystManSpec Spec.NLLHSpec Spec.NLLHSysSpec Spec.FitSpec.

(** a usable configuration with data D: no buffers, no Barlow-Beeston, systematics told apart by their names, fitted pdfs with distinct names *)
Definition configured (names : nat -> string) (par : nat -> comp) (build : nat -> comp -> smat * res unit) (obs : list string) (ops : list nlop) (D : bed) : Prop :=
  let pdfs := NLLHSpec.added ops in
  (forall q, comp_ok (par q) /\ ~ is_dict (par q)) /\ (forall q c c', comp_ok c -> comp_ok c' -> same_params c c' -> build q c = build q c') /\
  Forall (steady obs) ops /\ distinct_names names ops /\ bb_in ops = false /\
  data_in ops = Some D /\ h_reach (bdHist D) /\ NoDup (fitted pdfs) /\ direct_first pdfs /\ covers D pdfs.
(** d gives every normalisation and every parameter of a systematic *)
Definition gives_all (names : nat -> string) (par : nat -> comp) (ops : list nlop) (d : smap Qc) : Prop :=
  swf d /\ (forall n, In n (fitted (NLLHSpec.added ops)) -> has_key d n) /\ (forall q n, is_sys names ops q -> In n (c_names (par q)) -> has_key d n).
(** the expectation of bin k, and the value of the constraints, at the parameters d *)
Definition mu_at (names : nat -> string) (par : nat -> comp) (build : nat -> comp -> smat * res unit) (ops : list nlop) (d : smap Qc) (k : nat) : Qc :=
  expected_sys names ops (fun q => fst (build q (nlPar (at_point names par build ops d) q))) d (NLLHSpec.added ops) k.
Definition con_at (names : nat -> string) (par : nat -> comp) (build : nat -> comp -> smat * res unit) (ops : list nlop) (d : smap Qc) : res Qc :=
  bind (nl_getParams (at_point names par build ops d)) (cman_eval (con_in ops)).
(** the data are the expectation at d0, which is positive everywhere *)
Definition asimov (names : nat -> string) (par : nat -> comp) (build : nat -> comp -> smat * res unit) (ops : list nlop) (D : bed) (d0 : smap Qc) : Prop :=
  forall k, (k < hNBins (bdHist D))%nat -> cont (bdHist D) k = mu_at names par build ops d0 k /\ (0 < mu_at names par build ops d0 k)%Qc.
(** no systematics were added *)
Definition no_systematics (ops : list nlop) : Prop := Forall (fun o => match o with NSys _ _ => False | _ => True end) ops.
(** the fitted pdfs are linearly independent on the bins of the data *)
Definition independent (D : bed) (pdfs : list (bed * nfs)) : Prop :=
  forall a : string -> Qc, (forall k, (k < hNBins (bdHist D))%nat -> qsum (map (fun p => if fittable (snd p) then a (bdName (fst p)) * cont (bdHist (fst p)) k else 0)%Qc pdfs) = 0%Qc) ->
  forall n, In n (fitted pdfs) -> a n = 0%Qc.
