(** Independent vocabulary for the binned likelihood (C30, C31, C32). *)
From Coq Require Import ZArith Reals.
From Verif Require Import Base.Res Base.Num Base.RNum Base.SMap Model.Axis Model.Event Model.Cut Model.Hist Model.ED Model.Param
  Model.EDMan Model.Constraint Model.NLLH Spec.HistSpec Spec.ParamSpec Spec.FillSpec Spec.CutSpec Spec.EDManSpec.
Local Open Scope R_scope.

(** calls on a likelihood, in any order; failed calls leave whatever they leave *)
Inductive nlop :=
| NAdd (b : bed) (groups : list string) (rate : option Z) (st : nfs)
| NSys (p : nat) (g : string)
| NData (b : bed)
| NDataSet (d : list event)
| NCuts (cs : list cut)
| NCon (c : cman)
| NBB (b : bool)
| NBuffer (n : string) (lo up : Z)
| NOver (b : bool)
| NNorms (l : list Qc)
| NReg
| NPars (d : smap Qc)
| NEval.
Definition nldo (s : nllh) (o : nlop) : nllh :=
  match o with
  | NAdd b g r st => fst (nl_addPdf s b g r st)
  | NSys p g => fst (nl_addSys s p g)
  | NData b => nl_setData s b
  | NDataSet d => nl_setSet s (Some d)
  | NCuts cs => nl_setCuts s cs
  | NCon c => nl_withCm s c
  | NBB b => nl_setBB s b
  | NBuffer n lo up => nl_setBuffer s n lo up
  | NOver b => nl_setOver s b
  | NNorms l => fst (nl_setNorms s l)
  | NReg => nl_register s
  | NPars d => fst (nl_setParams s d)
  | NEval => fst (nl_eval s)
  end.
Definition nlrun (s : nllh) (ops : list nlop) : nllh := fold_left nldo ops s.

(** the data distribution in force: the last one supplied *)
Definition data_in (ops : list nlop) : option bed :=
  fold_left (fun a o => match o with NData b => Some b | NDataSet _ => None | _ => a end) ops None.
(** the constraints and the Barlow-Beeston switch in force *)
Definition con_in (ops : list nlop) : cman := fold_left (fun a o => match o with NCon c => c | _ => a end) ops cman_new.
Definition bb_in (ops : list nlop) : bool := fold_left (fun a o => match o with NBB b => b | _ => a end) ops false.
(** the pdfs accepted (a pdf without a generated rate is refused while Barlow-Beeston is on), and their rates *)
Fixpoint pdfs_from (bb : bool) (ops : list nlop) : list (bed * nfs * option Z) :=
  match ops with
  | [] => []
  | NAdd b g None st :: t => if bb then pdfs_from bb t else (b, st, None) :: pdfs_from bb t
  | NAdd b g (Some r) st :: t => (b, st, Some r) :: pdfs_from bb t
  | NBB x :: t => pdfs_from x t
  | _ :: t => pdfs_from bb t
  end.
Definition added (ops : list nlop) : list (bed * nfs) := map fst (pdfs_from false ops).
(** no buffers, no systematics; pdfs and data all have the observables obs *)
Definition plain (obs : list string) (o : nlop) : Prop :=
  match o with
  | NAdd b g r st => g = [EmptyString] /\ osNames (bdObs b) = obs
  | NData b => osNames (bdObs b) = obs
  | NSys _ _ | NBuffer _ _ _ => False
  | _ => True
  end.

(** expectation of bin k at the parameter values d *)
Definition expected (d : smap Qc) (pdfs : list (bed * nfs)) (k : nat) : Qc :=
  qsum (map (fun p => norm_in d p * cont (bdHist (fst p)) k)%Qc pdfs).
(** extended Poisson negative log likelihood of contents n with expectations mu (constant dropped) *)
Definition poisson_nll (n mu : R) : R := mu - n * ln mu.
(** p is d restricted to the names l *)
Definition restriction (p d : smap Qc) (l : list string) : Prop :=
  forall n v, sfind n p = Some v <-> In n l /\ sfind n d = Some v.
(** the Barlow-Beeston equation for the scale of a bin *)
Definition bb_root (sigma2 n mu beta : R) : Prop := beta * beta + (mu * sigma2 - 1) * beta - n * sigma2 = 0.
(** every pdf has a valid histogram with at least the bins of the data D *)
Definition covers (D : bed) (pdfs : list (bed * nfs)) : Prop :=
  Forall (fun p => h_reach (bdHist (fst p)) /\ (hNBins (bdHist D) <= hNBins (bdHist (fst p)))%nat) pdfs.
(** the likelihood of a list of contents and a list of expectations *)
Definition nll (n mu : list R) : R := rsum (map (fun p => poisson_nll (fst p) (snd p)) (combine n mu)).
(** the generated rates (unsigned, from an int) and the squared relative MC uncertainty of a bin with expectation mu *)
Definition all_rated (l : list (bed * nfs * option Z)) : Prop :=
  Forall (fun p => exists g, snd p = Some g /\ (0 < g < 2 ^ 31)%Z) l.
Definition rate_of (p : bed * nfs * option Z) : Z := match snd p with Some g => g | None => 0%Z end.
Definition sigma2_of (d : smap Qc) (l : list (bed * nfs * option Z)) (mu : Qc) : Qc :=
  qsum (map (fun p => norm_in d (fst p) / (qz (rate_of p) * mu * mu))%Qc l).
(** all pdfs are fitted with the same status *)
Definition uniform (pdfs : list (bed * nfs)) : Prop := Forall (fun p => snd p = NIndirect) pdfs \/ Forall (fun p => snd p = NDirect) pdfs.
(** D is the data binned on the axes of pdf o: bin k holds the number of events passing the cuts that fall in bin k *)
Definition binned (o : bed) (data : list event) (cs : list cut) (D : bed) : Prop :=
  bdName D = bdName o /\ bdObs D = bdObs o /\ same_axes (bdHist D) (bdHist o) /\
  exists keep vals, (forall e, In e data -> (keep e = true <-> passes_all cs e)) /\
    Forall2 (values (osNames (bdObs o))) (filter keep data) vals /\
    forall k, (k < hNBins (bdHist o))%nat ->
      cont (bdHist D) k = qn (List.length (filter (fun v => match h_findBin (bdHist o) v with Ok b => Nat.eqb b k | _ => false end) vals)).
