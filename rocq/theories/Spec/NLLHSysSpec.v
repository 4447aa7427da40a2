(** Vocabulary for the likelihood with systematics (C89). *)
From Coq Require Import ZArith Reals.
From Verif Require Import Base.Res Base.Num Base.RNum Base.SMap Model.Axis Model.Event Model.Hist Model.ED Model.Param Model.Matrix Model.SystMan
  Model.EDMan Model.NLLH Spec.HistSpec Spec.ParamSpec Spec.EDManSpec Spec.SystManSpec Spec.NLLHSpec.

(** no buffers; every pdf is a proper histogram over the observables of the data *)
Definition steady (obs : list string) (o : nlop) : Prop :=
  match o with
  | NAdd b g r st => osNames (bdObs b) = obs /\ h_reach (bdHist b)
  | NData b => osNames (bdObs b) = obs
  | NBuffer _ _ _ => False
  | _ => True
  end.
(** what the history asks of the systematics: systematics added, pdfs handed in with their groups
    (a pdf without a generated rate is refused while Barlow-Beeston is on) *)
Fixpoint sys_calls (bb : bool) (ops : list nlop) : list smop :=
  match ops with
  | [] => []
  | NSys p g :: t => Add p g :: sys_calls bb t
  | NAdd b gs None st :: t => (if bb then [] else [AddDist (bdName b) gs]) ++ sys_calls bb t
  | NAdd b gs (Some _) st :: t => AddDist (bdName b) gs :: sys_calls bb t
  | NBB x :: t => sys_calls x t
  | _ :: t => sys_calls bb t
  end.
(** those that were not refused: a systematic is refused in the global group when its name is known already,
    a pdf when one of its groups is unknown or two of its systematics have the same name (C27, C68) *)
Definition sys_accepted (names : nat -> string) (ops : list nlop) : list smop :=
  accepted (sm_new (fun p => mkSyst (names p) mat_empty (mat_empty, Ok tt))) (sys_calls false ops).
(** the systematics of a group, oldest first; q is a systematic of the statistic *)
Definition group_in (names : nat -> string) (ops : list nlop) (g : string) : list nat := SystManSpec.added g (sys_accepted names ops).
Definition is_sys (names : nat -> string) (ops : list nlop) (q : nat) : Prop := exists g, In q (group_in names ops g).
(** the systematics acting on a pdf, in the order in which they act; none when its registration was refused *)
Definition acting_on (names : nat -> string) (ops : list nlop) (b : bed) : list nat :=
  match regd (bdName b) (sys_accepted names ops) with
  | Some gs => acting (group_in names ops) gs
  | None => []
  end.
(** the parameters were registered after the last systematic was added *)
Definition registered (ops : list nlop) : Prop :=
  exists o1 o2, ops = o1 ++ NReg :: o2 /\ Forall (fun o => match o with NSys _ _ => False | _ => True end) o2.
(** systematics with the same name are the same *)
Definition distinct_names (names : nat -> string) (ops : list nlop) : Prop :=
  forall q q', is_sys names ops q -> is_sys names ops q' -> names q = names q' -> q = q'.
(** contents of a pdf after its systematics have acted one after the other; M is the response of each *)
Definition responded (names : nat -> string) (ops : list nlop) (M : nat -> smat) (b : bed) : list Qc :=
  mvs (hNBins (bdHist b)) (map M (acting_on names ops b)) (hCont (bdHist b)).
(** expectation of bin k at the parameter values d *)
Definition expected_sys (names : nat -> string) (ops : list nlop) (M : nat -> smat) (d : smap Qc) (pdfs : list (bed * nfs)) (k : nat) : Qc :=
  qsum (map (fun p => norm_in d p * nth k (responded names ops M (fst p)) 0)%Qc pdfs).
(** the response matrices have the size of the pdfs they act on *)
Definition fits (names : nat -> string) (ops : list nlop) (M : nat -> smat) (pdfs : list (bed * nfs)) : Prop :=
  (forall g, exists n, Forall (fun q => sized n (M q)) (group_in names ops g)) /\
  (forall p, In p pdfs -> Forall (fun q => sized (hNBins (bdHist (fst p))) (M q)) (acting_on names ops (fst p))).

(** what evaluating against the expectation mu gives, whatever the expectation: nothing expected in some bin is an error;
    otherwise the constraints c decide unless some expectation is negative, whose logarithm is not a number *)
Definition outcome (n mu : nat -> Qc) (nbins : nat) (c : res Qc) : res R :=
  if existsb (fun k => qeqb (mu k) 0) (seq 0 nbins) then Throw std_runtime_error
  else match c with
       | Ok x => if forallb (fun k => qltb 0 (mu k)) (seq 0 nbins)
                 then Ok (rsum (map (fun k => poisson_nll (qr (n k)) (qr (mu k))) (seq 0 nbins)) + qr x)%R else NonFinite
       | NonFinite => NonFinite | Throw e => Throw e | UB => UB | Diverge => Diverge
       end.
(** what a fit does between two looks at the statistic *)
Definition tuning (o : nlop) : Prop := match o with NPars _ | NEval | NReg | NNorms _ => True | _ => False end.

(** with Barlow-Beeston: no pdf was refused by the systematics *)
Definition is_pdf (o : smop) : bool := match o with AddDist _ _ => true | _ => false end.
Definition pdfs_accepted (names : nat -> string) (ops : list nlop) : Prop :=
  filter is_pdf (sys_accepted names ops) = filter is_pdf (sys_calls false ops).
(** the events of a pdf that enter its Monte Carlo uncertainty: the fitted number, for an INDIRECT pdf times the integral of the pdf
    after its systematics have acted *)
Definition mc_events (names : nat -> string) (ops : list nlop) (M : nat -> smat) (d : smap Qc) (p : bed * nfs) : Qc :=
  match snd p with NIndirect => norm_in d p * qsum (responded names ops M (fst p)) | _ => norm_in d p end%Qc.
Definition sigma2_sys (names : nat -> string) (ops : list nlop) (M : nat -> smat) (d : smap Qc) (l : list (bed * nfs * option Z)) (mu : Qc) : Qc :=
  qsum (map (fun p => mc_events names ops M d (fst p) / (qz (rate_of p) * mu * mu))%Qc l).
(** a response that leaves n bins alone *)
Definition leaves (n : nat) (m : smat) : Prop := forall i j, (i < n)%nat -> (j < n)%nat -> sF m i j = if Nat.eqb i j then 1%Qc else 0%Qc.
