(** Vocabulary for configuring a statistic in bulk (C91) and handing it a pdf manager (C92). *)
From Coq Require Import ZArith.
From Verif Require Import Base.Res Base.Num Base.SMap Model.Axis Model.Event Model.Hist Model.ED Model.Param Model.SystMan Model.EDMan Model.Constraint Model.NLLH Model.Bulk
  Spec.NLLHSpec Spec.ConstraintSpec.
(** the answer of a single call *)
Definition answer (s : nllh) (o : nlop) : res unit :=
  match o with
  | NAdd b g r st => snd (nl_addPdf s b g r st)
  | NSys p g => snd (nl_addSys s p g)
  | _ => Ok tt
  end.
(** the same as making the calls one after the other, up to and including the first that is refused *)
Definition in_turn (s : nllh) (calls : list nlop) (out : nllh * res unit) : Prop :=
  exists done rest, calls = done ++ rest /\ fst out = nlrun s done /\
    (forall pre o post, calls = pre ++ o :: post -> (List.length pre + 1 < List.length done)%nat -> answer (nlrun s pre) o = Ok tt) /\
    ((rest = [] /\ snd out = Ok tt /\ forall pre o, done = pre ++ [o] -> answer (nlrun s pre) o = Ok tt) \/
     (exists pre o, done = pre ++ [o] /\ answer (nlrun s pre) o = snd out /\ snd out <> Ok tt)).
(** the calls AddPdfs stands for: pdf i with its groups, rate and status *)
Definition pdf_calls (bs : list bed) (gs : list (list string)) (rs : list (option Z)) (sts : list nfs) : list nlop :=
  map (fun q => match q with (b, (g, (r, st))) => NAdd b g r st end) (combine bs (combine gs (combine rs sts))).
Definition sys_added (ps : list nat) (gs : list string) : list nlop := map (fun q => NSys (fst q) (snd q)) (combine ps gs).
(** statuses as given, or INDIRECT for every pdf *)
Definition statuses (bs : list bed) (sts : option (list nfs)) : list nfs := match sts with Some l => l | None => repeat NIndirect (List.length bs) end.
(** the three forms of SetConstraint of a statistic (C33), and what each asks of a constraint manager *)
Inductive statcon := SSym (n : string) (mean sigma : Qc) | SAsym (n : string) (mean lo hi : Qc)
                   | SCorr (n1 : string) (m1 s1 : Qc) (n2 : string) (m2 s2 corr : Qc).
Definition statcall (s : nllh) (o : statcon) : nllh * res unit :=
  match o with
  | SSym n m w => nl_constrain s n m w
  | SAsym n m lo hi => nl_constrainAsym s n m lo hi
  | SCorr n1 m1 s1 n2 m2 s2 c => nl_constrainPair s n1 m1 s1 n2 m2 s2 c
  end.
Definition meant (o : statcon) : cop :=
  match o with
  | SSym n m w => CSym n m w
  | SAsym n m lo hi => CAsym n m hi lo
  | SCorr n1 m1 s1 n2 m2 s2 c => CCorr n1 m1 s1 n2 m2 s2 c
  end.
Definition statrun (s : nllh) (l : list statcon) : nllh := fold_left (fun s o => fst (statcall s o)) l s.
