(** Model of the calls that configure a statistic in bulk or hand it prepared managers:
    /repo/src/teststat/BinnedNLLH.cpp:147-236, 356-371, TestStatistic.cpp:5-8, 60-106, and
    /repo/src/fitutil/BinnedEDManager.cpp:20-47 (probability of an event). *)
From Coq Require Import ZArith.
From Verif Require Import Base.Res Base.Num Base.SMap Model.Axis Model.Event Model.Hist Model.ED Model.Comp Model.Param
  Model.SystMan Model.Shrink Model.EDMan Model.Constraint Model.NLLH.
Local Open Scope Qc_scope.
Local Open Scope res_scope.

(** the argument lists are read with at(i) before the call *)
Definition at_status (sts : option (list nfs)) (i : nat) : res nfs := match sts with None => Ok NIndirect | Some l => vat l i end.
Definition bad_status (bs : list bed) (sts : option (list nfs)) : bool :=
  match sts with None => false | Some l => negb (Nat.eqb (List.length bs) (List.length l)) end.
(** BinnedNLLH.cpp:147-172 AddPdfs with groups *)
Definition nl_addPdfsG (s : nllh) (bs : list bed) (gs : list (list string)) (sts : option (list nfs)) : nllh * res unit :=
  if nlBB s then (s, Throw OXSXException)
  else if negb (Nat.eqb (List.length bs) (List.length gs)) then (s, Throw DimensionError)
  else if bad_status bs sts then (s, Throw DimensionError)
  else iterS (fun s1 i => obind s1 (vat bs i) (fun b => obind s1 (vat gs i) (fun g => obind s1 (at_status sts i) (fun st =>
         nl_addPdf s1 b g None st)))) (seq 0 (List.length bs)) s.
(** BinnedNLLH.cpp:174-194 AddPdfs with generated rates: the number of rates is not checked *)
Definition nl_addPdfsR (s : nllh) (bs : list bed) (rs : list Z) (sts : option (list nfs)) : nllh * res unit :=
  if bad_status bs sts then (s, Throw DimensionError)
  else iterS (fun s1 i => obind s1 (vat bs i) (fun b => obind s1 (vat rs i) (fun r => obind s1 (at_status sts i) (fun st =>
         nl_addPdf s1 b [EmptyString] (Some r) st)))) (seq 0 (List.length bs)) s.
(** BinnedNLLH.cpp:196-216 AddPdfs *)
Definition nl_addPdfs (s : nllh) (bs : list bed) (sts : option (list nfs)) : nllh * res unit :=
  if nlBB s then (s, Throw OXSXException)
  else if bad_status bs sts then (s, Throw DimensionError)
  else iterS (fun s1 i => obind s1 (vat bs i) (fun b => obind s1 (at_status sts i) (fun st =>
         nl_addPdf s1 b [EmptyString] None st))) (seq 0 (List.length bs)) s.
(** BinnedNLLH.cpp:218-236 AddPdfs with groups and rates: neither the rates nor the statuses are checked *)
Definition nl_addPdfsGR (s : nllh) (bs : list bed) (gs : list (list string)) (rs : list Z) (sts : option (list nfs)) : nllh * res unit :=
  if negb (Nat.eqb (List.length bs) (List.length gs)) then (s, Throw DimensionError)
  else iterS (fun s1 i => obind s1 (vat bs i) (fun b => obind s1 (vat gs i) (fun g => obind s1 (vat rs i) (fun r => obind s1 (at_status sts i) (fun st =>
         nl_addPdf s1 b g (Some r) st))))) (seq 0 (List.length bs)) s.
(** TestStatistic.cpp:60-66 AddSystematics (all global), 68-74 AddSystematics with groups *)
Definition nl_addSystematics (s : nllh) (ps : list nat) : nllh * res unit := iterS (fun s1 p => nl_addSys s1 p EmptyString) ps s.
Definition nl_addSystematicsG (s : nllh) (ps : list nat) (gs : list string) : nllh * res unit :=
  if negb (Nat.eqb (List.length gs) (List.length ps)) then (s, Throw DimensionError)
  else iterS (fun s1 i => obind s1 (vat ps i) (fun p => obind s1 (vat gs i) (fun g => nl_addSys s1 p g))) (seq 0 (List.length ps)) s.

(** TestStatistic.cpp:76-106 SetConstraint: the statistic's own constraint manager; the asymmetric form takes the lower width
    first and hands it over second *)
Definition nl_onCm (s : nllh) (f : cman -> cman * res unit) : nllh * res unit :=
  match f (nlCm s) with (c, r) => (nl_withCm s c, r) end.
Definition nl_constrain (s : nllh) (n : string) (mean sigma : Qc) : nllh * res unit :=
  nl_onCm s (fun c => set_single c n (mk_quad mean sigma)).
Definition nl_constrainAsym (s : nllh) (n : string) (mean lo hi : Qc) : nllh * res unit :=
  nl_onCm s (fun c => set_single c n (mk_quad_asym mean hi lo)).
Definition nl_constrainPair (s : nllh) (n1 : string) (m1 s1 : Qc) (n2 : string) (m2 s2 corr : Qc) : nllh * res unit :=
  nl_onCm s (fun c => set_pair c n1 m1 s1 n2 m2 s2 corr).

(** BinnedEDManager.h:22-76: the implicit copy assignment assigns every member; ParameterManager's (ParameterManager.h:19)
    copies nothing, so the target keeps its parameter names, which refer to its own (now overwritten) containers *)
Definition em_assign (target source : edman) : edman :=
  mkEm (mkPm (pmMem (emPm source)) (pmPtrs (emPm target))) (emOrig source) (emWork source) (emStat source) (emAllDir source).
(** BinnedNLLH.cpp:368-371 SetPdfManager; TestStatistic.cpp:5-8 SetSystematicManager *)
Definition nl_setPdfManager (s : nllh) (m : edman) : nllh := nl_withPm s (em_assign (nlPm s) m).
Definition nl_setSystMan (s : nllh) (m : sman) : nllh := nl_withSm s m.
(** BinnedNLLH.cpp:356-366, ComponentManager.cpp:37-47 GetParameterNames, GetParameterCount *)
Definition nl_names (s : nllh) : res (list string) := rmap skeys (nl_getParams s).
Definition nl_count (s : nllh) : res nat := rmap (@List.length _) (nl_getParams s).

(** BinnedEDManager.cpp:20-47 Probability(event) *)
Definition em_prob (s : edman) (e : event) : edman * res Qc :=
  match em_reassert true s with
  | (s1, Ok _) => (s1, rmap fst (foldM (em_term s1 (fun w => bed_prob w e)) (seq 0 (List.length (emWork s1))) (0, 0%nat)))
  | (s1, Throw x) => (s1, Throw x)
  | (s1, UB) => (s1, UB) | (s1, NonFinite) => (s1, NonFinite) | (s1, Diverge) => (s1, Diverge)
  end.
