(** Configuring a statistic in bulk (C91), handing it a prepared pdf manager (C92); the probability of an event (C28); the two widths
    of a constraint set through the statistic (C34). *)
From Coq Require Import ZArith Lia.
From Verif Require Import Base.Res Base.Num Base.SMap Model.Axis Model.Event Model.Hist Model.ED Model.Comp Model.Param
  Model.Matrix Model.SystMan Model.Shrink Model.EDMan Model.Constraint Model.NLLH Model.Bulk
  Spec.AxisSpec Spec.HistSpec Spec.ParamSpec Spec.EDManSpec Spec.FillSpec Spec.CompSpec Spec.NLLHSpec Spec.BulkSpec
  Proofs.BulkP Props.AxisProps Props.HistProps Props.ShrinkProps Props.EDManProps Props.CompProps Props.NLLHProps.
Local Open Scope Qc_scope.

(** C91.  With lists of matching lengths, every form of AddPdfs is the same as calling AddPdf for each pdf with its own groups, rate
    and status, in order, stopping at the first refusal; without rates, a Barlow-Beeston statistic refuses before any change *)
Theorem C91_addPdfs_partial : forall s bs gs rs sts,
  List.length gs = List.length bs -> List.length rs = List.length bs -> (forall l, sts = Some l -> List.length l = List.length bs) ->
  let st := statuses bs sts in let n := List.length bs in
  in_turn s (pdf_calls bs (repeat [EmptyString] n) (map Some rs) st) (nl_addPdfsR s bs rs sts) /\
  in_turn s (pdf_calls bs gs (map Some rs) st) (nl_addPdfsGR s bs gs rs sts) /\
  (nlBB s = false -> in_turn s (pdf_calls bs (repeat [EmptyString] n) (repeat None n) st) (nl_addPdfs s bs sts) /\
                     in_turn s (pdf_calls bs gs (repeat None n) st) (nl_addPdfsG s bs gs sts)) /\
  (nlBB s = true -> nl_addPdfs s bs sts = (s, Throw OXSXException) /\ nl_addPdfsG s bs gs sts = (s, Throw OXSXException)).
Proof. exact addPdfs_pkg. Qed.
Print Assumptions C91_addPdfs_partial.
Theorem C91_systematics : forall s ps gs,
  in_turn s (sys_added ps (repeat EmptyString (List.length ps))) (nl_addSystematics s ps) /\
  (List.length gs = List.length ps -> in_turn s (sys_added ps gs) (nl_addSystematicsG s ps gs)).
Proof. exact addSystematics_pkg. Qed.
Print Assumptions C91_systematics.
(** lists of different lengths are refused with nothing changed: groups always, statuses except in the form with groups and rates *)
Theorem C91_mismatch_partial : forall s bs gs rs l ps gr,
  (List.length gs <> List.length bs -> (forall sts, nlBB s = false -> nl_addPdfsG s bs gs sts = (s, Throw DimensionError)) /\ forall sts, nl_addPdfsGR s bs gs rs sts = (s, Throw DimensionError)) /\
  (List.length l <> List.length bs -> nl_addPdfsR s bs rs (Some l) = (s, Throw DimensionError) /\
     (nlBB s = false -> nl_addPdfs s bs (Some l) = (s, Throw DimensionError) /\ nl_addPdfsG s bs gs (Some l) = (s, Throw DimensionError))) /\
  (List.length gr <> List.length ps -> nl_addSystematicsG s ps gr = (s, Throw DimensionError)).
Proof. exact mismatch_pkg. Qed.
Print Assumptions C91_mismatch_partial.
(** not so for rates, nor for statuses beside rates: too short a list throws std::out_of_range after the earlier pdfs went in, too
    long a one is accepted *)
Theorem C91_rates_refuted : let s := ex_nl in
  (nl_addPdfsR s [ex_pa; ex_pb] [5%Z] None = (nlrun s [NAdd ex_pa [EmptyString] (Some 5%Z) NIndirect], Throw std_out_of_range)) /\
  (nl_addPdfsGR s [ex_pa; ex_pb] [[EmptyString]; [EmptyString]] [5%Z; 6%Z] (Some [NDirect]) =
     (nlrun s [NAdd ex_pa [EmptyString] (Some 5%Z) NDirect], Throw std_out_of_range)) /\
  (nl_addPdfsR s [ex_pa] [5%Z; 6%Z] None = (nlrun s [NAdd ex_pa [EmptyString] (Some 5%Z) NIndirect], Ok tt)) /\
  List.length (emOrig (nlPm (nlrun s [NAdd ex_pa [EmptyString] (Some 5%Z) NIndirect]))) = 1%nat /\ List.length (emOrig (nlPm s)) = 0%nat.
Proof. cbv zeta. split; [reflexivity|]. split; [reflexivity|]. split; [reflexivity|]. split; reflexivity. Qed.
Print Assumptions C91_rates_refuted.
Example C91_nonvacuous : 
  let bs := [ex_pa; ex_pb] in let gs := [[EmptyString]; ["g"%string]] in let sts := Some [NDirect; NIndirect] in
  List.length gs = List.length bs /\ (forall l, sts = Some l -> List.length l = List.length bs) /\ nlBB ex_nl = false /\
  pdf_calls bs gs (repeat None 2) (statuses bs sts) = [NAdd ex_pa [EmptyString] None NDirect; NAdd ex_pb ["g"%string] None NIndirect] /\
  answer ex_nl (NAdd ex_pa [EmptyString] None NDirect) = Ok tt /\
  snd (nl_addPdfsG ex_nl bs gs sts) <> Ok tt /\ snd (nl_addPdfs ex_nl bs sts) = Ok tt /\
  snd (nl_addSystematicsG ex_nl [0; 0]%nat ["g"; "h"]%string) = Ok tt.
Proof.
  cbv zeta. split; [reflexivity|]. split; [intros l [= <-]; reflexivity|]. split; [reflexivity|]. split; [reflexivity|]. split; [reflexivity|].
  split; [vm_compute; discriminate|]. split; reflexivity.
Qed.

(** C92.  A pdf manager handed over with SetPdfManager gives the same probabilities and normalisations inside the statistic as before *)
Theorem C92_same_expectation : forall t s k, let m := nlPm (nl_setPdfManager t s) in
  snd (em_binProb m k) = snd (em_binProb s k) /\ (forall e, snd (em_prob m e) = snd (em_prob s e)) /\ emNorms m = emNorms s.
Proof. intros t s k m. destruct (assign_pkg (nlPm t) s k) as [A [B [C _]]]. auto. Qed.
Print Assumptions C92_same_expectation.
(** its fit parameters are not: the statistic keeps the parameter names it had before *)
Theorem C92_parameters_refuted : 
  (forall t s, em_names (nlPm (nl_setPdfManager t s)) = em_names (nlPm t)) /\
  exists m, pdfs_of [EAdd ex_pa NIndirect] = [(ex_pa, NIndirect)] /\ m = emrun em_new [EAdd ex_pa NIndirect] /\ em_names m = ["a"%string] /\
    let s := nldo (nl_setPdfManager ex_nl m) NReg in nl_names s = Ok [] /\ nl_count s = Ok 0%nat /\
    snd (nl_setParams s (sof [("a"%string, qz 3)])) = Ok tt /\
    snd (em_binProb (nlPm (fst (nl_setParams s (sof [("a"%string, qz 3)])))) 0) = snd (em_binProb m 0).
Proof.
  split; [intros t s; exact (proj2 (proj2 (proj2 (assign_pkg (nlPm t) s 0))))|].
  eexists. split; [reflexivity|]. split; [reflexivity|]. split; [reflexivity|]. cbv zeta. split; [reflexivity|]. split; [reflexivity|]. split; reflexivity.
Qed.
Print Assumptions C92_parameters_refuted.
Example C92_nonvacuous : snd (em_binProb (nlPm (nl_setPdfManager ex_nl (fst (em_setAll (emrun em_new ex_emops) ex_d)))) 0) = Ok (qz 303).
Proof. vm_compute. reflexivity. Qed.

(** C28.  The probability of an event: each pdf's normalised content of the bin the event falls in, weighted by the normalisations *)
Theorem C28_event_partial : forall ops d reads e, let pdfs := pdfs_of ops in
  NoDup (fitted pdfs) -> direct_first pdfs -> (forall n, In n (fitted pdfs) -> has_key d n) -> Forall asks reads ->
  forall f, (forall p, In p pdfs -> exists i, bed_ok (fst p) /\ total (bdHist (fst p)) <> 0 /\ falls (fst p) e i /\
    f (fst p) = cont (bdHist (fst p)) i / total (bdHist (fst p))) ->
  exists s, em_setAll (emrun em_new ops) d = (s, Ok tt) /\
    snd (em_prob (emrun s reads) e) = Ok (qsum (map (fun p => norm_in d p * f (fst p)) pdfs)).
Proof. exact prob_pkg. Qed.
Print Assumptions C28_event_partial.
Definition ex_evops := [EAdd ex_be NDirect; EBin 0; EAdd ex_br NIndirect].
Definition ex_evd : smap Qc := sof [("e", qz 2); ("r", qz 3)]%string.
Example C28_event_nonvacuous : let pdfs := pdfs_of ex_evops in let e := ex_cell [1; 3]%nat in
  NoDup (fitted pdfs) /\ direct_first pdfs /\ (forall n, In n (fitted pdfs) -> has_key ex_evd n) /\
  Forall2 (fun p i => bed_ok (fst p) /\ total (bdHist (fst p)) <> 0 /\ falls (fst p) e i) pdfs [1; 3]%nat /\
  snd (em_prob (fst (em_setAll (emrun em_new ex_evops) ex_evd)) e) = Ok (qz 2 * qq 2 15 + qz 3 * qq 1 3).
Proof.
  cbv zeta. change (pdfs_of ex_evops) with [(ex_be, NDirect); (ex_br, NIndirect)]. split; [repeat constructor; cbn; intuition discriminate|].
  split. { intros i j bi bj. destruct i as [|[|[|i]]], j as [|[|[|j]]]; cbn [nth_error]; intros H1 H2; first [discriminate|lia]. }
  split; [intros n [<-|[<-|[]]]; eexists; reflexivity|]. split.
  - assert (F : Forall2 (fun b i => falls b (ex_cell [1; 3]%nat) i) [ex_be; ex_br] [1; 3]%nat).
    { apply (proj2 C56_nonvacuous). vm_compute. tauto. }
    destruct (proj1 C56_nonvacuous ex_be) as [A B]; [now left|]. destruct (proj1 C56_nonvacuous ex_br) as [C D]; [right; now left|].
    inversion F as [|x y u v F1 F2]; subst. inversion F2 as [|x2 y2 u2 v2 F3 F4]; subst.
    constructor; [split; [exact A|]; split; [exact B|exact F1]|]. constructor; [split; [exact C|]; split; [exact D|exact F3]|constructor].
  - vm_compute. reflexivity.
Qed.

(** C34.  SetConstraint(name, mean, sigma_lo, sigma_hi) of a statistic: the upper width counts from the mean upwards, the lower below *)
Theorem C34_statistic_sides : forall s n mean lo hi s' v x, nl_constrainAsym s n mean lo hi = (s', Ok tt) -> sfind n (cInd (nlCm s')) = Some x -> 0 < lo -> 0 < hi ->
  (mean <= v -> quad_eval x v = Ok ((v - mean) * (v - mean) / (qz 2 * hi * hi))) /\
  (v < mean -> quad_eval x v = Ok ((v - mean) * (v - mean) / (qz 2 * lo * lo))).
Proof. exact asym_pkg. Qed.
Print Assumptions C34_statistic_sides.
Example C34_statistic_nonvacuous : exists s' x, nl_constrainAsym ex_nl "a" (qz 5) (qz 1) (qz 2) = (s', Ok tt) /\ sfind "a"%string (cInd (nlCm s')) = Some x /\
  quad_eval x (qz 4) = Ok (qq 1 2) /\ quad_eval x (qz 7) = Ok (qq 1 2).
Proof. eexists _, _. split; [reflexivity|]. split; [reflexivity|]. split; vm_compute; f_equal; apply Qc_is_canon; reflexivity. Qed.
