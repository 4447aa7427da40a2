(** Data given as events: C108. *)
From Coq Require Import ZArith Reals Permutation.
From Verif Require Import Base.Res Base.Num Base.RNum Base.SMap Model.Axis Model.Event Model.Cut Model.Hist Model.ED Model.Param
  Model.Matrix Model.SystMan Model.Shrink Model.EDMan Model.Fill Model.Constraint Model.NLLH
  Spec.AxisSpec Spec.CutSpec Spec.HistSpec Spec.ParamSpec Spec.FillSpec Spec.EDManSpec Spec.SystManSpec Spec.NLLHSpec Spec.NLLHSysSpec Spec.FitSpec Spec.AsimovSpec Spec.ClientSpec Spec.EventsSpec
  Proofs.EventsP Props.AxisProps Props.CutProps Props.ShrinkProps Props.EDManProps Props.FillProps Props.NLLHProps.
Local Open Scope Qc_scope.

(** C108.  After any calls at all (buffers, Barlow-Beeston, systematics, evaluations and failures included), giving events and cuts is giving the histogram that
    counts, on the axes of the first pdf, the events passing the cuts: a program that afterwards makes any calls except replacing data or cuts cannot tell the difference. *)
Theorem C108_histogram_partial : forall A names par build ops cs data o (c : client A), hd_error (map fst (NLLHSpec.added ops)) = Some o ->
  h_reach (bdHist o) -> List.length (osNames (bdObs o)) = hNDims (bdHist o) -> Forall cut_built cs -> (Z.of_nat (List.length data) < 2 ^ 31)%Z ->
  (forall e, In e data -> cuttable cs e /\ (passes_all cs e -> exists vals, values (osNames (bdObs o)) e vals)) -> only_keeps_data c ->
  exists D, binned o data cs D /\ h_reach (bdHist D) /\
    snd (on_statistic c (nlrun (nl_new names par build) (ops ++ [NCuts cs; NDataSet data]))) = snd (on_statistic c (nlrun (nl_new names par build) (ops ++ [NData D]))).
Proof. exact @events_pkg. Qed.
Print Assumptions C108_histogram_partial.
(** So the order of the events does not matter, nor that of the cuts, nor repeating a cut. *)
Theorem C108_order : forall A names par build ops cs cs' data data' o (c : client A), hd_error (map fst (NLLHSpec.added ops)) = Some o ->
  h_reach (bdHist o) -> List.length (osNames (bdObs o)) = hNDims (bdHist o) -> Forall cut_built cs -> (Z.of_nat (List.length data) < 2 ^ 31)%Z ->
  (forall e, In e data -> cuttable cs e /\ (passes_all cs e -> exists vals, values (osNames (bdObs o)) e vals)) ->
  Permutation data data' -> (forall x, In x cs <-> In x cs') -> only_keeps_data c ->
  snd (on_statistic c (nlrun (nl_new names par build) (ops ++ [NCuts cs; NDataSet data]))) = snd (on_statistic c (nlrun (nl_new names par build) (ops ++ [NCuts cs'; NDataSet data']))).
Proof. exact @events_order_pkg. Qed.
Print Assumptions C108_order.

(** Missing: cuts reach the data only at the first evaluation.  Once the likelihood has answered, new cuts have no effect at all. *)
Theorem C108_late_cuts_refuted : forall A names par build ops v cs (c : client A), snd (nl_eval (nlrun (nl_new names par build) ops)) = Ok v -> only_keeps_data c ->
  snd (on_statistic c (nlrun (nl_new names par build) (ops ++ [NEval; NCuts cs]))) = snd (on_statistic c (nlrun (nl_new names par build) (ops ++ [NEval]))).
Proof. exact @late_cuts_pkg. Qed.
Print Assumptions C108_late_cuts_refuted.

(** a program that evaluates twice, and goes on depending on the value, switching Barlow-Beeston on *)
Definition ex_eclient : client (res R) :=
  Look (sof [("f"%string, qz 3)]) 1 (fun _ v => match v with Ok _ => Stop v | _ => Poke (NBB true) (Look (sof [("f"%string, 1)]) 0 (fun _ v' => Stop v')) end).
Lemma ex_look A d n (k : _ -> _ -> client A) (g : res R -> A) s s' r v : nl_setParams s d = (s', r) -> snd (nl_eval (nlrun s' (repeat NEval n))) = Ok v -> (forall q, k q (Ok v) = Stop (g (Ok v))) ->
  snd (on_statistic (Look d n k) s) = g (Ok v).
Proof. intros E V K. cbn [on_statistic]. rewrite E. cbn [fst]. rewrite V, K. reflexivity. Qed.
Example C108_nonvacuous :
  hd_error (map fst (NLLHSpec.added ex_fops)) = Some ex_fpdf /\ h_reach (bdHist ex_fpdf) /\
  List.length (osNames (bdObs ex_fpdf)) = hNDims (bdHist ex_fpdf) /\ Forall cut_built ex_fcuts /\ (Z.of_nat (List.length ex_shifted) < 2 ^ 31)%Z /\
  (forall e, In e ex_shifted -> cuttable ex_fcuts e /\ (passes_all ex_fcuts e -> exists vals, values (osNames (bdObs ex_fpdf)) e vals)) /\
  only_keeps_data ex_eclient /\ Permutation ex_shifted (rev ex_shifted) /\ ex_shifted <> rev ex_shifted /\ (forall x, In x ex_fcuts <-> In x (ex_fcuts ++ ex_fcuts)) /\
  forall names par build, exists v, snd (on_statistic ex_eclient (nlrun (nl_new names par build) (ex_fops ++ [NCuts ex_fcuts; NDataSet ex_shifted]))) = Ok v.
Proof.
  destruct C31_dataset_nonvacuous as [H1 [H2 [H3 [H4 [H5 [H6 [H7 [H8 [H9 [H10 H11]]]]]]]]]].
  split; [exact H2|]. split; [exact (proj1 (Forall_inv H6))|]. split; [exact H3|]. split; [exact H4|]. split; [reflexivity|]. split; [exact H5|].
  split; [intros g [v| | | |]; cbn; auto|]. split; [apply Permutation_rev|]. split; [vm_compute; discriminate|]. split; [intros x; rewrite in_app_iff; tauto|].
  intros names par build.
  destruct (C31_dataset names par build ["energy"%string] ex_fops ex_fcuts ex_shifted ex_fpdf (sof [("f"%string, qz 3)]) 1) as [D [s [p [B [E [Rp [_ V]]]]]]]; auto; [right; left; reflexivity|reflexivity|].
  eexists. exact (ex_look _ _ _ _ (fun x => x) _ _ _ _ E (V 0 H10 eq_refl) (fun _ => eq_refl)).
Qed.
