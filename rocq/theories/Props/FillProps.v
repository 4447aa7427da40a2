(** C58, C59, C55: event systematics, filling distributions, counting experiments. *)
From Coq Require Import ZArith Reals.
From Verif Require Import Base.Res Base.Num Base.RNum Base.SMap Model.Axis Model.Event Model.Hist Model.Cut Model.ED Model.Fill Model.Count
  Spec.AxisSpec Spec.HistSpec Spec.CutSpec Spec.FillSpec Spec.CountSpec.
From Verif Require Import Proofs.FillP Proofs.FillP2 Proofs.FillP3 Proofs.CountP Props.AxisProps Props.CutProps.
Local Open Scope Qc_scope.

(** C58 *)
Theorem C58_one_observable : forall s e w, new_value s e w -> exists e', es_apply s e = Ok e' /\ effect s e e'.
Proof. exact effect_pkg. Qed.
Print Assumptions C58_one_observable.
Theorem C58_in_order : forall ss e e', esm_apply ss e = Ok e' -> in_order ss e e'.
Proof. exact order_pkg. Qed.
Print Assumptions C58_in_order.
Theorem C58_in_order_succeeds : forall ss e e', in_order ss e e' ->
  exists e2, esm_apply ss e = Ok e2 /\ evNames e2 = evNames e' /\ forall n v, has_value e2 n v <-> has_value e' n v.
Proof. exact order_total_pkg. Qed.
Print Assumptions C58_in_order_succeeds.
Theorem C58_missing_observable_throws : forall s e,
  (exists n, (writes s n \/ (esKind s = KRecon /\ nth_error (osNames (esIn s)) 0 = Some n)) /\ lacks e n) ->
  (exists n, writes s n) -> (esKind s = KRecon -> exists n, nth_error (osNames (esIn s)) 0 = Some n /\ ((exists v, has_value e n v) \/ lacks e n)) ->
  es_apply s e = Throw NotFoundError.
Proof. exact missing_pkg. Qed.
Print Assumptions C58_missing_observable_throws.
(** the setters proper check the range *)
Theorem C58_setters_partial : forall s v,
  (esKind s = KScale -> (v <= 0 -> es_setVal s v = (s, Throw ValueError)) /\ (0 < v -> es_setVal s v = (es_withVal s v, Ok tt))) /\
  (esKind s = KRecon -> (v < 0 -> es_setVal s v = (s, Throw ValueError)) /\ (0 <= v -> es_setVal s v = (es_withVal s v, Ok tt))) /\
  (esKind s = KShift -> es_setVal s v = (es_withVal s v, Ok tt)).
Proof. exact setters_pkg. Qed.
Print Assumptions C58_setters_partial.
(** the fit parameter setters do not *)
Theorem C58_every_setter_checks_refuted :
  (exists s v, esKind s = KScale /\ v <= 0 /\ esVal (fst (es_setPar s "scale" v)) = v /\ snd (es_setPar s "scale" v) = Ok tt) /\
  (exists s v, esKind s = KRecon /\ v < 0 /\ esVal (fst (es_setPars s [("correction"%string, v)])) = v /\ snd (es_setPars s [("correction"%string, v)]) = Ok tt).
Proof.
  split.
  - exists (es_new KScale), (qz (-1)). split; [reflexivity|]. split; [apply qleb_le; reflexivity|]. split; reflexivity.
  - exists (es_new KRecon), (qz (-1)). split; [reflexivity|]. split; [apply qltb_lt; reflexivity|]. split; reflexivity.
Qed.
Print Assumptions C58_every_setter_checks_refuted.

(** the fit component interface: one parameter p, with value v; any other name is refused and nothing changes *)
Theorem C58_parameter : forall s, exists p v,
  (forall n, (n = p -> es_getPar s n = Ok v) /\ (n <> p -> es_getPar s n = Throw ParameterError)) /\
  (forall n x, (n = p -> exists s', es_setPar s n x = (s', Ok tt) /\ es_getPar s' p = Ok x /\ esKind s' = esKind s /\ esIn s' = esIn s /\ esOut s' = esOut s) /\
     (n <> p -> es_setPar s n x = (s, Throw ParameterError))) /\
  (forall d, (forall x, sfind p d = Some x -> es_setPars s d = es_setPar s p x) /\ (sfind p d = None -> es_setPars s d = (s, Throw ParameterError))) /\
  (forall o n, (o = p -> exists s', es_rename s o n = (s', Ok tt) /\ es_getPar s' n = Ok v /\ (n <> p -> es_getPar s' p = Throw ParameterError) /\ esKind s' = esKind s /\ esIn s' = esIn s /\ esOut s' = esOut s) /\
     (o <> p -> es_rename s o n = (s, Throw ParameterError))).
Proof. exact params_pkg. Qed.
Print Assumptions C58_parameter.
(** a systematic whose parameter was never set changes nothing *)
Theorem C58_defaults_change_nothing : forall k ins outs e e', es_apply (es_setIn (es_setOut (es_new k) outs) ins) e = Ok e' ->
  evNames e' = evNames e /\ forall n v, has_value e' n v <-> has_value e n v.
Proof. exact defaults_pkg. Qed.
Print Assumptions C58_defaults_change_nothing.
Example C58_defaults_nonvacuous : es_getPar (es_new KShift) "shift" = Ok 0 /\ es_getPar (es_new KScale) "scale" = Ok 1 /\ es_getPar (es_new KRecon) "correction" = Ok 1 /\
  (exists e', es_apply (es_setIn (es_setOut (es_new KRecon) ["energy"%string]) ["radius"%string]) (ex_ev 4 6) = Ok e').
Proof. split; [reflexivity|]. split; [reflexivity|]. split; [reflexivity|]. eexists. vm_compute. reflexivity. Qed.

Definition ex_shift := es_withVal (es_setOut (es_new KShift) ["energy"%string]) (qz 3).
Definition ex_scale := es_withVal (es_setOut (es_new KScale) ["energy"%string]) (qz 2).
Definition ex_recon := es_withVal (es_setIn (es_setOut (es_new KRecon) ["energy"%string]) ["radius"%string]) (qz 3).
Example C58_nonvacuous :
  new_value ex_recon (ex_ev 4 6) (qz 0) /\
  esm_apply [ex_shift; ex_scale; ex_recon] (ex_ev 1 6) = Ok (ex_ev 12 6) /\
  esm_apply [ex_scale; ex_shift; ex_recon] (ex_ev 1 6) = Ok (ex_ev 3 6) /\
  writes ex_shift "energy" /\ es_apply (es_setOut ex_shift ["mass"%string]) (ex_ev 1 6) = Throw NotFoundError.
Proof.
  split; [|split; [|split; [|split]]].
  - exists "energy"%string, (qz 4). split; [reflexivity|]. split; [apply ex_ev_has|]. cbn [ex_recon es_withVal es_setIn es_setOut esKind es_new].
    exists "radius"%string, (qz 6). split; [reflexivity|]. split; [apply ex_ev_has|]. apply Qc_is_canon; reflexivity.
  - vm_compute. repeat f_equal; apply Qc_is_canon; reflexivity.
  - vm_compute. repeat f_equal; apply Qc_is_canon; reflexivity.
  - reflexivity.
  - reflexivity.
Qed.

(** C59.  [evs] are the requested events after the systematics; [keep] singles out those passing all cuts;
    the distribution ends up as if it had been filled with their values, weight 1 each.  The version with a
    cut log does the same and logs every event. *)
Theorem C59_fill : forall b data cs ss nEv evs,
  h_reach (bdHist b) -> List.length (osNames (bdObs b)) = hNDims (bdHist b) -> Forall cut_built cs ->
  (Z.of_nat (List.length data) < 2 ^ 31)%Z -> (nEv <= Z.of_nat (List.length data))%Z ->
  Forall2 (in_order ss) (if Z.ltb nEv 0 then data else firstn (Z.to_nat nEv) data) evs ->
  (forall e, In e evs -> cuttable cs e /\ (passes_all cs e -> exists vals, values (osNames (bdObs b)) e vals)) ->
  exists keep vals b', (forall e, In e evs -> (keep e = true <-> passes_all cs e)) /\
    Forall2 (values (osNames (bdObs b))) (filter keep evs) vals /\
    bdName b' = bdName b /\ bdObs b' = bdObs b /\ bdHist b' = fills (bdHist b) (map (fun v => (v, 1)) vals) /\
    total (bdHist b') = total (bdHist b) + qn (List.length (filter keep evs)) /\
    fill_dist b data cs ss nEv = (b', Ok tt) /\
    fill_distLog b data cs (mk_log (map cutName cs)) ss nEv = ((b', fst (run_cuts cs evs (mk_log (map cutName cs)))), Ok tt).
Proof. exact fill_pkg. Qed.
Print Assumptions C59_fill.
(** asking for more events than there are: the existing ones are filled, then NotFoundError *)
Theorem C59_too_many_events : forall b data cs ss nEv, (Z.of_nat (List.length data) < nEv < 2 ^ 31)%Z ->
  snd (fill_dist b data cs ss (-1)) = Ok tt ->
  fill_dist b data cs ss nEv = (fst (fill_dist b data cs ss (-1)), Throw NotFoundError).
Proof. exact fill_toomany_pkg. Qed.
Print Assumptions C59_too_many_events.

(** an event is refused, and the distribution unchanged, when the number of observables is not the number of axes or one of them is missing in the event *)
Theorem C59_wrong_dimension : forall b e w vals, values (osNames (bdObs b)) e vals -> List.length (osNames (bdObs b)) <> hNDims (bdHist b) ->
  bed_fillEvent b e w = (b, Throw RepresentationError).
Proof. exact fill_dims_pkg. Qed.
Print Assumptions C59_wrong_dimension.
Theorem C59_missing_observable : forall b e w n, In n (osNames (bdObs b)) -> lacks e n -> (forall m, In m (osNames (bdObs b)) -> lacks e m \/ exists v, has_value e m v) ->
  bed_fillEvent b e w = (b, Throw NotFoundError).
Proof. exact fill_missing_pkg. Qed.
Print Assumptions C59_missing_observable.

Definition ex_fbed := mkBed "f" (mk_hist (fst (addAxes ac_empty [ex_axis "energy" 0 4 4]))) (mk_obsset ["energy"%string]).
Definition ex_fcuts := [LineCut "l" "radius" (qz 5) "upper"]%string.
Definition ex_data := [ex_ev 1 6; ex_ev (-1) 2; ex_ev 0 1; ex_ev (-2) 4].
Definition ex_shifted := [ex_ev 4 6; ex_ev 2 2; ex_ev 3 1; ex_ev 1 4].
Lemma ex_inorder : Forall2 (in_order [ex_shift]) ex_data ex_shifted.
Proof. repeat (apply Forall2_cons; [apply order_pkg; vm_compute; repeat f_equal; apply Qc_is_canon; reflexivity|]). constructor. Qed.
Example C59_refused_nonvacuous : let b2 := mkBed "f" (bdHist ex_fbed) (mk_obsset ["energy"; "radius"]%string) in let b3 := mkBed "f" (bdHist ex_fbed) (mk_obsset ["mass"]%string) in
  values (osNames (bdObs b2)) (ex_ev 1 6) [qz 1; qz 6] /\ List.length (osNames (bdObs b2)) <> hNDims (bdHist b2) /\ In "mass"%string (osNames (bdObs b3)) /\ lacks (ex_ev 1 6) "mass".
Proof.
  cbv zeta. split; [repeat constructor; apply ex_ev_has|]. split; [discriminate|]. split; [now left|]. exists ["energy"; "radius"]%string. split; [reflexivity|]. intros [C|[C|[]]]; discriminate.
Qed.
Example C59_nonvacuous :
  h_reach (bdHist ex_fbed) /\ List.length (osNames (bdObs ex_fbed)) = hNDims (bdHist ex_fbed) /\ Forall cut_built ex_fcuts /\
  Forall2 (in_order [ex_shift]) ex_data ex_shifted /\
  (forall e, In e ex_shifted -> cuttable ex_fcuts e /\ (passes_all ex_fcuts e -> exists vals, values ["energy"%string] e vals)) /\
  rmap (fun _ => tt) (snd (fill_dist ex_fbed ex_data ex_fcuts [ex_shift] (-1))) = Ok tt /\
  hCont (bdHist (fst (fill_dist ex_fbed ex_data ex_fcuts [ex_shift] (-1)))) = [0; qz 1; qz 1; qz 1] /\
  hCont (bdHist (fst (fill_dist ex_fbed ex_data ex_fcuts [ex_shift] 3))) = [0; 0; qz 1; qz 1] /\
  snd (fill_dist ex_fbed ex_data ex_fcuts [ex_shift] 5) = Throw NotFoundError.
Proof.
  split; [apply hr_new; [apply ar_adds; [constructor|repeat constructor; apply ex_axis_built; lia]|discriminate]|].
  split; [reflexivity|]. split; [repeat constructor|]. split; [exact ex_inorder|]. split.
  { intros e He. assert (exists x y, e = ex_ev x y) as [x [y ->]].
    { repeat destruct He as [<-|He]; try contradiction; eauto. }
    destruct (ex_ev_has x y) as [H1 H2]. split.
    - intros c [<-|[]]. cbn [cut_obs]. eauto.
    - intros _. exists [qz x]. repeat constructor. exact H1. }
  repeat split; vm_compute; reflexivity.
Qed.

(** C55.  Any sequence of configuration and counting calls before. *)
Theorem C55_observed : forall ops data k, Forall cut_built (cuts_in ops) -> passing (cuts_in ops) (sys_in ops) data k ->
  exists s, ce_countData (cerun ops) data = (s, Ok tt) /\ crObs (ceRes s) = Z.of_nat k /\
    crRates (ceRes s) = [] /\ crEff (ceRes s) = crEff (ceRes (cerun ops)).
Proof. exact countData_pkg. Qed.
Print Assumptions C55_observed.
Theorem C55_signal_efficiency : forall ops data k, Forall cut_built (cuts_in ops) -> last_signal ops = Some data -> data <> [] ->
  passing (cuts_in ops) (sys_in ops) data k ->
  exists s, ce_countSignal (cerun ops) = (s, Ok tt) /\ crEff (ceRes s) = Ok (qn k / qn (List.length data)) /\
    0 <= qn k / qn (List.length data) /\ qn k / qn (List.length data) <= 1.
Proof. exact countSignal_pkg. Qed.
Print Assumptions C55_signal_efficiency.
(** backgrounds, for one CountBackgrounds call and non-empty data sets; the error uses real numbers *)
Theorem C55_backgrounds_partial : forall ops ks, Forall cut_built (cuts_in ops) ->
  Forall2 (fun bg k => fst (fst bg) <> [] /\ passing (cuts_in ops) (sys_in ops) (fst (fst bg)) k) (bgs_in ops) ks ->
  exists s, ce_countBgs (cerun ops) = (s, Ok tt) /\
    cr_expected (ceRes s) = Ok (qsum (map (fun p => qn (snd p) * snd (fst (fst p)) / qn (List.length (fst (fst (fst p))))) (combine (bgs_in ops) ks))) /\
    cr_error (ceRes s) = Ok (sqrt (rsum (map (fun p => INR (snd p) * (qr (snd (fst (fst p)))) ^ 2 / (INR (List.length (fst (fst (fst p))))) ^ 2)%R (combine (bgs_in ops) ks)))).
Proof. exact countBgs_pkg. Qed.
Print Assumptions C55_backgrounds_partial.
(** counting the backgrounds again doubles the expectation; an empty data set makes it NaN *)
Definition ex_ops := [CCut (LineCut "l" "radius" (qz 5) "upper"); CSys ex_shift; CBg ex_data (qz 8) "b"; CSignal ex_data]%string.
Theorem C55_backgrounds_refuted :
  (exists ops s s', ce_countBgs (cerun ops) = (s, Ok tt) /\ ce_countBgs s = (s', Ok tt) /\
     cr_expected (ceRes s) = Ok (qz 6) /\ cr_expected (ceRes s') = Ok (qz 12)) /\
  (exists ops s, Forall2 (fun bg k => passing (cuts_in ops) (sys_in ops) (fst (fst bg)) k) (bgs_in ops) [0%nat] /\
     ce_countBgs (cerun ops) = (s, Ok tt) /\ cr_expected (ceRes s) = NonFinite).
Proof.
  split.
  - exists ex_ops. eexists. eexists. split; [vm_compute; reflexivity|]. split; [vm_compute; reflexivity|].
    split; vm_compute; repeat f_equal; apply Qc_is_canon; reflexivity.
  - exists [CBg [] (qz 1) "b"]%string. eexists. split; [repeat constructor|]. split; [vm_compute; reflexivity|]. vm_compute. reflexivity.
Qed.
Print Assumptions C55_backgrounds_refuted.
Example C55_nonvacuous :
  Forall cut_built (cuts_in ex_ops) /\ passing (cuts_in ex_ops) (sys_in ex_ops) ex_data 3 /\ last_signal ex_ops = Some ex_data /\
  crObs (ceRes (fst (ce_countData (cerun ex_ops) ex_data))) = 3%Z /\
  crEff (ceRes (fst (ce_countSignal (cerun ex_ops)))) = Ok (qq 3 4) /\
  cr_expected (ceRes (fst (ce_countBgs (cerun ex_ops)))) = Ok (qz 6).
Proof.
  split; [repeat constructor|]. split; [|split; [reflexivity|]].
  { pose proof ex_inorder as H. unfold ex_data, ex_shifted in *. repeat match goal with F : Forall2 _ (_ :: _) _ |- _ => inversion F; clear F; subst end.
    assert (Hc : forall x y, cuttable ex_fcuts (ex_ev x y)).
    { intros x y c [<-|[]]. cbn [cut_obs]. destruct (ex_ev_has x y). eauto. }
    assert (Hy : forall x y, passesCuts ex_fcuts (ex_ev x y) = Ok true -> passes_all ex_fcuts (ex_ev x y)).
    { intros x y E. apply C13_collection; [repeat constructor|exact E]. }
    assert (Hn : forall x y, passesCuts ex_fcuts (ex_ev x y) = Ok false -> ~ passes_all ex_fcuts (ex_ev x y)).
    { intros x y E Hp. apply C13_collection in Hp; [congruence|repeat constructor]. }
    eapply pass_no; [eassumption|apply Hc|apply Hn; reflexivity|].
    eapply pass_yes; [eassumption|apply Hc|apply Hy; reflexivity|].
    eapply pass_yes; [eassumption|apply Hc|apply Hy; reflexivity|].
    eapply pass_yes; [eassumption|apply Hc|apply Hy; reflexivity|]. constructor. }
  repeat split; vm_compute; repeat f_equal; apply Qc_is_canon; reflexivity.
Qed.
