(** C61: histogram helpers. *)
From Verif Require Import Base.Res Base.Num Base.SMap Model.Axis Model.Hist Model.HistTools Spec.AxisSpec Spec.HistSpec
  Spec.HistToolsSpec Proofs.HistToolsP Proofs.HistToolsP2 Proofs.HistToolsP3 Props.AxisProps Props.HistProps.
Local Open Scope nat_scope.

(** MakeAllHists over names: one empty 1-D histogram per name *)
Theorem C61_hist_per_name : forall ac names, ac_reach ac ->
  (incl names (map aName (acAxes ac)) ->
   exists hs, makeHists1 ac names = Ok hs /\ swf hs /\ (forall n, In n (skeys hs) <-> In n names) /\
     forall n h, sfind n hs = Some h -> h_reach h /\ axes_named ac [n] h /\ all_zero h) /\
  (~ incl names (map aName (acAxes ac)) -> makeHists1 ac names = Throw NotFoundError).
Proof. exact makeHists1_pkg. Qed.
Print Assumptions C61_hist_per_name.

(** AllCombsNoDiag: every unordered pair exactly once, n(n-1)/2 of them *)
Theorem C61_pairs_once : forall names, NoDup names ->
  covers_pairs names (allCombsNoDiag names) /\
  2 * List.length (allCombsNoDiag names) = List.length names * (List.length names - 1).
Proof. exact pairs_pkg. Qed.
Print Assumptions C61_pairs_once.

(** MakeAllHists over pairs: one histogram per pair, as long as no two pairs share the key "first_second" *)
Theorem C61_hist_per_pair_partial : forall ac pairs, ac_reach ac ->
  (forall p, In p pairs -> distinct_pair (map aName (acAxes ac)) p) ->
  (forall p q, In p pairs -> In q pairs -> pairKey p = pairKey q -> p = q) ->
  exists hs, makeHists2 ac pairs = Ok hs /\ swf hs /\
    (forall k, In k (skeys hs) <-> exists p, In p pairs /\ k = (fst p ++ "_" ++ snd p)%string) /\
    (NoDup pairs -> List.length hs = List.length pairs) /\
    forall p, In p pairs -> exists h, sfind (fst p ++ "_" ++ snd p)%string hs = Some h /\
      h_reach h /\ axes_named ac [fst p; snd p] h /\ all_zero h.
Proof. exact makeHists2_pkg. Qed.
Print Assumptions C61_hist_per_pair_partial.
(** axis names without an underscore never clash *)
Theorem C61_keys_without_underscore : forall p q, no_us (fst p) -> no_us (fst q) -> pairKey p = pairKey q -> p = q.
Proof. exact key_inj. Qed.
Print Assumptions C61_keys_without_underscore.

(** four axes whose six pairs give only five histograms: the pairs (c, a_b) and (c_a, b) share a key *)
Definition ex_us : axcol :=
  fst (addAxes ac_empty [ex_axis "a_b" 0 1 1; ex_axis "b" 0 1 1; ex_axis "c" 0 1 1; ex_axis "c_a" 0 1 1]).
Lemma ex_us_reach : ac_reach ex_us.
Proof. apply ar_adds; [constructor|]. repeat constructor; apply ex_axis_built; lia. Qed.
Theorem C61_hist_per_pair_refuted : exists ac hs, ac_reach ac /\
  makeHists2 ac (allCombsNoDiag (map aName (acAxes ac))) = Ok hs /\
  List.length (allCombsNoDiag (map aName (acAxes ac))) = 6 /\ List.length hs = 5.
Proof.
  exists ex_us. eexists. split; [exact ex_us_reach|]. split; [vm_compute; reflexivity|]. split; vm_compute; reflexivity.
Qed.
Print Assumptions C61_hist_per_pair_refuted.

(** FillAllHists: whatever the history of calls, every histogram of the map has been filled with its own
    coordinates once per call, so equal integrals stay equal *)
Theorem C61_fill_all : forall l hs, swf hs -> (forall k h, sfind k hs = Some h -> h_reach h) ->
  (forall v, In v l -> has_values hs v) ->
  skeys (fill_history hs l) = skeys hs /\
  forall k h, sfind k hs = Some h -> exists h', sfind k (fill_history hs l) = Some h' /\ h_reach h' /\
    same_axes h' h /\ h' = fold_left (fun x v => fst (fill_map x v 1%Qc)) l h /\
    (integral h' = Ok (total h + qn (List.length l)))%Qc.
Proof. exact fill_history_pkg. Qed.
Print Assumptions C61_fill_all.
Theorem C61_fill_missing_value : forall hs v k h n, (forall k h, In (k, h) hs -> h_reach h) -> In (k, h) hs ->
  In n (names_of h) -> sfind n v = None -> snd (fillAllHists hs v) = Throw NotFoundError.
Proof. exact fillAll_missing. Qed.
Print Assumptions C61_fill_missing_value.

(** GetVisualisableProjections: one 1-D projection per axis; from three dimensions on one 2-D projection per
    unordered pair (none for two dimensions, where the histogram is its own 2-D projection) *)
Theorem C61_projections_partial : forall h, h_reach h ->
  exists ones twos, visProjections h = Ok (ones ++ twos) /\
    Forall2 (fun n m => marginalise h [n] = Ok m /\ projection h [n] m) (names_of h) ones /\
    (2 < hNDims h -> exists pairs, covers_pairs (names_of h) pairs /\
       Forall2 (fun p m => marginalise h [fst p; snd p] = Ok m /\ projection h [fst p; snd p] m) pairs twos /\
       2 * List.length twos = hNDims h * (hNDims h - 1)) /\
    (hNDims h <= 2 -> twos = []).
Proof. exact projections_pkg. Qed.
Print Assumptions C61_projections_partial.
Definition ex_h2 : hist := mk_hist (fst (addAxes ac_empty [ex_axis "x" 0 10 2; ex_axis "y" 0 3 3])).
Lemma ex_h2_reach : h_reach ex_h2.
Proof. apply hr_new; [|vm_compute; discriminate]. apply ar_adds; [constructor|]. repeat constructor; apply ex_axis_built; lia. Qed.
Theorem C61_projections_two_dimensions_refuted : exists h ps, h_reach h /\ hNDims h = 2 /\ visProjections h = Ok ps /\
  List.length ps = 2 /\ Forall (fun m => hNDims m = 1) ps.
Proof.
  exists ex_h2. eexists. split; [exact ex_h2_reach|]. split; [reflexivity|]. split; [vm_compute; reflexivity|].
  split; [reflexivity|repeat constructor].
Qed.
Print Assumptions C61_projections_two_dimensions_refuted.

(** Get1DSlices: one slice per combination of bins of the other axes *)
Theorem C61_slices : forall h name, h_reach h ->
  (In name (names_of h) ->
   exists oshape combos slices, get1DSlices h name = Ok slices /\
     Forall2 (fun n k => exists a, In a (acAxes (hAxes h)) /\ aName a = n /\ aNBins a = k)
             (filter (fun n => negb (String.eqb n name)) (names_of h)) oshape /\
     NoDup combos /\ (forall c, In c combos <-> in_shape oshape c) /\ List.length slices = prod oshape /\
     Forall2 (fun c s => axes_named (hAxes h) [name] s /\
        forall idx, in_shape (shape_of h) idx ->
          project (names_of h) idx (filter (fun n => negb (String.eqb n name)) (names_of h)) = c ->
          cont s (coord (names_of h) idx name) = cont_at h idx) combos slices) /\
  (~ In name (names_of h) -> get1DSlices h name = Throw NotFoundError).
Proof. exact slices_pkg. Qed.
Print Assumptions C61_slices.

Example C61_nonvacuous :
  h_reach ex_h /\ hNDims ex_h = 3 /\ In "y"%string (names_of ex_h) /\
  NoDup (names_of ex_h) /\ allCombsNoDiag (names_of ex_h) = [("y", "x"); ("z", "x"); ("z", "y")]%string /\
  (exists s, get1DSlices ex_h "y" = Ok s /\ List.length s = 8) /\
  (exists ps, visProjections ex_h = Ok ps /\ List.length ps = 6).
Proof.
  split; [exact ex_h_reach|]. split; [reflexivity|]. split; [vm_compute; auto|]. split.
  - vm_compute. repeat constructor; intros H; cbn [In] in H; intuition discriminate.
  - split; [reflexivity|]. split; eexists; split; vm_compute; reflexivity.
Qed.
Example C61_nonvacuous_fill :
  let hs := [("e"%string, ex_h1); ("xyz"%string, ex_h)] in
  let v := [("e"%string, qz 3); ("x"%string, qz 7); ("y"%string, qz 1); ("z"%string, 0%Qc)] in
  swf hs /\ (forall k h, sfind k hs = Some h -> h_reach h) /\ has_values hs v /\
  (exists h', sfind "e" (fill_history hs [v; v]) = Some h' /\ integral h' = Ok (qz 17)).
Proof.
  cbv zeta. split; [repeat constructor|]. split; [|split].
  - intros k h. cbn [sfind]. destruct (String.eqb k "e"); [intros E; injection E as <-; exact ex_h1_reach|].
    destruct (String.eqb k "xyz"); [intros E; injection E as <-; exact ex_h_reach|discriminate].
  - intros k h n. cbn [sfind]. destruct (String.eqb k "e").
    + intros E; injection E as <-. intros [<-|[]]. eexists. reflexivity.
    + destruct (String.eqb k "xyz"); [intros E; injection E as <-|discriminate].
      intros [<-|[<-|[<-|[]]]]; eexists; reflexivity.
  - eexists. split; vm_compute; reflexivity.
Qed.
