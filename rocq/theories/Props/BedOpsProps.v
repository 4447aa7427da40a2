(** C88, and the closure of histograms under projections and slices (C09, C10). *)
From Coq Require Import ZArith.
From Verif Require Import Base.Res Base.Num Base.SMap Model.Axis Model.Event Model.Hist Model.ED Model.Param Model.Comp Model.BedOps Spec.AxisSpec Spec.HistSpec Spec.CutSpec Spec.FillSpec Spec.CompSpec Spec.BedOpsSpec
  Proofs.BedOpsP Props.AxisProps Props.HistProps Props.CutProps.
Local Open Scope Qc_scope.
Local Open Scope res_scope.

(** what a projection or a slice returns is again a histogram a user can hold, so every theorem about those applies to it *)
Theorem C09_projection_is_histogram (h : hist) (names : list string) (m : hist) : h_reach h -> marginalise h names = Ok m -> h_reach m.
Proof. exact (marg_reach h names m). Qed.
Print Assumptions C09_projection_is_histogram.
Theorem C10_slice_is_histogram (h : hist) (fixed : smap nat) (s : hist) : h_reach h -> getSlice h fixed = Ok s -> h_reach s.
Proof. exact (slice_reach h fixed s). Qed.
Print Assumptions C10_slice_is_histogram.

(** FindBin(event) *)
Theorem C88_find_bin (b : bed) (e : event) : bed_ok b ->
  (forall idx, cell b e idx -> bed_findBin b e = Ok (rowmajor (shape_of (bdHist b)) idx)) /\
  (forall vals, values (osNames (bdObs b)) e vals -> List.length vals = List.length (acAxes (hAxes (bdHist b))) -> exists idx, cell b e idx) /\
  (forall vals, values (osNames (bdObs b)) e vals -> List.length vals <> List.length (acAxes (hAxes (bdHist b))) -> bed_findBin b e = Throw RepresentationError) /\
  (forall ns n, evNames e = Some ns -> List.length ns = List.length (evObs e) -> In n (osNames (bdObs b)) -> ~ In n ns -> bed_findBin b e = Throw NotFoundError).
Proof. exact (find_bin_pkg b e). Qed.
Print Assumptions C88_find_bin.
(** Marginalise: the event falls into the projection of its cell, with the summed probability.
    Partial: the second half asks that the observables are called like the axes (see the refutation below). *)
Theorem C88_projection_partial (b : bed) (names : list string) : bed_ok b -> names <> [] -> NoDup names -> incl names (names_of (bdHist b)) ->
  exists m, bed_marginalise b names = Ok m /\ bed_ok m /\ osNames (bdObs m) = names /\ names_of (bdHist m) = names /\ total (bdHist m) = total (bdHist b) /\
    (named_by_axes b -> forall e idx, cell b e idx ->
      cell m e (project (names_of (bdHist b)) idx names) /\
      (total (bdHist b) <> 0 -> dprob e (DBin m) = Ok (qsum (map (cont_at (bdHist b)) (filter (fun t => nlist_eqb (project (names_of (bdHist b)) t names) (project (names_of (bdHist b)) idx names)) (tuples (shape_of (bdHist b))))) / total (bdHist b)))).
Proof. exact (projection_pkg b names). Qed.
Print Assumptions C88_projection_partial.
(** GetSlice down to one axis; for more free axes the bin order is wrong (C10) *)
Theorem C88_slice_partial (b : bed) (fixed : smap nat) : bed_ok b -> swf fixed -> incl (skeys fixed) (names_of (bdHist b)) -> hNDims (bdHist b) = S (List.length fixed) ->
  (forall a v, In a (acAxes (hAxes (bdHist b))) -> sfind (aName a) fixed = Some v -> (v < aNBins a)%nat) ->
  exists s n, bed_slice b fixed = Ok s /\ bed_ok s /\ In n (names_of (bdHist b)) /\ sfind n fixed = None /\ osNames (bdObs s) = [n] /\ names_of (bdHist s) = [n] /\
    (named_by_axes b -> forall e idx, cell b e idx -> cell s e [coord (names_of (bdHist b)) idx n] /\
       ((forall k v, sfind k fixed = Some v -> coord (names_of (bdHist b)) idx k = v) -> total (bdHist s) <> 0 -> dprob e (DBin s) = Ok (cont_at (bdHist b) idx / total (bdHist s)))).
Proof. exact (slice_pkg b fixed). Qed.
Print Assumptions C88_slice_partial.
(** Add, Multiply, Divide *)
Theorem C88_combine (b o : bed) (w : Qc) : bed_ok b -> bed_ok o -> let h := bdHist b in let g := bdHist o in
  (forall r, In r [bed_add b o w; bed_multiply b o; bed_divide b o] -> bdName (fst r) = bdName b /\ bdObs (fst r) = bdObs b /\ bed_ok (fst r) /\ same_axes (bdHist (fst r)) h) /\
  (Forall2 same_edges (acAxes (hAxes g)) (acAxes (hAxes h)) ->
    (snd (bed_add b o w) = Ok tt /\ forall i, (i < hNBins h)%nat -> cont (bdHist (fst (bed_add b o w))) i = cont h i + w * cont g i) /\
    (snd (bed_multiply b o) = Ok tt /\ forall i, (i < hNBins h)%nat -> cont (bdHist (fst (bed_multiply b o))) i = cont h i * cont g i) /\
    ((forall i, (i < hNBins h)%nat -> cont g i <> 0) -> snd (bed_divide b o) = Ok tt /\ forall i, (i < hNBins h)%nat -> cont (bdHist (fst (bed_divide b o))) i * cont g i = cont h i)) /\
  (~ Forall2 same_edges (acAxes (hAxes g)) (acAxes (hAxes h)) ->
    bed_add b o w = (b, Throw ValueError) /\ bed_multiply b o = (b, Throw ValueError) /\ bed_divide b o = (b, Throw ValueError)).
Proof. exact (combine_pkg b o w). Qed.
Print Assumptions C88_combine.
(** AddPadding *)
Theorem C88_padding (b : bed) (p : Qc) : bed_ok b -> let r := bed_padding b p in bdName r = bdName b /\ bdObs r = bdObs b /\ bed_ok r /\ same_axes (bdHist r) (bdHist b) /\
  forall i, (i < hNBins (bdHist b))%nat -> (cont (bdHist b) i = 0 -> cont (bdHist r) i = p) /\ (cont (bdHist b) i <> 0 -> cont (bdHist r) i = cont (bdHist b) i).
Proof. exact (padding_pkg b p). Qed.
Print Assumptions C88_padding.

(** what the results are called: the projected axes, and the fixed axes with their bins in the order of the axes *)
Theorem C88_names (b : bed) : bed_ok b ->
  (forall names m, bed_marginalise b names = Ok m -> bdName m = (bdName b ++ String.concat "" (map (fun n => "_" ++ n) names) ++ "_proj")%string) /\
  (forall fixed s, bed_slice b fixed = Ok s ->
     bdName s = (bdName b ++ String.concat "" (map (fun n => match sfind n fixed with Some v => "_" ++ n ++ dec v | None => "" end) (names_of (bdHist b))) ++ "_slice")%string).
Proof. exact (names_pkg b). Qed.
Print Assumptions C88_names.

(** a 2x3x4 distribution over x, y, z and an event in its cell (1,1,0) *)
Definition ex_b3 : bed := bed_setObs (bed_ofHist "b" ex_h) ["x"; "y"; "z"]%string.
Definition ex_e3 : event := ev_setNames (mk_event [qz 7; qz 1; 0]) ["x"; "y"; "z"]%string.
Definition ex_v3 : list Qc := [qz 7; qz 1; 0].
Lemma ex_v3_has : values ["x"; "y"; "z"]%string ex_e3 ex_v3.
Proof.
  unfold ex_v3. repeat constructor.
  - exists ["x"; "y"; "z"]%string, 0%nat. repeat split. intros j J. inversion J.
  - exists ["x"; "y"; "z"]%string, 1%nat. repeat split. intros [|j] J; [discriminate|exfalso; inversion J as [|? Q]; inversion Q].
  - exists ["x"; "y"; "z"]%string, 2%nat. repeat split. intros [|[|j]] J; [discriminate|discriminate|exfalso; inversion J as [|? Q]; inversion Q as [|? T]; inversion T].
Qed.
Example C88_nonvacuous :
  bed_ok ex_b3 /\ named_by_axes ex_b3 /\ cell ex_b3 ex_e3 [1; 1; 2]%nat /\ bed_findBin ex_b3 ex_e3 = Ok 18%nat /\ total (bdHist ex_b3) = qz 300 /\
  (exists m, bed_marginalise ex_b3 ["z"; "x"]%string = Ok m /\ cell m ex_e3 [2; 1]%nat /\ dprob ex_e3 (DBin m) = Ok (qq 57 300)) /\
  (exists s, bed_slice ex_b3 (sset "x" 1%nat (sset "z" 2%nat sempty)) = Ok s /\ bdName s = "b_x1_z2_slice"%string /\ cell s ex_e3 [1%nat] /\ dprob ex_e3 (DBin s) = Ok (qq 19 57)).
Proof.
  split; [exact ex_h_reach|]. split; [reflexivity|]. split; [split; [repeat constructor|]; exists ex_v3; split; [exact ex_v3_has|split; vm_compute; reflexivity]|].
  split; [vm_compute; reflexivity|]. split; [apply Qc_is_canon; vm_compute; reflexivity|]. split.
  - eexists. split; [vm_compute; reflexivity|]. split; [|vm_compute; reflexivity]. split; [repeat constructor|]. exists [0; qz 7]. split; [|split; vm_compute; reflexivity].
    pose proof ex_v3_has as V. inversion V as [|? ? ? ? V1 V2]; subst. inversion V2 as [|? ? ? ? V3 V4]; subst. inversion V4; subst. repeat constructor; assumption.
  - eexists. split; [vm_compute; reflexivity|]. split; [reflexivity|]. split; [|vm_compute; reflexivity]. split; [repeat constructor|]. exists [qz 1]. split; [|split; vm_compute; reflexivity].
    pose proof ex_v3_has as V. inversion V as [|? ? ? ? V1 V2]; subst. inversion V2; subst. repeat constructor; assumption.
Qed.
Example C88_nonvacuous_combine : bed_ok ex_b3 /\ Forall2 same_edges (acAxes (hAxes (bdHist ex_b3))) (acAxes (hAxes (bdHist ex_b3))) /\
  ~ Forall2 same_edges (acAxes (hAxes ex_h1)) (acAxes (hAxes (bdHist ex_b3))).
Proof. split; [exact ex_h_reach|]. split; [repeat constructor|]. intros C. apply BedOpsP.f2_len in C. vm_compute in C. discriminate. Qed.
Example C09_C10_nonvacuous_closure : h_reach ex_h /\ (exists m, marginalise ex_h ["z"; "x"]%string = Ok m) /\ exists s, getSlice ex_h (sset "y" 1%nat sempty) = Ok s.
Proof. split; [exact ex_h_reach|]. split; eexists; vm_compute; reflexivity. Qed.
(** a distribution over the observable "energy" whose axis is called "e": the distribution knows the probability of the event,
    its projection onto that axis looks for an observable called "e" and throws; so does a slice of a two-dimensional one *)
Theorem C88_observables_refuted : exists b e m, bed_ok b /\ total (bdHist b) <> 0 /\ (exists p, dprob e (DBin b) = Ok p) /\
  bed_marginalise b (names_of (bdHist b)) = Ok m /\ dprob e (DBin m) = Throw NotFoundError /\ bed_findBin m e = Throw NotFoundError.
Proof.
  exists (bed_setObs (bed_ofHist "b" ex_h1) ["energy"]%string), (ex_ev 3 1). eexists. split; [exact ex_h1_reach|].
  split; [intros C; apply (f_equal (fun q => this q)) in C; vm_compute in C; discriminate|]. split; [eexists; vm_compute; reflexivity|]. split; [vm_compute; reflexivity|]. split; vm_compute; reflexivity.
Qed.
Print Assumptions C88_observables_refuted.
