(** C06-C12, C64, C65: histograms. *)
From Verif Require Import Base.Res Base.Num Base.SMap Model.Axis Model.Hist Spec.AxisSpec Spec.HistSpec
  Proofs.HistP4 Proofs.HistP5 Props.AxisProps.
Local Open Scope Qc_scope.

(** a 2x3x4 histogram with contents 1..24 *)
Definition ex_h : hist := fst (setBinContents (mk_hist ex_ac) (map qn (seq 1 24))).
Lemma ex_h_reach : h_reach ex_h.
Proof. apply hr_setBins, hr_new; [exact ex_ac_reach|discriminate]. Qed.
(** a 1-D histogram, 5 bins on [0,10], contents 1..5 *)
Definition ex_ac1 : axcol := fst (addAxes ac_empty [ex_axis "e" 0 10 5]).
Lemma ex_ac1_reach : ac_reach ex_ac1.
Proof. apply ar_adds; [constructor|]. repeat constructor. apply ex_axis_built; lia. Qed.
Definition ex_h1 : hist := fst (setBinContents (mk_hist ex_ac1) (map qn (seq 1 5))).
Lemma ex_h1_reach : h_reach ex_h1.
Proof. apply hr_setBins, hr_new; [exact ex_ac1_reach|discriminate]. Qed.

(** C06 *)
Theorem C06_fill_conserves_weight : forall h l, h_reach h -> (forall e, In e l -> List.length (fst e) = hNDims h) ->
  same_axes (fills h l) h /\
  (forall i, (i < hNBins h)%nat -> cont (fills h l) i = cont h i +
     qsum (map snd (filter (fun e => match h_findBin h (fst e) with Ok b => Nat.eqb b i | _ => false end) l))) /\
  (forall e, In e l -> exists b, h_findBin h (fst e) = Ok b /\ (b < hNBins h)%nat /\
     snd (fill h (fst e) (snd e)) = Ok tt) /\
  integral h = Ok (total h) /\
  integral (fills h l) = Ok (total h + qsum (map snd l)).
Proof. exact fills_pkg. Qed.
Print Assumptions C06_fill_conserves_weight.

Theorem C06_fill_wrong_dimension : forall h v w, h_reach h -> List.length v <> hNDims h ->
  fill h v w = (h, Throw DimensionError).
Proof. exact fill_throw_pkg. Qed.
Print Assumptions C06_fill_wrong_dimension.

Theorem C06_fill_by_name : forall h m w, h_reach h ->
  ((forall n, In n (names_of h) -> exists v, sfind n m = Some v) ->
    exists vals, Forall2 (fun n v => sfind n m = Some v) (names_of h) vals /\ fill_map h m w = fill h vals w /\
      snd (fill h vals w) = Ok tt) /\
  ((exists n, In n (names_of h) /\ sfind n m = None) -> fill_map h m w = (h, Throw NotFoundError)).
Proof. exact fill_map_pkg. Qed.
Print Assumptions C06_fill_by_name.

Example C06_nonvacuous :
  let l := [([qz 7; qz 1; 0], qz 2); ([qz 100; qz (-5); 0], qz 3)] in
  h_reach ex_h /\ (forall e, In e l -> List.length (fst e) = hNDims ex_h) /\
  h_findBin ex_h [qz 7; qz 1; 0] = Ok 18%nat /\ cont (fills ex_h l) 18 = qz 21 /\
  integral (fills ex_h l) = Ok (qz 305).
Proof.
  split; [exact ex_h_reach|]. split.
  - intros e [<-|[<-|[]]]; reflexivity.
  - repeat split; vm_compute; reflexivity.
Qed.

(** C07.  Proved: every index below GetNBins() and every index above it.  The full property would
    have [hNBins h <= b] in the second part; index GetNBins() itself is refuted below. *)
Theorem C07_bin_access_partial : forall h b v, h_reach h ->
  ((b < hNBins h)%nat ->
     getBinContent h b = Ok (cont h b) /\
     (exists h', setBinContent h b v = (h', Ok tt) /\ same_axes h' h /\
        forall i, cont h' i = if Nat.eqb i b then v else cont h i) /\
     (exists h', addBinContent h b v = (h', Ok tt) /\ same_axes h' h /\
        forall i, cont h' i = if Nat.eqb i b then cont h i + v else cont h i)) /\
  ((hNBins h < b)%nat -> getBinContent h b = Throw NotFoundError /\
     setBinContent h b v = (h, Throw NotFoundError) /\ addBinContent h b v = (h, Throw NotFoundError)).
Proof. exact bin_access_pkg. Qed.
Print Assumptions C07_bin_access_partial.

(** on every histogram the first out-of-range index is not rejected but accessed *)
Theorem C07_boundary_index_refuted : forall h v, h_reach h ->
  getBinContent h (hNBins h) = UB /\ snd (setBinContent h (hNBins h) v) = UB /\ snd (addBinContent h (hNBins h) v) = UB.
Proof. exact bin_access_boundary. Qed.
Print Assumptions C07_boundary_index_refuted.

Example C07_nonvacuous : h_reach ex_h /\ hNBins ex_h = 24%nat /\ getBinContent ex_h 23 = Ok (qz 24) /\
  getBinContent ex_h 25 = Throw NotFoundError.
Proof. split; [exact ex_h_reach|]. repeat split. Qed.

(** C08 *)
Theorem C08_normalise : forall h, h_reach h ->
  (total h <> 0 ->
    exists h', normalise h = (h', Ok tt) /\ same_axes h' h /\ integral h' = Ok 1 /\
      (forall i j, cont h' i * cont h j = cont h' j * cont h i) /\
      (forall i, cont h' i * total h = cont h i) /\
      normalise h' = (h', Ok tt)) /\
  (total h = 0 -> normalise h = (h, NonFinite)).
Proof. exact normalise_pkg. Qed.
Print Assumptions C08_normalise.
Example C08_nonvacuous : h_reach ex_h1 /\ total ex_h1 = qz 15 /\ cont (fst (normalise ex_h1)) 2 = qq 1 5.
Proof. split; [exact ex_h1_reach|]. split; [vm_compute; reflexivity|apply Qc_is_canon; vm_compute; reflexivity]. Qed.

(** C09 *)
Theorem C09_marginalise : forall h names, h_reach h ->
  (names <> [] -> NoDup names -> incl names (names_of h) ->
   exists m, marginalise h names = Ok m /\
     Forall2 (fun n a => In a (acAxes (hAxes h)) /\ aName a = n) names (acAxes (hAxes m)) /\
     (forall j, in_shape (shape_of m) j ->
        cont_at m j = qsum (map (cont_at h)
          (filter (fun idx => nlist_eqb (project (names_of h) idx names) j) (tuples (shape_of h))))) /\
     integral h = Ok (total h) /\ integral m = Ok (total h)) /\
  (~ incl names (names_of h) -> marginalise h names = Throw NotFoundError) /\
  (incl names (names_of h) -> ~ NoDup names -> marginalise h names = Throw ValueError).
Proof. exact marginalise_pkg. Qed.
Print Assumptions C09_marginalise.
(** an empty list of names is not rejected: back() of an empty vector *)
Theorem C09_empty_name_list_refuted : forall h, h_reach h -> marginalise h [] = UB.
Proof. exact marginalise_none_pkg. Qed.
Print Assumptions C09_empty_name_list_refuted.
Example C09_nonvacuous :
  h_reach ex_h /\ incl ["z"; "x"]%string (names_of ex_h) /\
  exists m, marginalise ex_h ["z"; "x"]%string = Ok m /\ shape_of m = [4; 2]%nat /\
    cont_at m [1; 1]%nat = qz (14 + 18 + 22) /\ integral m = integral ex_h.
Proof.
  split; [exact ex_h_reach|]. split; [intros n [<-|[<-|[]]]; vm_compute; auto|].
  eexists. split; [vm_compute; reflexivity|]. repeat split; vm_compute; reflexivity.
Qed.

(** C10.  Proved: a slice with exactly one free axis holds the right bins (fixed indices in range).
    The full property says the same for any number of free axes; it is refuted below. *)
Theorem C10_slice_one_free_axis_partial : forall h fixed, h_reach h -> swf fixed -> incl (skeys fixed) (names_of h) ->
  hNDims h = S (List.length fixed) ->
  (forall a b, In a (acAxes (hAxes h)) -> sfind (aName a) fixed = Some b -> (b < aNBins a)%nat) ->
  exists s n a, getSlice h fixed = Ok s /\ acAxes (hAxes s) = [a] /\ In a (acAxes (hAxes h)) /\ aName a = n /\
    sfind n fixed = None /\
    forall idx, in_shape (shape_of h) idx -> (forall m b, sfind m fixed = Some b -> coord (names_of h) idx m = b) ->
      cont s (coord (names_of h) idx n) = cont_at h idx.
Proof. exact slice_1d_pkg. Qed.
Print Assumptions C10_slice_one_free_axis_partial.

(** what a slice with several free axes holds: the right bins, but stored with the first free axis
    fastest, while every reader of the slice takes the last axis as fastest *)
Theorem C10_slice_actual_layout : forall h fixed, h_reach h -> swf fixed -> incl (skeys fixed) (names_of h) ->
  (List.length fixed < hNDims h)%nat ->
  (forall a b, In a (acAxes (hAxes h)) -> sfind (aName a) fixed = Some b -> (b < aNBins a)%nat) ->
  let free := filter (fun n => negb (shas n fixed)) (names_of h) in
  exists s, getSlice h fixed = Ok s /\
    Forall2 (fun n a => In a (acAxes (hAxes h)) /\ aName a = n) free (acAxes (hAxes s)) /\
    forall idx, in_shape (shape_of h) idx -> (forall n b, sfind n fixed = Some b -> coord (names_of h) idx n = b) ->
      cont s (rowmajor (rev (shape_of s)) (rev (project (names_of h) idx free))) = cont_at h idx.
Proof. exact slice_gen_pkg. Qed.
Print Assumptions C10_slice_actual_layout.

Theorem C10_slice_rejects : forall h fixed, h_reach h -> swf fixed ->
  (~ incl (skeys fixed) (names_of h) -> getSlice h fixed = Throw NotFoundError) /\
  (incl (skeys fixed) (names_of h) -> (hNDims h <= List.length fixed)%nat -> getSlice h fixed = Throw DimensionError).
Proof. exact slice_errors_pkg. Qed.
Print Assumptions C10_slice_rejects.

Theorem C10_two_free_axes_refuted : exists h fixed s idx, h_reach h /\ swf fixed /\
  incl (skeys fixed) (names_of h) /\ getSlice h fixed = Ok s /\ in_shape (shape_of h) idx /\
  (forall n b, sfind n fixed = Some b -> coord (names_of h) idx n = b) /\
  cont_at s (project (names_of h) idx (names_of s)) <> cont_at h idx.
Proof.
  exists ex_h, [("x"%string, 0%nat)]. eexists. exists [0; 0; 1]%nat. split; [exact ex_h_reach|].
  split; [repeat constructor|]. split; [intros n [<-|[]]; vm_compute; auto|].
  split; [vm_compute; reflexivity|]. split; [repeat constructor|]. split.
  - intros n b. cbn [sfind]. destruct (String.eqb_spec n "x"); [|discriminate]. intros E. injection E as <-. subst. reflexivity.
  - vm_compute. discriminate.
Qed.
Print Assumptions C10_two_free_axes_refuted.

(** an out-of-range fixed bin is not rejected: the slice silently holds another row *)
Theorem C10_out_of_range_bin_refuted : exists h fixed s, h_reach h /\ swf fixed /\
  (exists a b, In a (acAxes (hAxes h)) /\ sfind (aName a) fixed = Some b /\ (aNBins a <= b)%nat) /\
  getSlice h fixed = Ok s /\ integral s <> Ok 0.
Proof.
  exists ex_h, [("x"%string, 0%nat); ("y"%string, 3%nat)]. eexists. split; [exact ex_h_reach|].
  split; [repeat constructor|]. split.
  - exists (nth 1 (acAxes (hAxes ex_h)) AxisP.axis0), 3%nat. split; [right; left; reflexivity|]. split; [reflexivity|vm_compute; lia].
  - split; [vm_compute; reflexivity|]. vm_compute. discriminate.
Qed.
Print Assumptions C10_out_of_range_bin_refuted.
Example C10_nonvacuous : exists s, getSlice ex_h [("x"%string, 1%nat); ("z"%string, 2%nat)] = Ok s /\
  hCont s = [qz 15; qz 19; qz 23] /\ names_of s = ["y"]%string.
Proof. eexists. split; [vm_compute; reflexivity|]. repeat split; vm_compute; reflexivity. Qed.

(** C11 *)
Theorem C11_histogram_arithmetic : forall h o w, h_reach h -> h_reach o ->
  (Forall2 same_edges (acAxes (hAxes o)) (acAxes (hAxes h)) ->
    (exists h', h_add h o w = (h', Ok tt) /\ same_axes h' h /\
       (forall i, (i < hNBins h)%nat -> cont h' i = cont h i + w * cont o i) /\
       integral h = Ok (total h) /\ integral o = Ok (total o) /\ integral h' = Ok (total h + w * total o)) /\
    (exists h', h_multiply h o = (h', Ok tt) /\ same_axes h' h /\
       forall i, (i < hNBins h)%nat -> cont h' i = cont h i * cont o i) /\
    ((forall i, (i < hNBins h)%nat -> cont o i <> 0) ->
      exists h', h_divide h o = (h', Ok tt) /\ same_axes h' h /\
       forall i, (i < hNBins h)%nat -> cont h' i * cont o i = cont h i)) /\
  (~ Forall2 same_edges (acAxes (hAxes o)) (acAxes (hAxes h)) ->
    h_add h o w = (h, Throw ValueError) /\ h_multiply h o = (h, Throw ValueError) /\ h_divide h o = (h, Throw ValueError)).
Proof. exact arith_pkg. Qed.
Print Assumptions C11_histogram_arithmetic.
Theorem C11_scale_empty_padding : forall h k, h_reach h ->
  (exists h', scale h k = (h', Ok tt) /\ same_axes h' h /\ (forall i, cont h' i = k * cont h i) /\
     integral h' = Ok (k * total h)) /\
  (exists h', empty_bins h = (h', Ok tt) /\ same_axes h' h /\ (forall i, cont h' i = 0) /\ integral h' = Ok 0) /\
  (same_axes (addPadding h k) h /\
   forall i, (i < hNBins h)%nat -> cont (addPadding h k) i = if qeqb (cont h i) 0 then k else cont h i).
Proof. exact scale_pkg. Qed.
Print Assumptions C11_scale_empty_padding.
Example C11_nonvacuous : h_reach ex_h /\ h_reach ex_h1 /\
  Forall2 same_edges (acAxes (hAxes ex_h)) (acAxes (hAxes ex_h)) /\
  ~ Forall2 same_edges (acAxes (hAxes ex_h1)) (acAxes (hAxes ex_h)) /\
  integral (fst (h_add ex_h ex_h (qz 2))) = Ok (qz 900).
Proof.
  split; [exact ex_h_reach|]. split; [exact ex_h1_reach|]. split; [repeat (constructor; [split; reflexivity|]); constructor|].
  split; [|vm_compute; reflexivity]. intros C. inversion C as [|? ? ? ? H1 C2 E1 E2]. inversion C2.
Qed.

(** C12 *)
Theorem C12_ranged_integral : forall h, h_reach h ->
  (hNDims h <> 1%nat -> forall a b, integral_range h a b = Throw DimensionError) /\
  (hNDims h = 1%nat -> exists ax, acAxes (hAxes h) = [ax] /\ hNBins h = aNBins ax /\ forall mn mx,
     (mx <= mn -> integral_range h mn mx = Ok 0) /\
     (mn < mx -> contiguous ax ->
        (findBin ax mn <= findBin ax mx < hNBins h)%nat /\
        integral_range h mn mx = Ok (qsum (map (cont h) (seq (findBin ax mn) (S (findBin ax mx - findBin ax mn)))))) /\
     (contiguous ax -> (forall i, 0 <= cont h i) -> exists r, integral_range h mn mx = Ok r /\ 0 <= r /\ r <= total h)).
Proof. exact integral_range_pkg. Qed.
Print Assumptions C12_ranged_integral.
Example C12_nonvacuous : h_reach ex_h1 /\ hNDims ex_h1 = 1%nat /\ integral_range ex_h1 (qz 3) (qz 7) = Ok (qz 9) /\
  integral_range ex_h1 (qz 7) (qz 3) = Ok 0.
Proof. split; [exact ex_h1_reach|]. repeat split; vm_compute; reflexivity. Qed.

(** C64.  Means and Variances are the moments of the binned distribution when the histogram is
    normalised. *)
Theorem C64_moments_partial : forall h, h_reach h -> integral h = Ok 1 ->
  exists ms vs, means h = Ok ms /\ variances h = Ok vs /\ List.length ms = hNDims h /\ List.length vs = hNDims h /\
    forall j, (j < hNDims h)%nat -> exists cs, mapM (fun i => binDim binCentre (hAxes h) i j) (seq 0 (hNBins h)) = Ok cs /\
      nth j ms 0 = qsum (map (fun i => cont h i * nth i cs 0) (seq 0 (hNBins h))) /\
      nth j vs 0 = qsum (map (fun i => cont h i * ((nth i cs 0 - nth j ms 0) * (nth i cs 0 - nth j ms 0))) (seq 0 (hNBins h))) /\
      ((forall i, 0 <= cont h i) -> 0 <= nth j vs 0).
Proof. exact moments_pkg. Qed.
Print Assumptions C64_moments_partial.
(** without normalisation the "variance" of a non-negative histogram can be negative and the "mean"
    can lie outside the axis *)
Theorem C64_unnormalised_refuted : exists h m v, h_reach h /\ (forall i, 0 <= cont h i) /\ 0 < total h /\
  means h = Ok [m] /\ variances h = Ok [v] /\ (exists a, acAxes (hAxes h) = [a] /\ aMax a < m) /\ v < 0.
Proof.
  exists ex_h1. do 2 eexists. split; [exact ex_h1_reach|]. split.
  - intros i. do 6 (destruct i as [|i]; [vm_compute; congruence|]). vm_compute. congruence.
  - split; [reflexivity|]. split; [vm_compute; reflexivity|]. split; [vm_compute; reflexivity|].
    split; [eexists; split; reflexivity|reflexivity].
Qed.
Print Assumptions C64_unnormalised_refuted.
Example C64_nonvacuous : let h := fst (normalise ex_h1) in h_reach h /\ integral h = Ok 1 /\ means h = Ok [qq 19 3].
Proof. split; [apply hr_normalise, ex_h1_reach|]. split.
  - destruct (proj1 (C08_normalise ex_h1 ex_h1_reach)) as [h [E [_ [I _]]]]; [vm_compute; discriminate|]. rewrite E. exact I.
  - vm_compute. do 3 f_equal; apply Qc_is_canon; reflexivity.
Qed.

(** C65.  A newly constructed histogram is empty ... *)
Theorem C65_new_histogram_empty : forall ac, ac_reach ac -> acAxes ac <> [] ->
  hAxes (mk_hist ac) = ac /\ hNBins (mk_hist ac) = acNBins ac /\ (forall i, cont (mk_hist ac) i = 0) /\ integral (mk_hist ac) = Ok 0.
Proof. exact mk_hist_pkg. Qed.
Print Assumptions C65_new_histogram_empty.
(** ... but SetAxes on a used histogram keeps old contents by flat bin number *)
Theorem C65_setaxes_not_empty_refuted : exists h ac, h_reach h /\ ac_reach ac /\ acAxes ac <> [] /\
  integral (setAxes h ac) <> Ok 0.
Proof.
  exists ex_h, ex_ac1. split; [exact ex_h_reach|]. split; [exact ex_ac1_reach|]. split; [discriminate|]. vm_compute. discriminate.
Qed.
Print Assumptions C65_setaxes_not_empty_refuted.
Example C65_nonvacuous : ac_reach ex_ac /\ acAxes ex_ac <> [] /\ hNBins (mk_hist ex_ac) = 24%nat.
Proof. split; [exact ex_ac_reach|]. split; [discriminate|reflexivity]. Qed.
