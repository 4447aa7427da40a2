(** C56, C57 *)
From Coq Require Import ZArith.
From Verif Require Import Base.Res Base.Num Base.SMap Model.Axis Model.Event Model.Hist Model.ED Model.Comp Spec.AxisSpec Spec.HistSpec Spec.CutSpec Spec.FillSpec Spec.CompSpec
  Proofs.HistP Proofs.CompP Proofs.CompP2 Proofs.CompP3 Props.HistProps Props.CutProps.
Local Open Scope Qc_scope.
Local Open Scope res_scope.

(** the probability of an event is the share of its bin, and the shares add up to one *)
Theorem C56_binned (b : bed) (e : event) (i : nat) : bed_ok b -> total (bdHist b) <> 0 -> falls b e i ->
  (i < hNBins (bdHist b))%nat /\ dprob e (DBin b) = Ok (cont (bdHist b) i / total (bdHist b)).
Proof. exact (bed_prob_pkg b e i). Qed.
Print Assumptions C56_binned.
Theorem C56_binned_sum (b : bed) : bed_ok b -> total (bdHist b) <> 0 -> qsum (map (fun i => cont (bdHist b) i / total (bdHist b)) (seq 0 (hNBins (bdHist b)))) = 1.
Proof. exact (bed_sum_pkg b). Qed.
Print Assumptions C56_binned_sum.
Theorem C56_binned_errors (b : bed) (e : event) : bed_ok b ->
  (forall ns n, evNames e = Some ns -> List.length ns = List.length (evObs e) -> In n (osNames (bdObs b)) -> ~ In n ns -> dprob e (DBin b) = Throw NotFoundError) /\
  (forall vals, values (osNames (bdObs b)) e vals -> List.length vals <> hNDims (bdHist b) -> dprob e (DBin b) = Throw DimensionError).
Proof. exact (bed_errors_pkg b e). Qed.
Print Assumptions C56_binned_errors.
(** an analytic distribution is its function of the event's observables *)
Theorem C56_analytic (n : string) (f : list Qc -> res Qc) (dims : nat) (o : obsset) (e : event) (vals : list Qc) : values (osNames o) e vals ->
  let a := aned_setObs (aned_new n f dims) o in dprob e (DAna a) = f vals /\ dintegral (DAna a) = Ok 1 /\ dndims (DAna a) = dims.
Proof. exact (ana_pkg n f dims o e vals). Qed.
Print Assumptions C56_analytic.
(** a projection reads the observables it was projected on *)
Theorem C56_projection (b : bed) (names : list string) (m : bed) : bed_marginalise b names = Ok m -> marginalise (bdHist b) names = Ok (bdHist m) /\ osNames (bdObs m) = names.
Proof. exact (bed_marg_pkg b names m). Qed.
Print Assumptions C56_projection.
(** composites, nested to any depth: product of the parts, or the error of the first part that fails *)
Theorem C56_composite (e : event) (n : string) (l : list dist) :
  (forall ps, Forall2 (fun d p => dprob e d = Ok p) l ps -> dprob e (DComp n l) = Ok (product ps)) /\
  (forall a d b ps, l = a ++ d :: b -> Forall2 (fun d p => dprob e d = Ok p) a ps -> (forall q, dprob e d <> Ok q) -> dprob e (DComp n l) = dprob e d).
Proof. exact (comp_prob_pkg e n l). Qed.
Print Assumptions C56_composite.
Theorem C56_composite_integral (n : string) (l : list dist) (ps : list Qc) : Forall2 (fun d p => dintegral d = Ok p) l ps -> dintegral (DComp n l) = Ok (product ps).
Proof. exact (comp_int_pkg n l ps). Qed.
Print Assumptions C56_composite_integral.
Theorem C56_composite_dims (n : string) (l : list dist) : dndims (DComp n l) = fold_right (fun d s => (dndims d + s)%nat) 0%nat l.
Proof. exact (dims_pkg n l). Qed.
Print Assumptions C56_composite_dims.
(** operator*, associative in what it computes *)
Theorem C56_times (a b : dist) (e : event) : dprob e (dtimes a b) = (do p <- dprob e a; do q <- dprob e b; Ok (p * q)) /\
  dintegral (dtimes a b) = (do p <- dintegral a; do q <- dintegral b; Ok (p * q)) /\ dndims (dtimes a b) = (dndims a + dndims b)%nat /\
  (forall c, dprob e (dtimes (dtimes a b) c) = dprob e (compose [a; b; c])) /\ dprob e (compose [a; b]) = dprob e (dtimes a b).
Proof. exact (times_pkg a b e). Qed.
Print Assumptions C56_times.
(** Normalise: integral one at every level, probabilities unchanged *)
Theorem C56_normalise (d : dist) : dist_ok d -> exists d', dnormalise d = Ok d' /\ dist_ok d' /\ dintegral d' = Ok 1 /\ dname d' = dname d /\ dndims d' = dndims d /\ forall e, dprob e d' = dprob e d.
Proof. exact (normalise_dist_pkg d). Qed.
Print Assumptions C56_normalise.
(** the product of normalised binned parts is normalised: its probabilities over all cells add up to one *)
Theorem C56_product_normalised (n : string) (bs : list bed) (ev : list nat -> event) : (forall b, In b bs -> bed_ok b /\ total (bdHist b) <> 0) ->
  (forall t, In t (tuples (map (fun b => hNBins (bdHist b)) bs)) -> Forall2 (fun b i => falls b (ev t) i) bs t) ->
  exists p, (forall t, In t (tuples (map (fun b => hNBins (bdHist b)) bs)) -> dprob (ev t) (DComp n (map DBin bs)) = Ok (p t)) /\
    qsum (map p (tuples (map (fun b => hNBins (bdHist b)) bs))) = 1.
Proof. exact (product_sum_pkg n bs ev). Qed.
Print Assumptions C56_product_normalised.
(** clones compute the same *)
Theorem C56_clone (d : dist) : (forall e, dprob e (dclone d) = dprob e d) /\ dintegral (dclone d) = dintegral d /\ dndims (dclone d) = dndims d.
Proof. exact (clone_pkg d). Qed.
Print Assumptions C56_clone.

(** C57: the bin drawn is where the cumulative distribution reaches the random number; it is never an empty bin *)
Theorem C57_bin (b : bed) (u : Qc) : drawable b -> 0 < u -> u <= 1 ->
  exists k, randomBin b u = Ok k /\ reaches (bdHist b) u k /\ 0 < cont (bdHist b) k /\ forall j, reaches (bdHist b) u j -> j = k.
Proof. exact (reach_bin_pkg b u). Qed.
Print Assumptions C57_bin.
(** u = 0 (outside the documented range of the generator): the first bin, empty or not *)
Theorem C57_zero_draw (b : bed) : drawable b -> randomBin b 0 = Ok 0%nat.
Proof. exact (zero_bin_pkg b). Qed.
Print Assumptions C57_zero_draw.
(** counts are the rates rounded to the nearest integer; the result counts the draws, on the axes of the first pdf *)
Theorem C57_expected_rates (g : bgen) (name : string) (counts : list nat) (us : nat -> Qc) (b0 : bed) (rest : list bed) :
  bgPdfs g = b0 :: rest -> List.length (bgPdfs g) = List.length (bgRates g) ->
  Forall2 (fun r n => 0 <= r /\ qn n - qhalf <= r /\ r < qn n + qhalf) (bgRates g) counts ->
  (forall b, In b (bgPdfs g) -> drawable b /\ hNBins (bdHist b) = hNBins (bdHist b0)) -> (forall c, In c counts -> (Z.of_nat c < 2 ^ 32)%Z) -> (forall j, 0 < us j /\ us j <= 1) ->
  exists o bins, expectedRates g name us = Ok o /\
    same_axes (bdHist o) (bdHist b0) /\ bdObs o = bdObs b0 /\ bdName o = genName "Gen_Exp" name (bgPdfs g) /\
    Forall2 (fun d i => reaches (bdHist (fst d)) (snd d) i) (draws (bgPdfs g) counts us 0) bins /\
    (forall i, cont (bdHist o) i = qn (count_occ Nat.eq_dec bins i)) /\ integral (bdHist o) = Ok (qn (list_sum counts)) /\
    (forall i, cont (bdHist o) i <> 0 -> exists p b c, nth_error (bgPdfs g) p = Some b /\ nth_error counts p = Some c /\ (0 < c)%nat /\ 0 < cont (bdHist b) i).
Proof. exact (expected_pkg g name counts us b0 rest). Qed.
Print Assumptions C57_expected_rates.
(** the same with Poisson counts, whatever they are *)
Theorem C57_poisson (g : bgen) (name : string) (pois : Qc -> Z) (counts : list nat) (us : nat -> Qc) (b0 : bed) (rest : list bed) :
  bgPdfs g = b0 :: rest -> List.length (bgPdfs g) = List.length (bgRates g) -> map pois (bgRates g) = map Z.of_nat counts ->
  (forall b, In b (bgPdfs g) -> drawable b /\ hNBins (bdHist b) = hNBins (bdHist b0)) -> (forall c, In c counts -> (Z.of_nat c < 2 ^ 32)%Z) -> (forall j, 0 < us j /\ us j <= 1) ->
  exists o bins, poissonED g name pois us = Ok o /\
    same_axes (bdHist o) (bdHist b0) /\ bdObs o = bdObs b0 /\ bdName o = genName "Gen_Poi" name (bgPdfs g) /\
    Forall2 (fun d i => reaches (bdHist (fst d)) (snd d) i) (draws (bgPdfs g) counts us 0) bins /\
    (forall i, cont (bdHist o) i = qn (count_occ Nat.eq_dec bins i)) /\ integral (bdHist o) = Ok (qn (list_sum counts)) /\
    (forall i, cont (bdHist o) i <> 0 -> exists p b c, nth_error (bgPdfs g) p = Some b /\ nth_error counts p = Some c /\ (0 < c)%nat /\ 0 < cont (bdHist b) i).
Proof. exact (poisson_pkg g name pois counts us b0 rest). Qed.
Print Assumptions C57_poisson.
Theorem C57_errors (g : bgen) (name : string) (pois : Qc -> Z) (us : nat -> Qc) :
  (List.length (bgPdfs g) <> List.length (bgRates g) -> expectedRates g name us = Throw LogicError /\ poissonED g name pois us = Throw LogicError) /\
  (bgPdfs g = [] -> expectedRates g name us = Throw LogicError /\ poissonED g name pois us = Throw LogicError).
Proof. exact (gen_errors2_pkg g name pois us). Qed.
Print Assumptions C57_errors.
(** pdfs binned differently from the first are not refused *)
Theorem C57_unchecked_binning_refuted (a b : bed) (us : nat -> Qc) (name : string) (i : nat) : drawable a -> drawable b -> 0 < us 0%nat -> us 0%nat <= 1 -> reaches (bdHist b) (us 0%nat) i ->
  (i = hNBins (bdHist a) -> expectedRates (mkBgen [a; b] [0; 1]) name us = UB) /\
  ((hNBins (bdHist a) < i)%nat -> expectedRates (mkBgen [a; b] [0; 1]) name us = Throw NotFoundError).
Proof. exact (unchecked_pkg a b us name i). Qed.
Print Assumptions C57_unchecked_binning_refuted.

(** a renamed composite forgets its name when cloned, e.g. by being used in another product *)
Theorem C56_clone_name_refuted (n m : string) (l : list dist) : n <> starred (map dname l) -> dname (dclone (dsetName n (DComp m l))) <> n.
Proof. exact (fun H E => H (eq_sym E)). Qed.
Print Assumptions C56_clone_name_refuted.
Example C56_nonvacuous_clone : dname (dclone (dsetName "signal" (dtimes (DBin (bed_setName bed0 "a")) (DBin (bed_setName bed0 "b"))))) = "a*b"%string.
Proof. reflexivity. Qed.

(** energy in 5 bins, radius in 5 bins *)
Definition ex_be : bed := bed_setObs (bed_ofHist "e" ex_h1) ["energy"%string].
Definition ex_br : bed := bed_setObs (bed_ofHist "r" (fst (setBinContent ex_h1 2 0))) ["radius"%string].
Lemma ex_be_ok : bed_ok ex_be.
Proof. exact ex_h1_reach. Qed.
Lemma ex_br_ok : bed_ok ex_br.
Proof. apply (hr_setBin ex_h1 2 0). exact ex_h1_reach. Qed.
Lemma ex_nonneg h : forallb (fun i => qleb 0 i) (hCont h) = true -> forall i, 0 <= cont h i.
Proof.
  intros H i. unfold cont. destruct (Nat.lt_ge_cases i (List.length (hCont h))) as [L|L].
  - rewrite forallb_forall in H. apply qleb_le. apply H. now apply nth_In.
  - rewrite nth_overflow by exact L. apply Qcle_refl.
Qed.
Lemma ex_drawable : drawable ex_be /\ drawable ex_br.
Proof.
  split; (split; [first [exact ex_be_ok|exact ex_br_ok]|split; [apply ex_nonneg; vm_compute; reflexivity|vm_compute; reflexivity]]).
Qed.
(** the event in the middle of cell (i, j) *)
Definition ex_cell (t : list nat) : event := ex_ev (2 * Z.of_nat (nth 0 t 0%nat) + 1) (2 * Z.of_nat (nth 1 t 0%nat) + 1).
Lemma ex_falls t : In t (tuples [5; 5]%nat) -> Forall2 (fun b i => falls b (ex_cell t) i) [ex_be; ex_br] t.
Proof.
  intros I. assert (exists i j, t = [i; j] /\ (i < 5)%nat /\ (j < 5)%nat) as [i [j [-> [Hi Hj]]]].
  { cbn [tuples] in I. apply in_flat_map in I. destruct I as [i [A B]]. apply in_map_iff in B. destruct B as [t' [<- B]]. apply in_flat_map in B. destruct B as [j [C D]]. apply in_map_iff in D. destruct D as [t2 [<- D]].
    destruct D as [<-|[]]. apply in_seq in A. apply in_seq in C. exists i, j. repeat split; lia. }
  unfold ex_cell. cbn [nth]. set (x := (2 * Z.of_nat i + 1)%Z). set (y := (2 * Z.of_nat j + 1)%Z). destruct (ex_ev_has x y) as [HX HY].
  constructor; [|constructor; [|constructor]].
  - exists [qz x]. split; [constructor; [exact HX|constructor]|]. split; [reflexivity|]. unfold x. clear - Hi. do 5 (destruct i as [|i]; [vm_compute; reflexivity|]). lia.
  - exists [qz y]. split; [constructor; [exact HY|constructor]|]. split; [reflexivity|]. unfold y. clear - Hj. do 5 (destruct j as [|j]; [vm_compute; reflexivity|]). lia.
Qed.
Example C56_nonvacuous : (forall b, In b [ex_be; ex_br] -> bed_ok b /\ total (bdHist b) <> 0) /\ (forall t, In t (tuples (map (fun b => hNBins (bdHist b)) [ex_be; ex_br])) -> Forall2 (fun b i => falls b (ex_cell t) i) [ex_be; ex_br] t).
Proof.
  split; [|exact ex_falls]. intros b [<-|[<-|[]]]; (split; [first [exact ex_be_ok|exact ex_br_ok]|]); intros C; apply (f_equal (fun q => this q)) in C; vm_compute in C; discriminate.
Qed.
Example C56_nonvacuous_dist : dist_ok (dtimes (dtimes (DBin ex_be) (DAna (aned_new "flat" (fun _ => Ok 1) 0))) (DBin ex_br)).
Proof.
  destruct (proj1 C56_nonvacuous ex_be) as [A B]; [now left|]. destruct (proj1 C56_nonvacuous ex_br) as [C D]; [right; now left|].
  apply ok_comp. intros d [<-|[<-|[]]]; [|now apply ok_bin]. apply ok_comp. intros d [<-|[<-|[]]]; [now apply ok_bin|now apply ok_ana].
Qed.
Example C56_nonvacuous_value : dprob (ex_cell [1; 3]%nat) (dtimes (DBin ex_be) (DBin ex_br)) = Ok (qq 2 45).
Proof. vm_compute. reflexivity. Qed.
(** 3.4 events from one pdf and 2.5 from the other *)
Definition ex_us (k : nat) : Qc := nth k [qq 1 10; qq 1 2; qq 9 10; 1; qq 1 100; qq 6 10] 1.
Lemma ex_us_range k : 0 < ex_us k /\ ex_us k <= 1.
Proof. unfold ex_us. do 6 (destruct k as [|k]; [split; vm_compute; [reflexivity|discriminate]|]). cbn [nth]. destruct k; split; vm_compute; try reflexivity; discriminate. Qed.
Example C57_nonvacuous : let g := mkBgen [ex_be; ex_br] [qq 34 10; qq 5 2] in
  (forall b, In b (bgPdfs g) -> drawable b /\ hNBins (bdHist b) = hNBins (bdHist ex_be)) /\
  Forall2 (fun r n => 0 <= r /\ qn n - qhalf <= r /\ r < qn n + qhalf) (bgRates g) [3; 3]%nat /\
  exists o, expectedRates g "" ex_us = Ok o /\ integral (bdHist o) = Ok (qz 6) /\ bdName o = "Gen_Expe_r"%string.
Proof.
  cbv zeta. split; [intros b [<-|[<-|[]]]; (split; [apply ex_drawable|vm_compute; reflexivity])|]. split.
  - repeat constructor; try (vm_compute; discriminate); vm_compute; reflexivity.
  - eexists. split; [vm_compute; reflexivity|]. split; vm_compute; reflexivity.
Qed.
