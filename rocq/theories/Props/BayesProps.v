(** C50, C77: Bayesian upper limits. *)
From Coq Require Import ZArith Reals.
From Verif Require Import Base.Res Base.Num Base.SMap Model.Axis Model.Hist Model.Bayes Model.BayesPoisson
  Spec.AxisSpec Spec.HistSpec Spec.BayesSpec Spec.BayesPoissonSpec Proofs.BayesP Proofs.BayesP2 Proofs.BayesP3 Proofs.BayesP4 Props.AxisProps Props.HistProps.
From Coq Require Import Lra Lia.
Local Open Scope Qc_scope.

(** * C50 *)
(** An empty posterior, a level that is not positive and a posterior with other than one dimension are refused. *)
Theorem C50_refused h cl : h_reach h -> total h = 0 \/ cl <= 0 -> upperBound h cl = Throw ValueError.
Proof. exact (refuse_pkg h cl). Qed.
Print Assumptions C50_refused.
Theorem C50_dimensions h cl : h_reach h -> total h <> 0 -> 0 < cl -> hNDims h <> 1%nat -> upperBound h cl = Throw DimensionError.
Proof. exact (ndims_pkg h cl). Qed.
Print Assumptions C50_dimensions.

(** The point with the requested probability below it is well defined for every posterior and level ... *)
Theorem C50_limit_exists h cl : (forall i, 0 <= cont h i) -> 0 < total h -> 0 < cl -> cl <= 1 -> exists b, limit_bin h cl b.
Proof. exact (limit_exists h cl). Qed.
Print Assumptions C50_limit_exists.
Theorem C50_exact_limit h a cl b : h_reach h -> one_axis h a -> contiguous a -> lo_of a b < hi_of a b -> 0 < total h -> limit_bin h cl b ->
  prob_below h a (exact_limit h a cl b) = cl.
Proof. exact (exact_pkg h a cl b). Qed.
Print Assumptions C50_exact_limit.

(** ... but what is returned interpolates in the bin two above the right one, and fails when there is no such bin or it
    is empty. *)
Theorem C50_upper_partial h a cl b : h_reach h -> one_axis h a -> total h <> 0 -> 0 < cl -> limit_bin h cl b ->
  ((b + 2 < hNBins h)%nat -> cont h (b + 2) <> 0 -> upperBound h cl =
     Ok (hi_of a (b + 2) - (hi_of a (b + 2) - lo_of a (b + 2)) * (first_bins h (b + 1) / total h - cl) / (cont h (b + 2) / total h))) /\
  ((b + 2 < hNBins h)%nat -> cont h (b + 2) = 0 -> upperBound h cl = NonFinite) /\
  ((hNBins h <= b + 2)%nat -> upperBound h cl = Throw NotFoundError).
Proof. exact (upper_pkg h a cl b). Qed.
Print Assumptions C50_upper_partial.
(** With neighbours of equal width and content the answer is too high by exactly two bins. *)
Theorem C50_two_bins_high_refuted h a cl b : h_reach h -> one_axis h a -> 0 < total h -> 0 < cl -> limit_bin h cl b -> (b + 2 < hNBins h)%nat ->
  hi_of a (b + 2) - lo_of a (b + 2) = hi_of a b - lo_of a b -> cont h (b + 2) = cont h b ->
  upperBound h cl = Ok (exact_limit h a cl b + (hi_of a (b + 2) - hi_of a b)).
Proof. exact (shift_pkg h a cl b). Qed.
Print Assumptions C50_two_bins_high_refuted.
(** A level above 1 reads past the end of the contents. *)
Theorem C50_above_one_refuted h a cl : h_reach h -> one_axis h a -> (forall i, 0 <= cont h i) -> 0 < total h -> 1 < cl -> upperBound h cl = UB.
Proof. exact (over_pkg h a cl). Qed.
Print Assumptions C50_above_one_refuted.

(** ten equal bins on [0,10] *)
Definition ex_ac10 : axcol := fst (addAxes ac_empty [ex_axis "e" 0 10 10]).
Definition ex_flat10 : hist := fst (setBinContents (mk_hist ex_ac10) (repeat 1 10)).
Lemma ex_flat10_reach : h_reach ex_flat10.
Proof.
  apply hr_setBins, hr_new.
  - apply ar_adds; [constructor|]. repeat constructor. apply ex_axis_built; lia.
  - discriminate.
Qed.
Lemma ex_flat10_axis : one_axis ex_flat10 (ex_axis "e" 0 10 10). Proof. reflexivity. Qed.
Lemma ex_limit_bin : limit_bin ex_flat10 (qq 9 20) 4.
Proof.
  split; [vm_compute; lia|]. split; [|vm_compute; discriminate].
  intros c Hc. destruct c as [|[|[|[|[|c]]]]]; try lia; vm_compute; reflexivity.
Qed.
Definition ok_value (r : res Qc) : Qc := match r with Ok x => x | _ => 0 end.
(** level 0.45: 6.5 is returned, below which the probability is 0.65 *)
Theorem C50_coverage_refuted : exists h a cl x, h_reach h /\ one_axis h a /\ (forall i, (i < hNBins h)%nat -> 0 < cont h i) /\ 0 < cl /\ cl < 1 /\
  upperBound h cl = Ok x /\ prob_below h a x <> cl.
Proof.
  pose (h := ex_flat10). pose (a := ex_axis "e" 0 10 10). pose (x := exact_limit h a (qq 9 20) 4 + (hi_of a (4 + 2) - hi_of a 4)).
  assert (U : upperBound h (qq 9 20) = Ok x).
  { apply (shift_pkg h a (qq 9 20) 4 ex_flat10_reach ex_flat10_axis); try exact ex_limit_bin; try (vm_compute; lia); try (vm_compute; reflexivity);
      apply Qc_is_canon; vm_compute; reflexivity. }
  exists h, a, (qq 9 20), x. split; [exact ex_flat10_reach|]. split; [exact ex_flat10_axis|]. split.
  { intros i Hi. change (hNBins h) with 10%nat in Hi. do 10 (destruct i as [|i]; [vm_compute; reflexivity|]). lia. }
  split; [vm_compute; reflexivity|]. split; [vm_compute; reflexivity|]. split; [exact U|].
  intros E. apply Qc_eq_this in E. vm_compute in E. discriminate E.
Qed.
Print Assumptions C50_coverage_refuted.
(** level 0.9: refused although every bin has content *)
Theorem C50_high_levels_refuted : exists h a cl, h_reach h /\ one_axis h a /\ (forall i, (i < hNBins h)%nat -> 0 < cont h i) /\ 0 < cl /\ cl < 1 /\
  upperBound h cl = Throw NotFoundError.
Proof.
  exists ex_flat10, (ex_axis "e" 0 10 10), (qq 9 10). split; [exact ex_flat10_reach|]. split; [exact ex_flat10_axis|]. split.
  { intros i Hi. change (hNBins ex_flat10) with 10%nat in Hi. do 10 (destruct i as [|i]; [vm_compute; reflexivity|]). lia. }
  split; [vm_compute; reflexivity|]. split; [vm_compute; reflexivity|]. vm_compute. reflexivity.
Qed.
Print Assumptions C50_high_levels_refuted.
Example C50_nonvacuous : h_reach ex_flat10 /\ one_axis ex_flat10 (ex_axis "e" 0 10 10) /\ contiguous (ex_axis "e" 0 10 10) /\
  limit_bin ex_flat10 (qq 9 20) 4 /\ (4 + 2 < hNBins ex_flat10)%nat /\ cont ex_flat10 (4 + 2) <> 0 /\ lo_of (ex_axis "e" 0 10 10) 4 < hi_of (ex_axis "e" 0 10 10) 4.
Proof.
  split; [exact ex_flat10_reach|]. split; [exact ex_flat10_axis|]. split.
  { intros i Hi. change (aNBins (ex_axis "e" 0 10 10)) with 10%nat in Hi. do 9 (destruct i as [|i]; [apply Qc_is_canon; vm_compute; reflexivity|]). lia. }
  split; [exact ex_limit_bin|]. split; [vm_compute; lia|]. split; [discriminate|vm_compute; reflexivity].
Qed.

(** * C77 *)
Local Open Scope R_scope.
(** For every background, count, tolerance and level in [0,1) the search ends; the answer is the first multiple of the
    tolerance whose posterior probability is within the tolerance of the level. *)
Theorem C77_terminates b n cl tol : 0 <= b -> 0 < tol -> 0 <= cl -> cl < 1 ->
  exists k, (forall fuel, (k <= fuel)%nat -> poissonUpper fuel b n cl tol = Ok (INR k * tol)) /\
    Rabs (posterior_below b n (INR k * tol) - cl) <= tol /\
    (tol < cl -> posterior_below b n (INR k * tol) < cl) /\
    (forall j, (j < k)%nat -> posterior_below b n (INR j * tol) < cl - tol).
Proof. exact (poisson_pkg b n cl tol). Qed.
Print Assumptions C77_terminates.
(** The interval probability is the posterior of a Poisson count with a flat prior: 0 at 0, density the likelihood over
    its normalisation, between 0 and 1, tending to 1. *)
Theorem C77_interval b n u : 0 <= b -> 0 <= u ->
  oneSided b n u = posterior_below b n u /\ posterior_below b n 0 = 0 /\
  0 <= posterior_below b n u /\ posterior_below b n u < 1 /\
  derivable_pt_lim (posterior_below b n) u (exactly n (b + u) / at_most n b).
Proof.
  intros Hb Hu. split; [exact (oneSided_eq b n u Hb)|]. split; [exact (post_0 b n Hb)|]. destruct (post_range b n u Hb Hu) as [P1 P2].
  split; [exact P1|]. split; [exact P2|exact (density_pkg b n u)].
Qed.
Print Assumptions C77_interval.
Theorem C77_tends_to_one b n cl tol : 0 <= b -> 0 < tol -> cl < 1 -> exists k, cl <= posterior_below b n (INR k * tol).
Proof. exact (post_reach b n cl tol). Qed.
Print Assumptions C77_tends_to_one.
(** Outside those arguments it may search for ever. *)
Theorem C77_zero_tolerance fuel b n cl : 0 < cl -> poissonUpper fuel b n cl 0 = Diverge.
Proof. exact (stuck_pkg fuel b n cl). Qed.
Print Assumptions C77_zero_tolerance.
Theorem C77_above_one fuel b n cl tol : 0 <= b -> 0 < tol -> 1 + tol <= cl -> poissonUpper fuel b n cl tol = Diverge.
Proof. exact (never_pkg fuel b n cl tol). Qed.
Print Assumptions C77_above_one.
Example C77_nonvacuous : 0 <= 3 /\ 0 < /100 /\ 0 <= 9/10 /\ 9/10 < 1 /\ at_most 1 0 = 1 /\ posterior_below 0 0 1 = 1 - exp (- (1)).
Proof.
  assert (E0 : exp (- 0) = 1) by (rewrite Ropp_0; apply exp_0).
  repeat split; try lra; unfold posterior_below, at_most, exactly; cbn [sum_f_R0 pow fact INR Nat.mul Nat.add]; rewrite E0.
  - field.
  - rewrite Rplus_0_l. field.
Qed.
