(** C100-C103: what holds when every operation on doubles is rounded (the rest of the model computes with exact numbers). *)
From Coq Require Import ZArith QArith Qcanon Reals Lia.
From Flocq Require Import Core.
From Verif Require Import Base.Res Base.Num Base.RNum Base.SMap Model.Axis Model.Hist Model.Grid Model.Float Spec.AxisSpec Spec.HistSpec Spec.GridSpec Spec.FloatSpec
  Proofs.FloatP1 Proofs.FloatP2 Proofs.FloatP3 Proofs.FloatP4 Proofs.FloatP5 Props.AxisProps Props.HistProps Props.GridProps.
Local Open Scope Qc_scope.

(** the rounding used is IEEE binary64, round to nearest even, as the Flocq library defines it (no overflow) *)
Theorem C100_double x : qr (b64 x) = round radix2 (FLT_exp (-1074) 53) ZnearestE (qr x).
Proof. exact (b64_ok x). Qed.
Print Assumptions C100_double.
Theorem C100_double_rounding : rounding b64 /\ exact_to (2 ^ 53) b64.
Proof. split; [exact b64_rounding|exact b64_whole]. Qed.
Print Assumptions C100_double_rounding.
(** with any monotone rounding: the axis has n bins, starts exactly at the minimum, has no gaps or overlaps, every bin contains its centre, and FindBin gives the
    one bin that contains the value, or the first or last bin *)
Theorem C100_axis_partial r name mn mx n latex : rounding r -> r mn = mn -> exact_to (Z.of_nat n) r -> mn < mx -> n <> 0%nat ->
  exists a, mk_equalF r name mn mx n latex = Ok a /\ aNBins a = n /\ aName a = name /\ aMin a = mn /\ aMax a = mx /\ lo_of a 0 = mn /\ contiguous a /\
    (forall i, (i < n)%nat -> exists c, binCentre a i = Ok c /\ lo_of a i <= c /\ c <= hi_of a i) /\
    forall x, (findBin a x < n)%nat /\ (x < mn -> findBin a x = 0%nat) /\ (hi_of a (n - 1) <= x -> findBin a x = (n - 1)%nat) /\
      (mn <= x -> x < hi_of a (n - 1) -> forall i, in_bin a i x <-> i = findBin a x).
Proof. exact (fax r name mn mx n latex). Qed.
Print Assumptions C100_axis_partial.
(** every edge is close to where it should be: the relative error is that of four roundings *)
Theorem C100_edge_error_partial u r name mn mx n latex a i : within u r -> 0 <= u -> exact_to (Z.of_nat n) r -> mn < mx -> (i < n)%nat -> mk_equalF r name mn mx n latex = Ok a ->
  let lo := mn + qn i * ((mx - mn) / qn n) in let hi := mn + qn (i + 1) * ((mx - mn) / qn n) in
  qabs (lo_of a i - lo) <= (qpow (1 + u) 4 - 1) * (qabs mn + (lo - mn)) /\ qabs (hi_of a i - hi) <= (qpow (1 + u) 4 - 1) * (qabs mn + (hi - mn)).
Proof. exact (axis_edges u r name mn mx n latex a i). Qed.
Print Assumptions C100_edge_error_partial.
(** a double operation without underflow has relative error at most 2^-53 *)
Theorem C100_double_error : within (/ qz (2 ^ 53)) (rne (fun m => (m - 53)%Z)) /\
  (forall x, (x = 0 \/ two_pow (-1022) <= qabs x) -> b64 x = rne (fun m => (m - 53)%Z) x).
Proof. split; [exact r53_within|exact b64_normal]. Qed.
Print Assumptions C100_double_error.
Definition ex_f (mn mx : Z) (n : nat) : axis := match mk_equalF b64 "x" (qz mn) (qz mx) n "" with Ok a => a | _ => mkAxis 0 0 0 "" "" [] [] [] [] end.
Example C100_nonvacuous : rounding b64 /\ b64 0 = 0 /\ exact_to (Z.of_nat 10) b64 /\ 0 < 1 /\ 10%nat <> 0%nat /\
  map this (aHigh (ex_f 0 1 10)) = map (fun k => this (b64 k)) [qq 1 10; qq 2 10; b64 (qq 3 10) + two_pow (-54); qq 4 10; qq 5 10; b64 (qq 6 10) + two_pow (-53); b64 (qq 7 10) + two_pow (-53); qq 8 10; qq 9 10; 1].
Proof.
  split; [apply C100_double_rounding|]. split; [reflexivity|]. split; [intros k Hk; apply C100_double_rounding; lia|]. split; [reflexivity|]. split; [discriminate|]. vm_compute. reflexivity.
Qed.
(** the last edge need not be the maximum: 49 bins from 0 to 1 end below 1, 25 bins from 0 to 7 end above 7 *)
Theorem C100_max_refuted : (exists a, mk_equalF b64 "x" 0 1 49 "" = Ok a /\ hi_of a 48 < aMax a) /\ (exists a, mk_equalF b64 "x" 0 (qz 7) 25 "" = Ok a /\ aMax a < hi_of a 24).
Proof. split; [exists (ex_f 0 1 49)|exists (ex_f 0 7 25)]; (split; [vm_compute; reflexivity|vm_compute; reflexivity]). Qed.
Print Assumptions C100_max_refuted.
(** a bin can be empty: of the 4 bins from 2^53 to 2^53 + 2 the first contains no number *)
Theorem C100_empty_bin_refuted : exists a, mk_equalF b64 "x" (qz (2 ^ 53)) (qz (2 ^ 53 + 2)) 4 "" = Ok a /\ forall x, ~ in_bin a 0 x.
Proof.
  exists (ex_f (2 ^ 53) (2 ^ 53 + 2) 4). split; [vm_compute; reflexivity|]. intros x [_ [H1 H2]].
  assert (E : lo_of (ex_f (2 ^ 53) (2 ^ 53 + 2) 4) 0 = hi_of (ex_f (2 ^ 53) (2 ^ 53 + 2) 4) 0) by (apply Qc_is_canon; vm_compute; reflexivity). rewrite E in H1. exact (Qclt_not_le _ _ H2 H1).
Qed.
Print Assumptions C100_empty_bin_refuted.

(** C101: numbers of events are counted exactly as long as the total stays below 2^53 *)
Theorem C101_counts_partial N r h l : h_reach h -> exact_to N r -> (forall i, (i < hNBins h)%nat -> whole (cont h i)) -> (forall e, In e l -> whole (snd e)) -> total h + qsum (map snd l) <= qz N ->
  fillsF r h l = fills h l /\ integralF r (fillsF r h l) = integral (fills h l) /\ total (fills h l) <= qz N /\ forall i, whole (cont (fills h l) i).
Proof. exact (counts_pkg N r h l). Qed.
Print Assumptions C101_counts_partial.
Example C101_nonvacuous : h_reach ex_h1 /\ exact_to (2 ^ 53) b64 /\ (forall i, (i < hNBins ex_h1)%nat -> whole (cont ex_h1 i)) /\
  total ex_h1 + qsum (map snd [([1], 1); ([qz 3], qz 2)]) <= qz (2 ^ 53) /\ map this (hCont (fillsF b64 ex_h1 [([1], 1); ([qz 3], qz 2)])) <> map this (hCont ex_h1).
Proof.
  split; [exact ex_h1_reach|]. split; [apply C100_double_rounding|]. split.
  - intros i Hi. exists (Z.of_nat (S i)). split; [lia|]. destruct i as [|[|[|[|[|i]]]]]; [| | | | |exfalso; cbn in Hi; lia]; apply Qc_is_canon; vm_compute; reflexivity.
  - split; [vm_compute; discriminate|vm_compute; discriminate].
Qed.
(** from 2^53 events on, filling one more event changes nothing *)
Theorem C101_saturates_refuted : exists h b, h_reach h /\ (b < hNBins h)%nat /\ cont h b = qz (2 ^ 53) /\ h_findBin h [1] = Ok b /\ fillF b64 h [1] 1 = (h, Ok tt).
Proof.
  exists (fst (fill (fst (empty_bins ex_h1)) [1] (qz (2 ^ 53)))), 0%nat. split; [apply hr_fill, hr_empty, ex_h1_reach|].
  split; [vm_compute; lia|]. split; [apply Qc_is_canon; vm_compute; reflexivity|]. split; [vm_compute; reflexivity|]. vm_compute. reflexivity.
Qed.
Print Assumptions C101_saturates_refuted.

(** C102: sums of nonnegative contents, and Normalise, have a relative error of one rounding per bin *)
Theorem C102_integral_partial u r h : h_reach h -> within u r -> 0 <= u -> u <= 1 -> (forall i, (i < hNBins h)%nat -> 0 <= cont h i) ->
  exists t, integralF r h = Ok t /\ qpow (1 - u) (hNBins h) * total h <= t /\ t <= qpow (1 + u) (hNBins h) * total h.
Proof. exact (integral_round u r h). Qed.
Print Assumptions C102_integral_partial.
Theorem C102_normalise_partial u r h : h_reach h -> within u r -> 0 <= u -> u < 1 -> (forall i, (i < hNBins h)%nat -> 0 <= cont h i) -> 0 < total h ->
  exists h' t, normaliseF r h = (h', Ok tt) /\ same_axes h' h /\ integralF r h' = Ok t /\
    qpow (1 - u) (hNBins h + 1) <= t * qpow (1 + u) (hNBins h) /\ t * qpow (1 - u) (hNBins h) <= qpow (1 + u) (hNBins h + 1) /\
    forall i, (i < hNBins h)%nat -> (1 - u) * (cont h i / total h) <= cont h' i * qpow (1 + u) (hNBins h) /\ cont h' i * qpow (1 - u) (hNBins h) <= (1 + u) * (cont h i / total h).
Proof. exact (normalise_round u r h). Qed.
Print Assumptions C102_normalise_partial.
Example C102_nonvacuous : h_reach ex_h1 /\ within (/ qz (2 ^ 53)) (rne (fun m => (m - 53)%Z)) /\ 0 <= / qz (2 ^ 53) /\ / qz (2 ^ 53) < 1 /\
  (forall i, (i < hNBins ex_h1)%nat -> 0 <= cont ex_h1 i) /\ 0 < total ex_h1 /\ rmap this (integralF b64 (fst (normaliseF b64 ex_h1))) = Ok (this 1).
Proof.
  split; [exact ex_h1_reach|]. split; [apply C100_double_error|]. split; [vm_compute; discriminate|]. split; [vm_compute; reflexivity|]. split.
  - intros i Hi. destruct i as [|[|[|[|[|i]]]]]; [| | | | |exfalso; cbn in Hi; lia]; vm_compute; discriminate.
  - split; vm_compute; reflexivity.
Qed.
(** six equal bins: the integral after Normalise is 1 - 2^-53, not 1 *)
Theorem C102_exact_refuted : exists h t, h_reach h /\ (forall i, (i < hNBins h)%nat -> cont h i = 1) /\ integralF b64 (fst (normaliseF b64 h)) = Ok t /\ t < 1.
Proof.
  exists (fst (setBinContents (mk_hist (fst (addAxes ac_empty [ex_axis "e" 0 6 6]))) (repeat 1 6))), (1 - two_pow (-53)).
  split; [|split; [|split]].
  - apply hr_setBins, hr_new; [|discriminate]. apply ar_adds; [constructor|]. repeat constructor. apply ex_axis_built; lia.
  - intros i Hi. destruct i as [|[|[|[|[|[|i]]]]]]; [| | | | | |exfalso; cbn in Hi; lia]; apply Qc_is_canon; vm_compute; reflexivity.
  - vm_compute. reflexivity.
  - vm_compute. reflexivity.
Qed.
Print Assumptions C102_exact_refuted.

(** C103: a grid search whose settings have few bits does exactly what C43 says *)
Theorem C103_exact_steps_partial r g f fuel : rounding r -> well_set g -> exact_steps r g ->
  (forall k, In k (skeys (grMin g)) -> r (r (val (grMax g) k - val (grMin g) k) / val (grStep g) k) < qz (2 ^ 64)) ->
  gOptimiseF r g f fuel = gOptimise g f fuel.
Proof. exact (grid_same r g f fuel). Qed.
Print Assumptions C103_exact_steps_partial.
Theorem C103_few_bits_partial g f fuel : well_set g -> few_bits g -> gOptimiseF b64 g f fuel = gOptimise g f fuel.
Proof. exact (grid_double g f fuel). Qed.
Print Assumptions C103_few_bits_partial.
Definition ex_fd (a b : Qc) : smap Qc := [("a"%string, a); ("b"%string, b)].
Definition ex_fg (mn mx st : Qc) : grid := mkGrid (ex_fd mn 0) (ex_fd mx 1) (ex_fd st 1) false.
Lemma ex_fg_set mn mx st : 0 < st -> mn < mx -> mx - mn < qz (2 ^ 64) * st -> well_set (ex_fg mn mx st).
Proof.
  intros H1 H2 H3. assert (W : forall x y, swf (ex_fd x y)) by (intros; unfold swf; cbn; repeat constructor).
  do 5 (split; [first [apply W|reflexivity]|]). split; [intros C; injection C; intros; subst; exact (Qclt_not_eq _ _ H2 eq_refl)|].
  intros k [<-|[<-|[]]]; [split; [exact H1|split; [now apply Qclt_le_weak|exact H3]]|split; [vm_compute; reflexivity|split; [vm_compute; discriminate|vm_compute; reflexivity]]].
Qed.
(** steps of 1/4 *)
Example C103_nonvacuous : well_set (ex_fg (qq (-3) 4) (qq 1 2) (qq 1 4)) /\ few_bits (ex_fg (qq (-3) 4) (qq 1 2) (qq 1 4)) /\
  rmap (fun r => List.length (grSeen r)) (gOptimiseF b64 (ex_fg (qq (-3) 4) (qq 1 2) (qq 1 4)) (fun _ => Ok 1) 20) = Ok 11%nat.
Proof.
  split; [apply ex_fg_set; vm_compute; reflexivity|]. split; [|vm_compute; reflexivity].
  intros k [<-|[<-|[]]]; [exists (-2)%Z, (-3)%Z, 1%Z, 2%Z|exists 0%Z, 0%Z, 1%Z, 1%Z]; (split; [lia|split; [lia|split; [lia|split; [apply Qc_is_canon; vm_compute; reflexivity|split; apply Qc_is_canon; vm_compute; reflexivity]]]]).
Qed.
(** from 0 to 0.3 in steps of 0.1: no point near 0.3 is evaluated, although the exact grid has one *)
Definition ex_end : grid := ex_fg 0 (b64 (qq 3 10)) (b64 (qq 1 10)).
Theorem C103_end_point_refuted : well_set ex_end /\
  on_grid (ex_fg 0 (qq 3 10) (qq 1 10)) (ex_fd (qq 3 10) 1) /\
  exists r, (forall fuel, (20 <= fuel)%nat -> gOptimiseF b64 ex_end (fun _ => Ok 1) fuel = Ok r) /\ forall p, In p (grSeen r) -> val p "a" < qq 1 4.
Proof.
  split; [apply ex_fg_set; vm_compute; reflexivity|]. split.
  - split; [reflexivity|]. intros k [<-|[<-|[]]]; (split; [vm_compute; discriminate|]); [exists 3%nat|exists 1%nat]; apply Qc_is_canon; vm_compute; reflexivity.
  - exists (match gOptimiseF b64 ex_end (fun _ => Ok 1) 20 with Ok r => r | _ => mkGres [] 0 [] end). split.
    + intros fuel Hf. replace fuel with (20 + (fuel - 20))%nat by lia. set (m := (fuel - 20)%nat). vm_compute. reflexivity.
    + assert (B : forallb (fun p => qltb (val p "a") (qq 1 4)) (grSeen (match gOptimiseF b64 ex_end (fun _ => Ok 1) 20 with Ok r => r | _ => mkGres [] 0 [] end)) = true) by (vm_compute; reflexivity).
      intros p Hp. rewrite forallb_forall in B. apply qltb_lt. exact (B p Hp).
Qed.
Print Assumptions C103_end_point_refuted.
(** a step below the spacing of the doubles: the search never returns *)
Definition ex_stuck : grid := ex_fg (qz (2 ^ 53)) (qz (2 ^ 53 + 4)) 1.
Theorem C103_never_returns_refuted : well_set ex_stuck /\ forall fuel, gOptimiseF b64 ex_stuck (fun _ => Ok 1) fuel = Diverge.
Proof.
  split; [apply ex_fg_set; vm_compute; reflexivity|]. intros fuel.
  assert (H : forall fuel b, gLoopF b64 ex_stuck (fun _ => Ok 1) fuel (grMin ex_stuck) b = Diverge).
  { intros fu. induction fu as [|n IH]; intros b; [reflexivity|]. cbn [gLoopF].
    assert (I : gIncF b64 ex_stuck (skeys (grStep ex_stuck)) 0 (Z.of_nat (List.length (grStep ex_stuck))) (grMin ex_stuck) = Ok (true, grMin ex_stuck)) by (vm_compute; reflexivity).
    rewrite I. cbn [bind fst snd]. apply IH. }
  unfold gOptimiseF. assert (K : negb (hasSameKeys (grStep ex_stuck) (grMax ex_stuck)) || negb (hasSameKeys (grStep ex_stuck) (grMin ex_stuck)) = false) by reflexivity. rewrite K.
  assert (C : exists l, mapM (gCountF b64 ex_stuck) (grMin ex_stuck) = Ok l) by (eexists; vm_compute; reflexivity). destruct C as [l ->]. cbn [bind]. apply H.
Qed.
Print Assumptions C103_never_returns_refuted.
