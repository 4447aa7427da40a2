(** C100: axes with rounded edges. *)
From Coq Require Import ZArith QArith Qcanon Reals Lia.
From Flocq Require Import Core.
From Verif Require Import Base.Res Base.Num Base.RNum Model.Axis Model.Hist Model.Float Spec.AxisSpec Spec.HistSpec Spec.FloatSpec Proofs.AxisP Proofs.AxisP2 Proofs.FloatP1.
From Coq Require Import Lra.
Local Open Scope Qc_scope.

Section Fexp.
Variable fexp : Z -> Z.
Context {V : Valid_exp fexp}.
Lemma rne_rounding : rounding (rne fexp).
Proof.
  repeat split.
  - intros x y H. apply qr_le. rewrite !rne_ok. apply round_le; [exact V|apply valid_rnd_N|]. now apply qr_le.
  - intros x. apply qr_inj. rewrite !rne_ok. apply round_generic; [apply valid_rnd_N|]. apply generic_format_round; [exact V|apply valid_rnd_N].
Qed.
End Fexp.
Definition flt := FLT_exp (-1074) 53.
Lemma prec53 : Prec_gt_0 53. Proof. reflexivity. Qed.
Local Existing Instance prec53.
Lemma b64_ok x : qr (b64 x) = round radix2 (FLT_exp (-1074) 53) ZnearestE (qr x).
Proof. apply rne_ok. Qed.
Lemma b64_rounding : rounding b64.
Proof. exact (@rne_rounding (FLT_exp (-1074) 53) (@FLT_exp_valid (-1074) 53 prec53)). Qed.
Lemma b64_dyadic (m e : Z) : (Z.abs m <= 2 ^ 53)%Z -> (-1074 <= e)%Z -> b64 (qz m * two_pow e) = qz m * two_pow e.
Proof.
  intros Hm He. apply qr_inj. rewrite b64_ok. apply round_generic; [apply valid_rnd_N|]. rewrite qr_mult, qr_z, qr_two_pow.
  destruct (Z.eq_dec (Z.abs m) (2 ^ 53)) as [E|E].
  - assert (X : (IZR m * bpow radix2 e)%R = bpow radix2 (53 + e) \/ (IZR m * bpow radix2 e)%R = (- bpow radix2 (53 + e))%R).
    { rewrite bpow_plus. change (bpow radix2 53) with (IZR (2 ^ 53)). destruct (Z.abs_eq_or_opp m) as [A|A]; [left|right].
      - replace m with (2 ^ 53)%Z by lia. reflexivity.
      - replace m with (- 2 ^ 53)%Z by lia. rewrite opp_IZR. ring. }
    assert (G : generic_format radix2 (FLT_exp (-1074) 53) (bpow radix2 (53 + e))) by (apply generic_format_FLT_bpow; [exact prec53|lia]).
    destruct X as [->| ->]; [exact G|apply generic_format_opp; exact G].
  - apply generic_format_FLT. exists (Float radix2 m e); [reflexivity| |exact He]. cbn [Fnum]. change (radix2 ^ 53)%Z with (2 ^ 53)%Z. lia.
Qed.
Lemma b64_whole : exact_to (2 ^ 53) b64.
Proof. intros k Hk. pose proof (b64_dyadic k 0) as H. replace (qz k * two_pow 0) with (qz k) in H by (change (two_pow 0) with 1; ring). apply H; lia. Qed.

Lemma qr_half : qr qhalf = (/ 2)%R.
Proof. assert (E : (qr qhalf + qr qhalf)%R = 1%R) by (rewrite <- qr_plus, <- qr_1; f_equal; apply Qc_is_canon; reflexivity). lra. Qed.
Lemma nth_map_seq (f : nat -> Qc) n i : (i < n)%nat -> nth i (map f (seq 0 n)) 0 = f i.
Proof. intros H. rewrite (nth_indep _ 0 (f 0%nat)) by now rewrite map_length, seq_length. rewrite map_nth. now rewrite seq_nth. Qed.
Lemma edgeF_mono r mn w x y : rounding r -> 0 <= w -> x <= y -> edgeF r mn w x <= edgeF r mn w y.
Proof.
  intros [M _] Hw H. unfold edgeF. apply M. apply Qcplus_le_compat; [apply Qcle_refl|]. apply M. now apply Qcmult_le_compat_r.
Qed.
Lemma fax r name mn mx n latex : rounding r -> r mn = mn -> exact_to (Z.of_nat n) r -> mn < mx -> n <> 0%nat ->
  exists a, mk_equalF r name mn mx n latex = Ok a /\ aNBins a = n /\ aName a = name /\ aMin a = mn /\ aMax a = mx /\ lo_of a 0 = mn /\ contiguous a /\
    (forall i, (i < n)%nat -> exists c, binCentre a i = Ok c /\ lo_of a i <= c /\ c <= hi_of a i) /\
    forall x, (findBin a x < n)%nat /\ (x < mn -> findBin a x = 0%nat) /\ (hi_of a (n - 1) <= x -> findBin a x = (n - 1)%nat) /\
      (mn <= x -> x < hi_of a (n - 1) -> forall i, in_bin a i x <-> i = findBin a x).
Proof.
  intros Hr Hmn Hex Hlt Hn. pose proof Hr as [M [Z I]].
  assert (Rn : forall i, (i <= n)%nat -> r (qn i) = qn i) by (intros i Hi; apply Hex; lia).
  set (w := r (r (mx - mn) / r (qn n))).
  assert (Hw : 0 <= w).
  { unfold w. rewrite <- Z. apply M. rewrite (Rn n) by lia. unfold Qcdiv. assert (0 < qn n) by (apply qn_pos; lia). assert (0 <= / qn n).
    { apply qr_le. rewrite qr_inv by (intros C; rewrite C in H; exact (Qclt_not_eq _ _ H eq_refl)). rewrite qr_0. left. apply Rinv_0_lt_compat. rewrite <- qr_0. now apply qr_lt. }
    assert (0 <= r (mx - mn)).
    { rewrite <- Z. apply M. apply qr_le. rewrite qr_minus, qr_0. apply qr_lt in Hlt. lra. }
    replace 0 with (0 * / qn n) by ring. now apply Qcmult_le_compat_r. }
  set (a := {| aNBins := n; aMin := mn; aMax := mx; aName := name; aLatex := if String.eqb latex "" then name else latex;
          aLow := map (fun i => edgeF r mn w (r (qn i))) (seq 0 n); aHigh := map (fun i => edgeF r mn w (r (qn (i + 1)))) (seq 0 n);
          aCentre := map (fun i => edgeF r mn w (r (r (qn i) + qhalf))) (seq 0 n); aWidth := repeat w n |}).
  exists a. split. { unfold mk_equalF. destruct (qleb_spec mx mn) as [C|C]; [exfalso; exact (Qclt_not_le _ _ Hlt C)|]. destruct (Nat.eqb_spec n 0); [contradiction|]. reflexivity. }
  do 4 (split; [reflexivity|]).
  assert (L : forall i, (i < n)%nat -> lo_of a i = edgeF r mn w (qn i)) by (intros i Hi; unfold lo_of; cbn [a aLow]; rewrite nth_map_seq by exact Hi; now rewrite Rn by lia).
  assert (H : forall i, (i < n)%nat -> hi_of a i = edgeF r mn w (qn (i + 1))) by (intros i Hi; unfold hi_of; cbn [a aHigh]; rewrite nth_map_seq by exact Hi; now rewrite Rn by lia).
  assert (Mo : forall i j, (i <= j)%nat -> edgeF r mn w (qn i) <= edgeF r mn w (qn j)) by (intros i j Hij; apply edgeF_mono; [exact Hr|exact Hw|now apply qn_le]).
  assert (L0 : lo_of a 0 = mn).
  { rewrite L by lia. unfold edgeF. replace (qn 0 * w) with 0 by (rewrite qn_0; ring). rewrite Z. replace (mn + 0) with mn by ring. exact Hmn. }
  split; [exact L0|]. split. { intros i Hi. cbn [a aNBins] in Hi. rewrite H, L by lia. now rewrite Nat.add_1_r. }
  split.
  { intros i Hi. exists (edgeF r mn w (r (qn i + qhalf))). split.
    - unfold binCentre, vat. cbn [a aCentre]. rewrite nth_error_map. rewrite (nth_error_nth' _ 0%nat) by now rewrite seq_length. cbn [option_map]. rewrite seq_nth by exact Hi. cbn [Nat.add]. now rewrite Rn by lia.
    - assert (Hh : qn i <= qn i + qhalf /\ qn i + qhalf <= qn (i + 1)).
      { rewrite qn_add, qn_1. split; apply qr_le; rewrite ?qr_plus, ?qr_1; rewrite ?qr_half; lra. }
      rewrite L, H by exact Hi. split; apply edgeF_mono; auto; [rewrite <- (Rn i) at 1 by lia; now apply M|rewrite <- (Rn (i + 1)%nat) by lia; now apply M]. }
  (* the same edges given explicitly *)
  assert (Ev : exists a', mk_var name (aLow a) (aHigh a) latex = Ok a').
  { apply mk_var_full. cbn [a aLow aHigh]. split; [now rewrite !map_length|]. split; [destruct n; [contradiction|discriminate]|]. rewrite map_length, seq_length. split.
    - intros i Hi. pose proof (L i ltac:(lia)) as E1. pose proof (L (S i) ltac:(lia)) as E2. unfold lo_of in E1, E2. cbn [a aLow] in E1, E2. rewrite E1, E2. apply Mo. lia.
    - intros i Hi. pose proof (L i ltac:(lia)) as E1. pose proof (H i ltac:(lia)) as E2. unfold lo_of in E1. unfold hi_of in E2. cbn [a aLow aHigh] in E1, E2. rewrite E1, E2. apply Mo. lia. }
  destruct Ev as [a' Ev]. destruct (mk_var_full name (aLow a) (aHigh a) latex) as [_ [_ VV]]. destruct (VV a' Ev) as [V1 [_ [V2 [V3 [V4 [V5 _]]]]]].
  assert (N' : aNBins a' = n) by (rewrite V1; cbn [a aLow]; now rewrite map_length, seq_length).
  assert (Lo' : forall i, lo_of a' i = lo_of a i) by (intros i; unfold lo_of; now rewrite V2). assert (Hi' : forall i, hi_of a' i = hi_of a i) by (intros i; unfold hi_of; now rewrite V3).
  assert (Fb : forall x, findBin a x = findBin a' x) by (intros x; unfold findBin; rewrite V3, N'; reflexivity).
  intros x. destruct (findBin_full a' x (built_var _ _ _ _ _ Ev)) as [P1 P2]. rewrite Fb. rewrite N' in *. rewrite V4, V5, Lo', Hi', L0 in P2.
  split; [exact P1|]. destruct P2 as [Q1 [Q2 Q3]].
  { intros i Hi. rewrite N' in Hi. rewrite Hi', Lo', H, L by lia. now rewrite Nat.add_1_r. }
  split; [exact Q1|]. split; [exact Q2|]. intros H1 H2 i. rewrite <- (Q3 H1 H2 i). unfold in_bin. rewrite N', Lo', Hi'. reflexivity.
Qed.
