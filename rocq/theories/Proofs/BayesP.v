From Coq Require Import ZArith.
From Verif Require Import Base.Res Base.Num Base.SMap Model.Axis Model.Hist Model.Bayes Spec.AxisSpec Spec.HistSpec Spec.BayesSpec
  Proofs.AxisP Proofs.HistP Proofs.HistP2 Proofs.HistP3 Proofs.HistP4 Proofs.HistP5 Proofs.HistToolsP3 Proofs.IOP2.
From Coq Require Import Lia.
Local Open Scope Qc_scope.
Local Open Scope res_scope.

Lemma first_S h b : first_bins h (S b) = first_bins h b + cont h b.
Proof. unfold first_bins. rewrite seq_S, map_app, qsum_app. cbn [map qsum Nat.add]. ring. Qed.
Lemma first_total h : first_bins h (hNBins h) = total h. Proof. reflexivity. Qed.
Lemma first_mono h b c : (forall i, 0 <= cont h i) -> (b <= c)%nat -> first_bins h b <= first_bins h c.
Proof.
  intros Hn. induction 1 as [|c _ IH]; [apply Qcle_refl|]. rewrite first_S. specialize (Hn c). qlra.
Qed.
Lemma sum_first h c : h_ok h -> (c <= hNBins h)%nat ->
  foldM (fun acc i => do x <- getBinContent h i; Ok (acc + x)) (seq 0 c) 0 = Ok (first_bins h c).
Proof.
  intros Hok Hc. rewrite (foldM_ext _ (fun acc i => Ok (acc + cont h i))).
  2: { intros i a Hi. apply in_seq in Hi. unfold getBinContent. destruct (Nat.ltb_spec (hNBins h) i); [lia|].
       destruct Hok as [_ [_ [_ [_ Hl]]]]. rewrite (vidx_nth _ _ 0) by lia. reflexivity. }
  assert (G : forall l a, foldM (fun acc i => Ok (acc + cont h i)) l a = Ok (a + qsum (map (cont h) l))).
  { induction l as [|x l IH]; intros a; cbn [foldM map qsum bind]; [f_equal; ring|]. rewrite IH. f_equal. ring. }
  rewrite G. f_equal. unfold first_bins. ring.
Qed.
Lemma loop_limit h cl b : h_ok h -> (b < hNBins h)%nat -> (forall c, (c <= b)%nat -> first_bins h c < cl) -> cl <= first_bins h (S b) ->
  forall d crit sum fuel, (crit + d = S b)%nat -> sum < cl -> (d + 1 <= fuel)%nat -> upLoop fuel h cl crit sum = Ok ((b + 2)%nat, first_bins h (S b)).
Proof.
  intros Hok Hb Hlo Hhi. induction d as [|d IH]; intros crit sum fuel E Hs Hf; destruct fuel as [|fuel]; try lia; cbn [upLoop].
  - apply qltb_lt in Hs. rewrite Hs. rewrite sum_first by (try assumption; lia). cbn [bind].
    assert (crit = S b) by lia. subst crit. replace (S b + 1)%nat with (b + 2)%nat by lia.
    destruct fuel; cbn [upLoop]; apply qltb_ge in Hhi; rewrite Hhi; reflexivity.
  - apply qltb_lt in Hs. rewrite Hs. rewrite sum_first by (try assumption; lia). cbn [bind].
    apply IH; [lia|apply Hlo; lia|lia].
Qed.
Lemma loop_over h cl : h_ok h -> (forall c, (c <= hNBins h)%nat -> first_bins h c < cl) ->
  forall d crit sum fuel, (crit + d = S (hNBins h))%nat -> sum < cl -> (d + 1 <= fuel)%nat -> upLoop fuel h cl crit sum = UB.
Proof.
  intros Hok Hlo. induction d as [|d IH]; intros crit sum fuel E Hs Hf; destruct fuel as [|fuel]; try lia; cbn [upLoop].
  - apply qltb_lt in Hs. rewrite Hs. assert (crit = S (hNBins h)) by lia. subst crit.
    rewrite seq_S. cbn [Nat.add]. rewrite foldM_snoc, sum_first by (try assumption; lia). cbn [bind foldM].
    unfold getBinContent. rewrite Nat.ltb_irrefl. destruct Hok as [_ [_ [_ [_ Hl]]]].
    unfold vidx. rewrite (proj2 (nth_error_None (hCont h) (hNBins h))) by lia. reflexivity.
  - apply qltb_lt in Hs. rewrite Hs. rewrite sum_first by (try assumption; lia). cbn [bind].
    apply IH; [lia|apply Hlo; lia|lia].
Qed.

Section one.
Variables (h : hist) (a : axis).
Hypothesis Hr : h_reach h.
Hypothesis Ha : one_axis h a.
Let Hok : h_ok h := h_reach_ok h Hr.
Lemma one_dims : hNDims h = 1%nat.
Proof. rewrite (h_ok_ndims h Hok), Ha. reflexivity. Qed.
Lemma one_bins : hNBins h = aNBins a.
Proof. rewrite (h_ok_nbins h Hok). unfold shape_of. rewrite Ha. cbn. lia. Qed.
Lemma one_built : built a.
Proof. destruct Hok as [[_ [_ [_ [_ [_ F]]]]] _]. rewrite Ha in F. inversion F. assumption. Qed.

Lemma div_0 x : 0 / x = 0. Proof. unfold Qcdiv. ring. Qed.
Lemma one_edge get i (l : axis -> list Qc) : (forall a i, get a i = vat (l a) i) -> List.length (l a) = aNBins a -> (i < hNBins h)%nat ->
  binDim get (hAxes h) i 0 = Ok (nth i (l a) 0).
Proof.
  intros Hg Hl Hi. unfold binDim. pose proof Hok as [Hac [Hne [Hnb [Hnd _]]]].
  pose proof one_dims as D. pose proof one_bins as B. destruct (Nat.leb_spec (acNDims (hAxes h)) 0); [lia|].
  destruct (Nat.leb_spec (acNBins (hAxes h)) i); [lia|]. rewrite Ha. cbn [vat nth_error bind].
  unfold unflatten. rewrite <- Hnd, D. cbn [Nat.eqb bind]. rewrite Hg. apply vat_nth. lia.
Qed.
Lemma one_edge_out get i : (hNBins h <= i)%nat -> binDim get (hAxes h) i 0 = Throw NotFoundError.
Proof.
  intros Hi. unfold binDim. pose proof Hok as [Hac [Hne [Hnb [Hnd _]]]].
  pose proof one_dims as D. destruct (Nat.leb_spec (acNDims (hAxes h)) 0); [lia|]. destruct (Nat.leb_spec (acNBins (hAxes h)) i); [reflexivity|lia].
Qed.
End one.
Lemma normal_first h h' b : (forall i, cont h' i = cont h i / total h) -> first_bins h' b = first_bins h b / total h.
Proof. intros E. induction b as [|b IH]; [unfold first_bins; cbn; unfold Qcdiv; ring|]. rewrite !first_S, IH, E. unfold Qcdiv. ring. Qed.
Lemma ndims_pkg h cl : h_reach h -> total h <> 0 -> 0 < cl -> hNDims h <> 1%nat -> upperBound h cl = Throw DimensionError.
Proof.
  intros Hr Hz Hc Hd. unfold upperBound. rewrite (integral_total h (h_reach_ok h Hr)). cbn [bind]. apply qeqb_neq in Hz. rewrite Hz.
  apply qleb_gt in Hc. rewrite Hc. apply Nat.eqb_neq in Hd. rewrite Hd. reflexivity.
Qed.
Lemma refuse_pkg h cl : h_reach h -> total h = 0 \/ cl <= 0 -> upperBound h cl = Throw ValueError.
Proof.
  intros Hr H. unfold upperBound. rewrite (integral_total h (h_reach_ok h Hr)). cbn [bind]. destruct (qeqb (total h) 0) eqn:E; [reflexivity|].
  destruct H as [H|H]; [apply qeqb_eq in H; congruence|]. apply qleb_le in H. rewrite H. reflexivity.
Qed.
Lemma upper_shape h a cl : h_reach h -> one_axis h a -> total h <> 0 -> 0 < cl ->
  exists post, h_reach post /\ one_axis post a /\ hNBins post = hNBins h /\ (forall i, cont post i = cont h i / total h) /\ total post = 1 /\
  upperBound h cl = (do r <- upLoop (hNBins h + 3) post cl 0 0;
    do hi <- binDim binHigh (hAxes post) (fst r) 0;
    do lo <- binDim binLow (hAxes post) (fst r) 0;
    do c <- getBinContent post (fst r);
    do d <- qdiv ((hi - lo) * (snd r - cl)) c;
    Ok (hi - d)).
Proof.
  intros Hr Ha Hz Hc. destruct (normalise_ok h (h_reach_ok h Hr) Hz) as [post [E [[S1 [S2 _]] [N T]]]]. exists post.
  split. { replace post with (fst (normalise h)) by (rewrite E; reflexivity). apply hr_normalise, Hr. }
  split; [unfold one_axis; rewrite S1; exact Ha|]. split; [exact S2|]. split; [exact N|]. split; [exact T|].
  unfold upperBound. rewrite (integral_total h (h_reach_ok h Hr)). cbn [bind]. apply qeqb_neq in Hz. rewrite Hz.
  apply qleb_gt in Hc. rewrite Hc. rewrite (one_dims h a Hr Ha). rewrite E. reflexivity.
Qed.
Lemma upper_pkg h a cl b : h_reach h -> one_axis h a -> total h <> 0 -> 0 < cl -> limit_bin h cl b ->
  ((b + 2 < hNBins h)%nat -> cont h (b + 2) <> 0 -> upperBound h cl =
     Ok (hi_of a (b + 2) - (hi_of a (b + 2) - lo_of a (b + 2)) * (first_bins h (b + 1) / total h - cl) / (cont h (b + 2) / total h))) /\
  ((b + 2 < hNBins h)%nat -> cont h (b + 2) = 0 -> upperBound h cl = NonFinite) /\
  ((hNBins h <= b + 2)%nat -> upperBound h cl = Throw NotFoundError).
Proof.
  intros Hr Ha Hz Hc [Hb [Hlo Hhi]]. destruct (upper_shape h a cl Hr Ha Hz Hc) as [post [Hr' [Ha' [S2 [N [T ->]]]]]].
  pose proof (h_reach_ok _ Hr') as Hok. pose proof (normal_first h post) as F. pose proof (one_built post a Hr' Ha') as Bu.
  destruct (built_facts a Bu) as [_ [L1 [L2 _]]].
  rewrite (loop_limit post cl b Hok) with (d := S b); [| lia | | | lia | exact Hc | lia].
  2: { intros c Hcb. rewrite F by exact N. apply Hlo, Hcb. }
  2: { rewrite F by exact N. replace (S b) with (b + 1)%nat by lia. exact Hhi. }
  cbn [bind fst snd].
  assert (IN : (b + 2 < hNBins h)%nat -> (do hi <- binDim binHigh (hAxes post) (b + 2) 0; do lo <- binDim binLow (hAxes post) (b + 2) 0;
     do c <- getBinContent post (b + 2); do d <- qdiv ((hi - lo) * (first_bins post (S b) - cl)) c; Ok (hi - d)) =
     do d <- qdiv ((hi_of a (b + 2) - lo_of a (b + 2)) * (first_bins post (S b) - cl)) (cont post (b + 2)); Ok (hi_of a (b + 2) - d)).
  { intros H. rewrite (one_edge post a Hr' Ha' binHigh (b + 2) aHigh) by (try reflexivity; try assumption; lia). cbn [bind].
    rewrite (one_edge post a Hr' Ha' binLow (b + 2) aLow) by (try reflexivity; try assumption; lia). cbn [bind].
    unfold getBinContent. destruct (Nat.ltb_spec (hNBins post) (b + 2)); [lia|]. destruct Hok as [_ [_ [_ [_ HL]]]].
    rewrite (vidx_nth _ _ 0) by lia. reflexivity. }
  split; [|split]; intros H.
  - intros Hn. rewrite IN by exact H. unfold qdiv. rewrite N. destruct (qeqb (cont h (b + 2) / total h) 0) eqn:E.
    + apply qeqb_eq in E. exfalso. apply Hn. replace (cont h (b + 2)) with (cont h (b + 2) / total h * total h) by (field; exact Hz). rewrite E. ring.
    + cbn [bind]. rewrite F by exact N. replace (S b) with (b + 1)%nat by lia. reflexivity.
  - intros Hn. rewrite IN by exact H. unfold qdiv. rewrite N, Hn, div_0. reflexivity.
  - rewrite (one_edge_out post a Hr' Ha') by lia. reflexivity.
Qed.
Lemma limit_exists h cl : (forall i, 0 <= cont h i) -> 0 < total h -> 0 < cl -> cl <= 1 -> exists b, limit_bin h cl b.
Proof.
  intros Hn Ht Hc H1.
  assert (G : forall n, (exists b, (b < n)%nat /\ (forall c, (c <= b)%nat -> first_bins h c / total h < cl) /\ cl <= first_bins h (b + 1) / total h) \/
                        (forall c, (c <= n)%nat -> first_bins h c / total h < cl)).
  { induction n as [|n [[b [B1 B2]]|IH]].
    - right. intros c Hc0. assert (c = 0)%nat by lia. subst. unfold first_bins. cbn. rewrite div_0. exact Hc.
    - left. exists b. split; [lia|exact B2].
    - destruct (Qclt_le_dec (first_bins h (S n) / total h) cl) as [L|L].
      + right. intros c Hc'. destruct (Nat.eq_dec c (S n)) as [->|]; [exact L|apply IH; lia].
      + left. exists n. split; [lia|]. split; [exact IH|]. replace (n + 1)%nat with (S n) by lia. exact L. }
  destruct (G (hNBins h)) as [[b [B1 [B2 B3]]]|A]; [exists b; split; [exact B1|split; assumption]|].
  specialize (A (hNBins h) (le_n _)). rewrite first_total in A. exfalso. apply (Qclt_not_le _ _ A).
  replace (total h / total h) with 1; [exact H1|]. field. intros Z. rewrite Z in Ht. exact (Qclt_not_le _ _ Ht (Qcle_refl _)).
Qed.
Lemma over_pkg h a cl : h_reach h -> one_axis h a -> (forall i, 0 <= cont h i) -> 0 < total h -> 1 < cl -> upperBound h cl = UB.
Proof.
  intros Hr Ha Hn Ht Hc. assert (Hz : total h <> 0) by (intros Z; rewrite Z in Ht; exact (Qclt_not_le _ _ Ht (Qcle_refl _))).
  assert (Hc0 : 0 < cl) by qlra.
  destruct (upper_shape h a cl Hr Ha Hz Hc0) as [post [Hr' [Ha' [S2 [N [T ->]]]]]].
  rewrite (loop_over post cl (h_reach_ok _ Hr')) with (d := S (hNBins post)); [reflexivity| |lia|exact Hc0|lia].
  intros c Hcb. apply Qcle_lt_trans with (first_bins post (hNBins post)); [|rewrite first_total, T; exact Hc].
  apply first_mono; [|exact Hcb]. intros i. rewrite N. specialize (Hn i).
  unfold Qcdiv. assert (0 <= / total h). { apply Qclt_le_weak. apply Qcnot_le_lt. intros Q. assert (K : total h * / total h = 1) by (apply Qcmult_inv_r; exact Hz).
    qnra. } qnra.
Qed.
