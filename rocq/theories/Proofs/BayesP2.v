From Coq Require Import ZArith.
From Verif Require Import Base.Res Base.Num Base.SMap Model.Axis Model.Hist Model.Bayes Spec.AxisSpec Spec.HistSpec Spec.BayesSpec
  Proofs.AxisP Proofs.HistP Proofs.BayesP.
From Coq Require Import Lia.
Local Open Scope Qc_scope.

Lemma inv_pos x : 0 < x -> 0 < / x.
Proof.
  intros H. apply Qcnot_le_lt. intros Q. assert (N : x <> 0) by (intros ->; exact (Qclt_not_le _ _ H (Qcle_refl _))).
  assert (K : x * / x = 1) by (apply Qcmult_inv_r; exact N). qnra.
Qed.
Lemma edges_before a b : contiguous a -> (forall i, (i < aNBins a)%nat -> lo_of a i <= hi_of a i) -> (b < aNBins a)%nat ->
  forall d i, (i + S d = b)%nat -> hi_of a i <= lo_of a b.
Proof.
  intros C L Hb. induction d as [|d IH]; intros i E.
  - rewrite (C i) by lia. replace (S i) with b by lia. apply Qcle_refl.
  - rewrite (C i) by lia. apply Qcle_trans with (hi_of a (S i)); [apply L; lia|apply IH; lia].
Qed.
Lemma part_le lo hi x : x <= lo -> part_below lo hi x = 0.
Proof. intros H. unfold part_below. apply qleb_le in H. rewrite H. reflexivity. Qed.
Lemma part_ge lo hi x : lo < x -> hi <= x -> part_below lo hi x = 1.
Proof. intros H H2. unfold part_below. apply qleb_gt in H. rewrite H. apply qleb_le in H2. rewrite H2. reflexivity. Qed.
Lemma part_in lo hi t : lo < hi -> 0 < t -> t <= 1 -> part_below lo hi (lo + (hi - lo) * t) = t.
Proof.
  intros H H0 H1. unfold part_below. assert (P : 0 < (hi - lo) * t) by qnra.
  destruct (qleb_spec (lo + (hi - lo) * t) lo) as [L|L]; [exfalso; qlra|].
  destruct (qleb_spec hi (lo + (hi - lo) * t)) as [L2|L2].
  - apply Qcle_antisym; [|exact H1]. qnra.
  - field. intros E. qlra.
Qed.
Lemma qsum_tail (f : nat -> Qc) n s : (forall i, (s <= i < s + n)%nat -> f i = 0) -> qsum (map f (seq s n)) = 0.
Proof. intros H. apply qsum_map_0. intros i Hi. apply in_seq in Hi. apply H. lia. Qed.

Lemma exact_pkg h a cl b : h_reach h -> one_axis h a -> contiguous a -> lo_of a b < hi_of a b -> 0 < total h -> limit_bin h cl b ->
  prob_below h a (exact_limit h a cl b) = cl.
Proof.
  intros Hr Ha Hc Hw Ht [Hb [Hlo Hhi]]. pose proof (one_bins h a Hr Ha) as B. pose proof (one_built h a Hr Ha) as Bu.
  destruct (built_facts a Bu) as [_ [_ [_ [_ [_ [_ [Hle _]]]]]]].
  assert (Hz : total h <> 0) by (intros Z; rewrite Z in Ht; exact (Qclt_not_le _ _ Ht (Qcle_refl _))).
  set (T := total h) in *. assert (L := Hlo b (le_n _)). replace (b + 1)%nat with (S b) in Hhi by lia. rewrite first_S in Hhi.
  assert (Hq : (first_bins h b + cont h b) / T = first_bins h b / T + cont h b / T) by (unfold Qcdiv; ring). rewrite Hq in Hhi.
  set (F := first_bins h b / T) in *. set (c := cont h b / T) in *. assert (Hc0 : 0 < c) by qlra.
  assert (Hcz : c <> 0) by (intros Z; rewrite Z in Hc0; exact (Qclt_not_le _ _ Hc0 (Qcle_refl _))).
  set (t := (cl - F) / c). assert (I := inv_pos _ Hc0). assert (Ht0 : 0 < t) by (unfold t, Qcdiv; qnra).
  assert (Ht1 : t <= 1). { unfold t, Qcdiv. assert (K : c * / c = 1) by (apply Qcmult_inv_r; exact Hcz). qnra. }
  assert (Ex : exact_limit h a cl b = lo_of a b + (hi_of a b - lo_of a b) * t).
  { unfold exact_limit. fold T. fold F. fold c. unfold t, Qcdiv. ring. }
  rewrite Ex. set (x := lo_of a b + (hi_of a b - lo_of a b) * t).
  assert (X1 : lo_of a b < x) by (unfold x; qnra). assert (X2 : x <= hi_of a b) by (unfold x; qnra).
  unfold prob_below. fold T. replace (hNBins h) with (b + (1 + (hNBins h - b - 1)))%nat by lia.
  rewrite seq_app, map_app, qsum_app. rewrite seq_app, map_app, qsum_app. cbn [seq map qsum Nat.add].
  rewrite (qsum_tail _ (hNBins h - b - 1)).
  2: { intros i Hi. rewrite part_le; [ring|]. apply Qcle_trans with (hi_of a b); [exact X2|].
       apply (edges_before a i Hc Hle) with (d := (i - b - 1)%nat); lia. }
  replace (qsum (map (fun i => cont h i / T * part_below (lo_of a i) (hi_of a i) x) (seq 0 b))) with F.
  2: { unfold F, first_bins. unfold Qcdiv. rewrite (Qcmult_comm _ (/ T)), <- qsum_map_mul. apply qsum_map_ext. intros i Hi. apply in_seq in Hi.
       assert (Hi' : hi_of a i <= lo_of a b) by (apply (edges_before a b Hc Hle) with (d := (b - i - 1)%nat); lia).
       rewrite part_ge; [ring| |].
       - apply Qcle_lt_trans with (hi_of a i); [apply Hle; lia|]. apply Qcle_lt_trans with (lo_of a b); assumption.
       - apply Qcle_trans with (lo_of a b); [exact Hi'|apply Qclt_le_weak; exact X1]. }
  unfold x. rewrite part_in by assumption. fold c. unfold t. field. exact Hcz.
Qed.
(** equal neighbours: the answer is two bins too high *)
Lemma shift_pkg h a cl b : h_reach h -> one_axis h a -> 0 < total h -> 0 < cl -> limit_bin h cl b -> (b + 2 < hNBins h)%nat ->
  hi_of a (b + 2) - lo_of a (b + 2) = hi_of a b - lo_of a b -> cont h (b + 2) = cont h b ->
  upperBound h cl = Ok (exact_limit h a cl b + (hi_of a (b + 2) - hi_of a b)).
Proof.
  intros Hr Ha Ht Hc0 Hl Hb Hw He. pose proof Hl as [_ [Hlo Hhi]].
  assert (Hz : total h <> 0) by (intros Z; rewrite Z in Ht; exact (Qclt_not_le _ _ Ht (Qcle_refl _))).
  assert (L := Hlo b (le_n _)). replace (b + 1)%nat with (S b) in Hhi by lia. rewrite first_S in Hhi.
  assert (Hq : (first_bins h b + cont h b) / total h = first_bins h b / total h + cont h b / total h) by (unfold Qcdiv; ring). rewrite Hq in Hhi.
  assert (Hcb : cont h b <> 0). { intros Z. rewrite Z, div_0 in Hhi. qlra. }
  destruct (upper_pkg h a cl b Hr Ha Hz Hc0 Hl) as [U _]. rewrite U by (try exact Hb; rewrite He; exact Hcb). f_equal.
  unfold exact_limit. rewrite He, Hw. replace (b + 1)%nat with (S b) by lia. rewrite first_S. field. split; assumption.
Qed.
