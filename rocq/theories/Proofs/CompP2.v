From Coq Require Import ZArith.
From Verif Require Import Base.Res Base.Num Base.SMap Model.Axis Model.Event Model.Hist Model.ED Model.Rand Model.Gen Model.Comp Spec.AxisSpec Spec.HistSpec Spec.CutSpec Spec.FillSpec Spec.CompSpec
  Proofs.AxisP Proofs.HistP Proofs.HistP2 Proofs.HistP4 Proofs.CutP Proofs.CompP.
From Coq Require Import Lia.
Local Open Scope Qc_scope.
Local Open Scope res_scope.

Fixpoint pcell (bs : list bed) (t : list nat) : list Qc :=
  match bs, t with b :: bs', i :: t' => cont (bdHist b) i / total (bdHist b) :: pcell bs' t' | _, _ => [] end.
Lemma qsum_flat {A B} (f : B -> Qc) (g : A -> list B) l : qsum (map f (flat_map g l)) = qsum (map (fun x => qsum (map f (g x))) l).
Proof. induction l as [|x l IH]; cbn [flat_map map qsum]; [reflexivity|]. now rewrite map_app, qsum_app, IH. Qed.
Lemma pcell_sum bs : (forall b, In b bs -> bed_ok b /\ total (bdHist b) <> 0) -> qsum (map (fun t => product (pcell bs t)) (tuples (map (fun b => hNBins (bdHist b)) bs))) = 1.
Proof.
  induction bs as [|b bs IH]; intros H; cbn [map tuples pcell]; [cbn; ring|]. rewrite qsum_flat.
  rewrite (qsum_map_ext _ (fun i => cont (bdHist b) i / total (bdHist b))).
  - destruct (H b (or_introl eq_refl)). now apply bed_sum_pkg.
  - intros i _. rewrite map_map. cbn [pcell product fold_right]. change (fold_right Qcmult 1) with product. rewrite (qsum_map_mul (cont (bdHist b) i / total (bdHist b)) (fun x => product (pcell bs x))). rewrite IH by (intros; apply H; now right). ring.
Qed.
Lemma product_sum_pkg n bs (ev : list nat -> event) : (forall b, In b bs -> bed_ok b /\ total (bdHist b) <> 0) ->
  (forall t, In t (tuples (map (fun b => hNBins (bdHist b)) bs)) -> Forall2 (fun b i => falls b (ev t) i) bs t) ->
  exists p, (forall t, In t (tuples (map (fun b => hNBins (bdHist b)) bs)) -> dprob (ev t) (DComp n (map DBin bs)) = Ok (p t)) /\
    qsum (map p (tuples (map (fun b => hNBins (bdHist b)) bs))) = 1.
Proof.
  intros H E. exists (fun t => product (pcell bs t)). split; [|now apply pcell_sum]. intros t I. apply E in I. apply (proj1 (comp_prob_pkg (ev t) n (map DBin bs))).
  set (e := ev t) in *. clearbody e. clear E. induction I as [|b i bs t F I IH]; cbn [map pcell]; constructor.
  - destruct (H b (or_introl eq_refl)). now apply bed_prob_pkg.
  - apply IH. intros; apply H; now right.
Qed.

(** lower_bound *)
Lemma lbGo_range l v : forall fuel first len, (first <= lbGo fuel l v first len <= first + len)%nat.
Proof.
  induction fuel as [|fuel IH]; intros first len; cbn [lbGo]; [lia|]. destruct len as [|len']; [lia|].
  pose proof (div2_lt (S len') ltac:(lia)) as Hd. set (half := Nat.div2 (S len')) in *. cbv zeta. destruct (qltb _ v).
  - pose proof (IH (first + half + 1)%nat (S len' - half - 1)%nat). lia.
  - pose proof (IH first half). lia.
Qed.
Lemma lbGo_spec l v : sortedQ l -> forall fuel first len, (len <= fuel)%nat -> (first + len <= List.length l)%nat ->
  (forall i, (i < first)%nat -> nth i l 0 < v) -> (forall i, (first + len <= i < List.length l)%nat -> v <= nth i l 0) ->
  let k := lbGo fuel l v first len in (forall i, (i < k)%nat -> nth i l 0 < v) /\ (forall i, (k <= i < List.length l)%nat -> v <= nth i l 0).
Proof.
  intros Hs. induction fuel as [|fuel IH]; intros first len Hf Hl H1 H2; cbn [lbGo].
  - assert (len = 0)%nat by lia; subst. rewrite Nat.add_0_r in H2. split; assumption.
  - destruct len as [|len']; [rewrite Nat.add_0_r in H2; split; assumption|]. pose proof (div2_lt (S len') ltac:(lia)) as Hd. set (half := Nat.div2 (S len')) in *. cbv zeta.
    destruct (qltb_spec (nth (first + half) l 0) v) as [Hle|Hgt].
    + apply IH; [lia|lia| |].
      * intros i Hi. apply Qcle_lt_trans with (nth (first + half) l 0); [apply Hs; lia|exact Hle].
      * intros i Hi. apply H2. lia.
    + apply IH; [lia|lia|exact H1|]. intros i Hi. apply Qcle_trans with (nth (first + half) l 0); [exact Hgt|apply Hs; lia].
Qed.
Lemma lowerBound_spec l v : sortedQ l -> (lowerBound l v <= List.length l)%nat /\ (forall i, (i < lowerBound l v)%nat -> nth i l 0 < v) /\
  (forall i, (lowerBound l v <= i < List.length l)%nat -> v <= nth i l 0).
Proof.
  intros Hs. split; [pose proof (lbGo_range l v (List.length l) 0 (List.length l)); unfold lowerBound; lia|]. apply lbGo_spec; try assumption; lia.
Qed.
Lemma running_len l : forall s, List.length (running s l) = List.length l.
Proof. induction l as [|x l IH]; intros s; cbn; [reflexivity|]. now rewrite IH. Qed.
Lemma running_nth l : forall s i, (i < List.length l)%nat -> nth i (running s l) 0 = s + qsum (firstn (S i) l).
Proof.
  induction l as [|x l IH]; intros s i Hi; [cbn in Hi; lia|]. cbn [running firstn qsum]. destruct i as [|i]; cbn [nth]; [cbn; ring|].
  rewrite IH by (cbn in Hi; lia). cbn [firstn]. destruct l as [|y l]; [cbn in Hi; lia|]. cbn [firstn qsum]. ring.
Qed.
Lemma mapM_get h : h_reach h -> mapM (getBinContent h) (seq 0 (hNBins h)) = Ok (map (cont h) (seq 0 (hNBins h))).
Proof.
  intros H. assert (G : forall is, (forall i, In i is -> (i < hNBins h)%nat) -> mapM (getBinContent h) is = Ok (map (cont h) is)).
  { unfold mapM. induction is as [|i is IH]; intros HI; cbn [map seqM]; [reflexivity|]. destruct (bin_access_pkg h i 0 H) as [A _]. rewrite (proj1 (A (HI i (or_introl eq_refl)))). cbn [bind].
    rewrite IH by (intros; apply HI; now right). reflexivity. }
  apply G. intros i I. apply in_seq in I. lia.
Qed.
Lemma mapM_div l t : t <> 0 -> mapM (fun x => qdiv x t) l = Ok (map (fun x => x / t) l).
Proof. intros H. apply qeqb_neq in H. unfold mapM. induction l as [|x l IH]; cbn [map seqM]; [reflexivity|]. unfold qdiv at 1. rewrite H. cbn [bind]. rewrite IH. reflexivity. Qed.
Lemma firstn_map_seq (f : nat -> Qc) n k : (k <= n)%nat -> firstn k (map f (seq 0 n)) = map f (seq 0 k).
Proof. intros H. rewrite firstn_map. f_equal. replace n with (k + (n - k))%nat by lia. rewrite seq_app. rewrite firstn_app, seq_length, Nat.sub_diag. cbn [firstn]. rewrite app_nil_r. apply firstn_all2. rewrite seq_length. lia. Qed.
Lemma last_nth (l : list Qc) d : last l d = nth (List.length l - 1) l d.
Proof. induction l as [|x l IH]; [reflexivity|]. destruct l as [|y l]; [reflexivity|]. change (last (x :: y :: l) d) with (last (y :: l) d). rewrite IH. cbn [List.length]. replace (S (S (List.length l)) - 1)%nat with (S (S (List.length l) - 1)) by lia. reflexivity. Qed.

Lemma before_S h b : before h (S b) = before h b + cont h b.
Proof. unfold before. rewrite seq_S, map_app, qsum_app. cbn [map qsum Nat.add]. ring. Qed.
Lemma before_mono h : (forall i, 0 <= cont h i) -> forall a b, (a <= b)%nat -> before h a <= before h b.
Proof.
  intros H a b L. induction L as [|b L IH]; [apply Qcle_refl|]. rewrite before_S. eapply Qcle_trans; [exact IH|]. specialize (H b). set (x := before h b) in *. clearbody x. set (y := cont h b) in *. clearbody y. qlra.
Qed.
Lemma div_lt (a b t : Qc) : 0 < t -> (a / t < b <-> a < b * t).
Proof.
  intros T. assert (NZ : t <> 0) by (intros ->; discriminate). split; intros H.
  - replace a with (a / t * t) by (field; exact NZ). now apply Qcmult_lt_compat_r.
  - apply Qcnot_le_lt. intros C. apply (Qclt_not_le _ _ H). replace a with (a / t * t) by (field; exact NZ). apply Qcmult_le_compat_r; [exact C|]. now apply Qclt_le_weak.
Qed.
Lemma div_ge (a b t : Qc) : 0 < t -> (b <= a / t <-> b * t <= a).
Proof.
  intros T. split; intros H.
  - apply Qcnot_lt_le. intros C. apply (Qclt_not_le (a / t) b); [now apply div_lt|exact H].
  - apply Qcnot_lt_le. intros C. apply (Qclt_not_le a (b * t)); [now apply div_lt|exact H].
Qed.
(** where the bisection ends, for any u *)
Lemma randomBin_any b u : drawable b -> exists k, randomBin b u = Ok k /\ (k <= hNBins (bdHist b))%nat /\
  (forall i, (i < k)%nat -> before (bdHist b) (S i) < u * total (bdHist b)) /\ (forall i, (k <= i < hNBins (bdHist b))%nat -> u * total (bdHist b) <= before (bdHist b) (S i)).
Proof.
  intros [H [NN T]]. pose proof (h_reach_ok _ H) as Hok. set (h := bdHist b) in *. pose proof (nbins_pos h Hok) as NP.
  unfold randomBin. fold h. destruct (Nat.eqb_spec (hNDims h) 0) as [Z|_].
  { exfalso. rewrite (h_ok_ndims h Hok) in Z. destruct Hok as [_ [NE _]]. apply length_zero_iff_nil in Z. contradiction. }
  rewrite (mapM_get h H). cbn [bind]. set (cs := map (cont h) (seq 0 (hNBins h))).
  assert (LC : List.length cs = hNBins h) by (unfold cs; rewrite map_length, seq_length; reflexivity).
  assert (NR : forall i, (i < hNBins h)%nat -> nth i (running 0 cs) 0 = before h (S i)).
  { intros i Hi. rewrite running_nth by lia. unfold cs. rewrite firstn_map_seq by lia. unfold before. ring. }
  assert (EL : last (running 0 cs) 0 = total h).
  { rewrite last_nth, running_len, LC, NR by lia. unfold before, total. replace (S (hNBins h - 1)) with (hNBins h) by lia. reflexivity. }
  rewrite EL. rewrite mapM_div by (intros Z; rewrite Z in T; discriminate). cbn [bind]. set (cdf := map (fun x => x / total h) (running 0 cs)).
  assert (LD : List.length cdf = hNBins h) by (unfold cdf; rewrite map_length, running_len; exact LC).
  assert (ND : forall i, (i < hNBins h)%nat -> nth i cdf 0 = before h (S i) / total h).
  { intros i Hi. unfold cdf. rewrite (nth_indep _ 0 (0 / total h)) by (rewrite map_length, running_len; lia). rewrite (map_nth (fun x => x / total h)). now rewrite NR. }
  assert (NZ : total h <> 0) by (intros Z; rewrite Z in T; discriminate).
  assert (SD : sortedQ cdf).
  { intros i j Hij. rewrite LD in Hij. rewrite !ND by lia. apply div_ge; [exact T|]. replace (before h (S i) / total h * total h) with (before h (S i)) by (field; exact NZ). apply before_mono; [exact NN|lia]. }
  unfold rUniform. replace (1 * u) with u by ring. destruct (lowerBound_spec cdf u SD) as [B1 [B2 B3]]. exists (lowerBound cdf u). split; [reflexivity|]. split; [lia|]. split.
  - intros i Hi. specialize (B2 i Hi). rewrite ND in B2 by lia. now apply div_lt in B2.
  - intros i Hi. rewrite LD in B3. specialize (B3 i Hi). rewrite ND in B3 by lia. now apply div_ge in B3.
Qed.
Lemma before_all h : before h (hNBins h) = total h.
Proof. reflexivity. Qed.
Lemma reach_bin_pkg b u : drawable b -> 0 < u -> u <= 1 -> exists k, randomBin b u = Ok k /\ reaches (bdHist b) u k /\ 0 < cont (bdHist b) k /\ forall j, reaches (bdHist b) u j -> j = k.
Proof.
  intros D U0 U1. destruct (randomBin_any b u D) as [k [E [LK [A B]]]]. pose proof D as [H [NN T]]. set (h := bdHist b) in *.
  assert (UT : u * total h <= total h). { apply Qcle_trans with (1 * total h); [apply Qcmult_le_compat_r; [exact U1|now apply Qclt_le_weak]|]. replace (1 * total h) with (total h) by ring. apply Qcle_refl. }
  assert (PT : 0 < u * total h). { replace 0 with (0 * total h) by ring. now apply Qcmult_lt_compat_r. }
  assert (LT : (k < hNBins h)%nat).
  { destruct (Nat.eq_dec k (hNBins h)) as [Z|]; [|lia]. exfalso. pose proof (nbins_pos h (h_reach_ok _ H)) as NP. specialize (A (hNBins h - 1)%nat ltac:(lia)).
    replace (S (hNBins h - 1)) with (hNBins h) in A by lia. rewrite before_all in A. apply (Qclt_not_le _ _ A). exact UT. }
  assert (R : reaches h u k).
  { split; [exact LT|]. split; [|apply B; lia]. destruct k as [|k']; [exact PT|]. apply A. lia. }
  exists k. split; [exact E|]. split; [exact R|]. split.
  - destruct R as [_ [R1 R2]]. rewrite before_S in R2. set (x := before h k) in *. clearbody x. set (y := cont h k) in *. clearbody y. set (z := u * total h) in *. clearbody z. clear - R1 R2. qlra.
  - intros j [J1 [J2 J3]]. destruct (Nat.lt_trichotomy j k) as [X|[X|X]]; [|exact X|].
    + exfalso. apply (Qclt_not_le _ _ (A j X)). exact J3.
    + exfalso. apply (Qclt_not_le _ _ J2). eapply Qcle_trans; [apply (B k); lia|]. apply before_mono; [exact NN|lia].
Qed.
Lemma zero_bin_pkg b : drawable b -> randomBin b 0 = Ok 0%nat.
Proof.
  intros D. destruct (randomBin_any b 0 D) as [k [E [LK [A B]]]]. destruct D as [H [NN T]]. destruct k as [|k]; [exact E|]. exfalso. specialize (A 0%nat ltac:(lia)).
  rewrite before_S in A. replace (0 * total (bdHist b)) with 0 in A by ring. specialize (NN 0%nat). unfold before in A. cbn [seq map qsum] in A.
  set (x := cont (bdHist b) 0) in *. clearbody x. clear - A NN. apply (Qclt_not_le _ _ A). replace (0 + x) with x by ring. exact NN.
Qed.
