(** C101: whole numbers of events are counted exactly. *)
From Coq Require Import ZArith QArith Qcanon Reals Lia.
From Verif Require Import Base.Res Base.Num Base.RNum Model.Axis Model.Hist Model.Float Spec.AxisSpec Spec.HistSpec Spec.FloatSpec Proofs.AxisP Proofs.HistP.
From Coq Require Import Lra.
Local Open Scope Qc_scope.

Lemma whole_0 : whole 0. Proof. exists 0%Z. split; [lia|reflexivity]. Qed.
Lemma whole_add x y : whole x -> whole y -> whole (x + y).
Proof. intros [a [A ->]] [b [B ->]]. exists (a + b)%Z. split; [lia|]. apply qr_inj. rewrite qr_plus, !qr_z, plus_IZR. reflexivity. Qed.
Lemma whole_nonneg x : whole x -> 0 <= x.
Proof. intros [a [A ->]]. apply qr_le. rewrite qr_0, qr_z. now apply IZR_le. Qed.
Lemma whole_exact N r x : exact_to N r -> whole x -> x <= qz N -> r x = x.
Proof. intros E [a [A ->]] H. apply E. split; [exact A|]. apply qr_le in H. rewrite !qr_z in H. now apply le_IZR. Qed.
Lemma qsum_whole l : (forall x, In x l -> whole x) -> whole (qsum l).
Proof. induction l as [|x l IH]; intros H; cbn; [apply whole_0|]. apply whole_add; [apply H; now left|]. apply IH. intros y Hy. apply H. now right. Qed.
Lemma whole_cont h : (forall i, (i < hNBins h)%nat -> whole (cont h i)) -> h_ok h -> forall i, whole (cont h i).
Proof. intros W [_ [_ [_ [_ L]]]] i. destruct (Nat.lt_ge_cases i (hNBins h)) as [H|H]; [now apply W|]. unfold cont. rewrite nth_overflow by lia. apply whole_0. Qed.
Lemma part_le (f : nat -> Qc) n i : (forall j, 0 <= f j) -> (i < n)%nat -> f i <= qsum (map f (seq 0 n)).
Proof.
  intros P Hi. replace n with (i + (1 + (n - i - 1)))%nat by lia. rewrite !seq_app, !map_app, !qsum_app. cbn [seq map qsum].
  assert (A : 0 <= qsum (map f (seq 0 i))) by (apply qsum_nonneg; intros x X; apply in_map_iff in X as [j [<- _]]; apply P).
  assert (B : 0 <= qsum (map f (seq (0 + i + 1) (n - i - 1)))) by (apply qsum_nonneg; intros x X; apply in_map_iff in X as [j [<- _]]; apply P).
  cbn [Nat.add] in *. set (a := qsum _) in *. set (b := qsum _) in *. apply qr_le. apply qr_le in A, B. rewrite qr_0 in A, B. rewrite !qr_plus, qr_0. lra.
Qed.
Lemma add_total h b w : h_ok h -> (b < hNBins h)%nat -> total (fst (add_at h b w)) = total h + w.
Proof.
  intros Hok Hb. pose proof Hok as [_ [_ [_ [_ L]]]]. unfold add_at, put. destruct (Nat.ltb_spec b (List.length (hCont h))) as [_|C]; [|lia]. cbn [fst]. unfold total, cont. cbn [hNBins hCont].
  rewrite (qsum_map_ext _ (fun i => nth i (hCont h) 0 + (if Nat.eqb i b then w else 0))).
  - rewrite qsum_map_add. f_equal. rewrite (qsum_seq_single (fun _ => w) b) by lia. reflexivity.
  - intros i _. rewrite nth_upd by lia. destruct (Nat.eqb_spec i b) as [->|]; [reflexivity|ring].
Qed.
Lemma fill_whole N r h v w : h_ok h -> exact_to N r -> (forall i, whole (cont h i)) -> whole w -> total h + w <= qz N ->
  fillF r h v w = fill h v w /\ h_ok (fst (fill h v w)) /\ (forall i, whole (cont (fst (fill h v w)) i)) /\ hNBins (fst (fill h v w)) = hNBins h /\ total (fst (fill h v w)) <= total h + w.
Proof.
  intros Hok E W Ww B. destruct (Nat.eq_dec (List.length v) (hNDims h)) as [Hl|Hl].
  - destruct (fill_ok h v w Hok Hl) as [b [Fb [Hb Fe]]]. pose proof Hok as [O1 [O2 [O3 [O4 O5]]]].
    rewrite Fe. split; [|split; [|split; [|split]]].
    + rewrite <- Fe. unfold fillF, fill. rewrite Hl, Nat.eqb_refl. cbn [negb]. rewrite Fb. unfold add_at. f_equal. apply (whole_exact N); [exact E|apply whole_add; [apply (W b)|exact Ww]|].
      pose proof (part_le (cont h) (hNBins h) b (fun j => whole_nonneg _ (W j)) Hb) as P. change (qsum (map (cont h) (seq 0 (hNBins h)))) with (total h) in P.
      eapply Qcle_trans; [|exact B]. apply Qcplus_le_compat; [exact P|apply Qcle_refl].
    + unfold add_at, put. destruct (Nat.ltb_spec b (List.length (hCont h))) as [_|C]; [|lia]. unfold h_ok. cbn [fst hAxes hCont hNBins hNDims]. rewrite upd_length. auto.
    + intros i. unfold add_at, put. destruct (Nat.ltb_spec b (List.length (hCont h))) as [_|C]; [|lia]. cbn [fst]. unfold cont. cbn [hCont]. rewrite nth_upd by lia. destruct (Nat.eqb i b); [apply whole_add; [apply (W b)|exact Ww]|apply (W i)].
    + unfold add_at, put. now destruct (Nat.ltb b (List.length (hCont h))).
    + rewrite add_total by assumption. apply Qcle_refl.
  - rewrite (fill_dim h v w Hl). cbn [fst]. split; [|split; [exact Hok|split; [exact W|split; [reflexivity|]]]].
    + unfold fillF. destruct (Nat.eqb_spec (List.length v) (hNDims h)); [contradiction|reflexivity].
    + apply whole_nonneg in Ww. apply qr_le. apply qr_le in Ww. rewrite qr_0 in Ww. rewrite qr_plus. lra.
Qed.
Lemma fills_whole N r l : exact_to N r -> (forall e, In e l -> whole (snd e)) -> forall h, h_ok h -> (forall i, whole (cont h i)) -> total h + qsum (map snd l) <= qz N ->
  fillsF r h l = fills h l /\ h_ok (fills h l) /\ (forall i, whole (cont (fills h l) i)) /\ total (fills h l) <= qz N.
Proof.
  intros E. induction l as [|[v w] l IH]; intros Wl h Hok W B; cbn [fills fillsF map qsum fst snd] in *.
  - split; [reflexivity|]. split; [exact Hok|]. split; [exact W|]. replace (total h + 0) with (total h) in B by ring. exact B.
  - assert (Ww : whole w) by (apply (Wl (v, w)); now left). assert (Wl' : forall e, In e l -> whole (snd e)) by (intros e He; apply Wl; now right).
    assert (S0 : 0 <= qsum (map snd l)) by (apply whole_nonneg, qsum_whole; intros x X; apply in_map_iff in X as [e [<- He]]; now apply Wl').
    destruct (fill_whole N r h v w Hok E W Ww) as [F1 [F2 [F3 [F4 F5]]]].
    { eapply Qcle_trans; [|exact B]. apply qr_le in S0. rewrite qr_0 in S0. apply qr_le. rewrite !qr_plus. lra. }
    rewrite F1. apply IH; [exact Wl'|exact F2|exact F3|]. eapply Qcle_trans; [|exact B]. rewrite Qcplus_assoc. apply Qcplus_le_compat; [exact F5|apply Qcle_refl].
Qed.
Lemma sum_whole N r (c : list Qc) n : exact_to N r -> (forall i, whole (nth i c 0)) -> (n <= List.length c)%nat -> forall s k, (k + n <= List.length c)%nat -> whole s -> s + qsum (map (fun i => nth i c 0) (seq k n)) <= qz N ->
  foldM (fun s i => (do x <- vidx c i; Ok (r (s + x)))%res) (seq k n) s = foldM (fun s i => (do x <- vidx c i; Ok (s + x))%res) (seq k n) s.
Proof.
  intros E W. induction n as [|n IH]; intros Hn s k Hk Ws B; cbn [seq foldM]; [reflexivity|].
  unfold vidx at 1 3. rewrite (nth_error_nth' c 0) by lia. cbn [bind]. cbn [seq map qsum] in B.
  assert (P : 0 <= qsum (map (fun i => nth i c 0) (seq (S k) n))) by (apply whole_nonneg, qsum_whole; intros x X; apply in_map_iff in X as [j [<- _]]; apply W).
  rewrite (whole_exact N r (s + nth k c 0) E (whole_add _ _ Ws (W k))).
  - apply IH; [lia|lia|apply whole_add; [exact Ws|apply W]|]. rewrite <- Qcplus_assoc. exact B.
  - eapply Qcle_trans; [|exact B]. apply qr_le in P. rewrite qr_0 in P. apply qr_le. rewrite !qr_plus. lra.
Qed.
Lemma integral_whole N r h : h_ok h -> exact_to N r -> (forall i, whole (cont h i)) -> total h <= qz N -> integralF r h = integral h.
Proof.
  intros [_ [_ [_ [_ L]]]] E W B. unfold integralF, integral. apply (sum_whole N); [exact E|exact W|lia|lia|apply whole_0|].
  change (0 + total h <= qz N). replace (0 + total h) with (total h) by ring. exact B.
Qed.
Lemma counts_pkg N r h l : h_reach h -> exact_to N r -> (forall i, (i < hNBins h)%nat -> whole (cont h i)) -> (forall e, In e l -> whole (snd e)) -> total h + qsum (map snd l) <= qz N ->
  fillsF r h l = fills h l /\ integralF r (fillsF r h l) = integral (fills h l) /\ total (fills h l) <= qz N /\ forall i, whole (cont (fills h l) i).
Proof.
  intros R E W Wl B. pose proof (h_reach_ok h R) as Hok. destruct (fills_whole N r l E Wl h Hok (whole_cont h W Hok) B) as [F1 [F2 [F3 F4]]].
  split; [exact F1|]. split; [rewrite F1; now apply (integral_whole N)|]. split; [exact F4|exact F3].
Qed.
