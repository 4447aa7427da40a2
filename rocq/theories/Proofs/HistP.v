(** Lemmas about Model.Hist. *)
From Coq Require Import ZArith.
From Verif Require Import Base.Res Base.Num Base.SMap Model.Axis Model.Hist Spec.AxisSpec Spec.HistSpec Proofs.AxisP.
Local Open Scope Qc_scope.
Local Open Scope res_scope.

Lemma upd_length {A} (l : list A) : forall i a, List.length (upd l i a) = List.length l.
Proof. induction l as [|x l IH]; intros [|i] a; cbn; auto. Qed.
Lemma nth_upd {A} (l : list A) : forall i j a d, (i < List.length l)%nat ->
  nth j (upd l i a) d = if Nat.eqb j i then a else nth j l d.
Proof.
  induction l as [|x l IH]; intros [|i] [|j] a d H; cbn in H |- *; try lia; try reflexivity.
  apply IH. lia.
Qed.
Lemma nth_error_upd {A} (l : list A) : forall i j a, (i < List.length l)%nat ->
  nth_error (upd l i a) j = if Nat.eqb j i then Some a else nth_error l j.
Proof.
  induction l as [|x l IH]; intros [|i] [|j] a H; cbn in H |- *; try lia; try reflexivity.
  apply IH. lia.
Qed.
Lemma upd_oob {A} (l : list A) : forall i a, (List.length l <= i)%nat -> upd l i a = l.
Proof. induction l as [|x l IH]; intros [|i] a H; cbn in H |- *; try lia; try reflexivity. rewrite IH by lia. reflexivity. Qed.

Lemma vidx_oob {A} (l : list A) i : (List.length l <= i)%nat -> vidx l i = UB.
Proof. intros H. unfold vidx. apply nth_error_None in H. rewrite H. reflexivity. Qed.

Lemma foldM_sum (l : list Qc) is : forall s, (forall i, In i is -> (i < List.length l)%nat) ->
  foldM (fun s i => do c <- vidx l i; Ok (s + c)) is s = Ok (s + qsum (map (fun i => nth i l 0) is)).
Proof.
  induction is as [|i is IH]; intros s H; cbn [foldM map qsum].
  - f_equal. ring.
  - rewrite (vidx_nth l i 0) by (apply H; now left). cbn [bind]. rewrite IH by (intros; apply H; now right).
    f_equal. ring.
Qed.

Lemma qsum_nth (l : list Qc) : qsum (map (fun i => nth i l 0) (seq 0 (List.length l))) = qsum l.
Proof.
  f_equal. apply nth_ext with (d := 0) (d' := 0); [now rewrite map_length, seq_length|].
  rewrite map_length, seq_length. intros n Hn. rewrite nth_map_seq by exact Hn. reflexivity.
Qed.

(** invariant of reachable histograms *)
Definition h_ok (h : hist) : Prop :=
  ac_ok (hAxes h) /\ acAxes (hAxes h) <> [] /\ hNBins h = acNBins (hAxes h) /\ hNDims h = acNDims (hAxes h) /\
  List.length (hCont h) = hNBins h.

Lemma h_ok_nbins h : h_ok h -> hNBins h = prod (shape_of h).
Proof. intros [H1 [H2 [-> _]]]. apply ac_nb_prod; assumption. Qed.
Lemma h_ok_ndims h : h_ok h -> hNDims h = List.length (acAxes (hAxes h)).
Proof. intros [H1 [_ [_ [-> _]]]]. apply H1. Qed.
Lemma h_ok_shape_len h : List.length (shape_of h) = List.length (acAxes (hAxes h)).
Proof. apply map_length. Qed.

Lemma vresize_length l n : List.length (vresize l n) = n.
Proof. unfold vresize. rewrite app_length, firstn_length, repeat_length. lia. Qed.

Lemma setAxes_ok h ac : ac_ok ac -> acAxes ac <> [] -> h_ok (setAxes h ac).
Proof. intros H1 H2. repeat split; try apply H1; cbn; try reflexivity; auto. apply vresize_length. Qed.
Lemma mk_hist_ok ac : ac_ok ac -> acAxes ac <> [] -> h_ok (mk_hist ac).
Proof. apply setAxes_ok. Qed.
Lemma mk_hist_cont ac i : cont (mk_hist ac) i = 0.
Proof.
  unfold cont, mk_hist, setAxes, vresize; cbn. rewrite firstn_nil. cbn.
  destruct (Nat.le_gt_cases (acNBins ac - 0) i) as [H|H].
  - apply nth_overflow. rewrite repeat_length. exact H.
  - apply nth_repeat.
Qed.

Definition same_shape (h h' : hist) : Prop :=
  hAxes h' = hAxes h /\ hNBins h' = hNBins h /\ hNDims h' = hNDims h /\ List.length (hCont h') = List.length (hCont h).
Lemma same_shape_refl h : same_shape h h. Proof. repeat split. Qed.
Lemma same_shape_ok h h' : same_shape h h' -> h_ok h -> h_ok h'.
Proof. intros [E1 [E2 [E3 E4]]] [H1 [H2 [H3 [H4 H5]]]]. unfold h_ok. rewrite E1, E2, E3, E4. auto. Qed.
Lemma same_shape_trans a b c : same_shape a b -> same_shape b c -> same_shape a c.
Proof. intros [E1 [E2 [E3 E4]]] [F1 [F2 [F3 F4]]]. unfold same_shape. rewrite F1, F2, F3, F4. auto. Qed.

(** the loop of map_bins *)
Lemma foldM_bins_len (f : nat -> Qc -> res Qc) is : forall c c',
  foldM (fun c i => do x <- vidx c i; do y <- f i x; Ok (upd c i y)) is c = Ok c' -> List.length c' = List.length c.
Proof.
  induction is as [|i is IH]; cbn [foldM]; intros c c' H; [now inversion H|].
  destruct (vidx c i) as [x| | | |]; cbn [bind] in H; try discriminate.
  destruct (f i x) as [y| | | |]; cbn [bind] in H; try discriminate.
  apply IH in H. now rewrite upd_length in H.
Qed.
Lemma map_bins_shape f h : same_shape h (fst (map_bins f h)).
Proof.
  unfold map_bins.
  destruct (foldM _ _ _) as [c| | | |] eqn:E; try apply same_shape_refl.
  apply foldM_bins_len in E. repeat split; cbn; auto.
Qed.

Lemma foldM_bins_ok (f : nat -> Qc -> res Qc) (g : nat -> Qc -> Qc) m : forall s c,
  (forall i, (s <= i < s + m)%nat -> f i (nth i c 0) = Ok (g i (nth i c 0))) -> (s + m <= List.length c)%nat ->
  exists c', foldM (fun c i => do x <- vidx c i; do y <- f i x; Ok (upd c i y)) (seq s m) c = Ok c' /\
    List.length c' = List.length c /\
    forall i, nth i c' 0 = if Nat.leb s i && Nat.ltb i (s + m) then g i (nth i c 0) else nth i c 0.
Proof.
  induction m as [|m IH]; intros s c Hf Hl; cbn [seq foldM].
  - exists c. repeat split. intros i. destruct (Nat.leb_spec s i), (Nat.ltb_spec i (s + 0)); cbn; try reflexivity; lia.
  - rewrite (vidx_nth c s 0) by lia. cbn [bind]. rewrite Hf by lia. cbn [bind].
    destruct (IH (S s) (upd c s (g s (nth s c 0)))) as [c' [E [L N]]].
    + intros i Hi. rewrite !nth_upd by lia. destruct (Nat.eqb_spec i s); [lia|]. apply Hf. lia.
    + rewrite upd_length. lia.
    + exists c'. split; [exact E|]. split; [now rewrite L, upd_length|]. intros i. rewrite N, !nth_upd by lia.
      destruct (Nat.leb_spec (S s) i), (Nat.ltb_spec i (S s + m)), (Nat.leb_spec s i), (Nat.ltb_spec i (s + S m)),
        (Nat.eqb_spec i s); cbn; subst; try lia; try reflexivity.
Qed.

Lemma map_bins_ok f g h : h_ok h ->
  (forall i, (i < hNBins h)%nat -> f i (cont h i) = Ok (g i (cont h i))) ->
  exists h', map_bins f h = (h', Ok tt) /\ same_shape h h' /\
    forall i, cont h' i = if Nat.ltb i (hNBins h) then g i (cont h i) else 0.
Proof.
  intros Hok Hf. pose proof Hok as [_ [_ [_ [_ Hl]]]].
  destruct (foldM_bins_ok f g (hNBins h) 0 (hCont h)) as [c' [E [L N]]].
  - intros i Hi. apply Hf. lia.
  - lia.
  - unfold map_bins. rewrite E. eexists. split; [reflexivity|]. split; [repeat split; assumption|].
    intros i. unfold cont; cbn [hCont]. rewrite N. cbn [Nat.leb andb Nat.add].
    destruct (Nat.ltb_spec i (hNBins h)); [reflexivity|]. apply nth_overflow. lia.
Qed.

Lemma integral_total h : h_ok h -> integral h = Ok (total h).
Proof.
  intros [_ [_ [_ [_ Hl]]]]. unfold integral. rewrite foldM_sum.
  - f_equal. unfold total, cont. ring.
  - intros i Hi. apply in_seq in Hi. lia.
Qed.

Lemma put_shape h b v : same_shape h (fst (put h b v)).
Proof. unfold put. destruct (Nat.ltb b _); [|apply same_shape_refl]. repeat split; cbn. apply upd_length. Qed.
Lemma add_at_shape h b v : same_shape h (fst (add_at h b v)).
Proof. apply put_shape. Qed.
Lemma fill_shape h v w : same_shape h (fst (fill h v w)).
Proof.
  unfold fill. destruct (negb _); [apply same_shape_refl|].
  destruct (h_findBin h v); try apply same_shape_refl. apply add_at_shape.
Qed.
Lemma fill_map_fst h m w : fst (fill_map h m w) = h \/ exists v, fst (fill_map h m w) = fst (fill h v w).
Proof.
  unfold fill_map. destruct (getValues m _) as [v|[]| | |]; auto.
  right. exists v. destruct (fill h v w) as [h' [|[]| | |]]; reflexivity.
Qed.
Lemma pointwise_shape f h o : same_shape h (fst (pointwise f h o)).
Proof. unfold pointwise. destruct (negb _); [apply same_shape_refl|apply map_bins_shape]. Qed.

Lemma h_reach_ok h : h_reach h -> h_ok h.
Proof.
  induction 1 as [ac R N|h ac _ IH R N|h v w _ IH|h m w _ IH|h _ IH|h s _ IH|h _ IH|h b w _ IH|h b w _ IH|h d _ IH
                 |h o w _ IH _ _|h o _ IH _ _|h o _ IH _ _|h p _ IH].
  - apply mk_hist_ok; [apply ac_reach_ok|]; assumption.
  - apply setAxes_ok; [apply ac_reach_ok|]; assumption.
  - eapply same_shape_ok; [apply fill_shape|exact IH].
  - destruct (fill_map_fst h m w) as [->|[v ->]]; [exact IH|]. eapply same_shape_ok; [apply fill_shape|exact IH].
  - unfold normalise. destruct (integral h); try exact IH. eapply same_shape_ok; [apply map_bins_shape|exact IH].
  - eapply same_shape_ok; [apply map_bins_shape|exact IH].
  - eapply same_shape_ok; [apply map_bins_shape|exact IH].
  - unfold addBinContent. destruct (Nat.ltb _ _); [exact IH|]. eapply same_shape_ok; [apply add_at_shape|exact IH].
  - unfold setBinContent. destruct (Nat.ltb _ _); [exact IH|]. eapply same_shape_ok; [apply put_shape|exact IH].
  - unfold setBinContents. destruct (Nat.eqb_spec (List.length d) (hNBins h)) as [E|E]; cbn [negb fst]; [|exact IH].
    eapply same_shape_ok; [|exact IH]. destruct IH as [_ [_ [_ [_ Hl]]]]. repeat split; cbn; try lia.
  - eapply same_shape_ok; [apply pointwise_shape|exact IH].
  - eapply same_shape_ok; [apply pointwise_shape|exact IH].
  - eapply same_shape_ok; [apply pointwise_shape|exact IH].
  - eapply same_shape_ok; [|exact IH]. repeat split; cbn. now rewrite map_length.
Qed.

(** adding to one bin *)
Lemma put_ok h b v : h_ok h -> (b < hNBins h)%nat ->
  exists h', put h b v = (h', Ok tt) /\ same_shape h h' /\ forall i, cont h' i = if Nat.eqb i b then v else cont h i.
Proof.
  intros [_ [_ [_ [_ Hl]]]] Hb. unfold put. rewrite Hl. destruct (Nat.ltb_spec b (hNBins h)); [|lia].
  eexists; split; [reflexivity|]. split.
  - repeat split; cbn. apply upd_length.
  - intros i. unfold cont; cbn. apply nth_upd. lia.
Qed.
Lemma add_at_ok h b w : h_ok h -> (b < hNBins h)%nat ->
  exists h', add_at h b w = (h', Ok tt) /\ same_shape h h' /\
    forall i, cont h' i = cont h i + (if Nat.eqb i b then w else 0).
Proof.
  intros Hok Hb. destruct (put_ok h b (nth b (hCont h) 0 + w) Hok Hb) as [h' [E [S N]]].
  exists h'. split; [exact E|]. split; [exact S|]. intros i. rewrite N.
  destruct (Nat.eqb_spec i b) as [->|]; [reflexivity|]. unfold cont. ring.
Qed.
Lemma total_add h h' b w : hNBins h' = hNBins h -> (b < hNBins h)%nat ->
  (forall i, cont h' i = cont h i + (if Nat.eqb i b then w else 0)) -> total h' = total h + w.
Proof.
  intros E Hb N. unfold total. rewrite E.
  rewrite (qsum_map_ext (cont h') (fun i => cont h i + (if Nat.eqb i b then w else 0))) by (intros; apply N).
  rewrite qsum_map_add, (qsum_seq_single (fun _ => w)) by lia. reflexivity.
Qed.

(** scatter loop: add value v k to bin g k, for each k *)
Lemma scatter_ok {A} (step : hist -> A -> res hist) (g : A -> nat) (v : A -> Qc) ks : forall h, h_ok h ->
  (forall k h1, In k ks -> h_ok h1 -> same_shape h h1 ->
     (g k < hNBins h)%nat /\ step h1 k = ret (add_at h1 (g k) (v k))) ->
  exists h', foldM step ks h = Ok h' /\ same_shape h h' /\
    (forall i, cont h' i = cont h i + qsum (map (fun k => if Nat.eqb i (g k) then v k else 0) ks)) /\
    total h' = total h + qsum (map v ks).
Proof.
  induction ks as [|k ks IH]; intros h Hok Hs; cbn [foldM map qsum].
  - exists h. split; [reflexivity|]. split; [apply same_shape_refl|]. split; intros; ring.
  - destruct (Hs k h) as [Hg E]; [now left|exact Hok|apply same_shape_refl|]. rewrite E.
    destruct (add_at_ok h (g k) (v k) Hok Hg) as [h1 [E1 [S1 N1]]]. rewrite E1. cbn [ret bind].
    destruct (IH h1) as [h' [E' [S' [N' T']]]].
    + eapply same_shape_ok; eassumption.
    + intros k' h2 Hk' H2 S2. pose proof S1 as [_ [-> _]]. apply Hs; [now right|exact H2|].
      eapply same_shape_trans; eassumption.
    + exists h'. split; [exact E'|]. split; [eapply same_shape_trans; eassumption|]. split.
      * intros i. rewrite N', N1. ring.
      * rewrite T', (total_add h h1 (g k) (v k)); [ring|apply S1|exact Hg|exact N1].
Qed.

(** Fill *)
Lemma fill_ok h vals w : h_ok h -> List.length vals = hNDims h ->
  exists b, h_findBin h vals = Ok b /\ (b < hNBins h)%nat /\ fill h vals w = add_at h b w.
Proof.
  intros Hok Hl. pose proof Hok as [H1 [H2 [H3 [H4 H5]]]].
  destruct (ac_findBin_spec (hAxes h) vals H1 H2) as [k [E [Hk _]]].
  { rewrite Hl. now apply h_ok_ndims. }
  exists k. split; [exact E|]. split; [lia|]. unfold fill. rewrite Hl, Nat.eqb_refl. cbn [negb].
  unfold h_findBin. rewrite E. reflexivity.
Qed.
Lemma fill_dim h vals w : List.length vals <> hNDims h -> fill h vals w = (h, Throw DimensionError).
Proof. intros H. unfold fill. destruct (Nat.eqb_spec (List.length vals) (hNDims h)); [contradiction|reflexivity]. Qed.

Definition hits (h : hist) (i : nat) (l : list (list Qc * Qc)) : list Qc :=
  map snd (filter (fun e => match h_findBin h (fst e) with Ok b => Nat.eqb b i | _ => false end) l).

Lemma fills_ok l : forall h, h_ok h -> (forall e, In e l -> List.length (fst e) = hNDims h) ->
  same_shape h (fills h l) /\
  (forall i, cont (fills h l) i = cont h i + qsum (hits h i l)) /\
  total (fills h l) = total h + qsum (map snd l).
Proof.
  induction l as [|[v w] l IH]; intros h Hok Hl; cbn [fills].
  - split; [apply same_shape_refl|]. split; intros; cbn; ring.
  - destruct (fill_ok h v w Hok) as [b [Eb [Hb Ef]]]; [apply (Hl (v, w)); now left|].
    destruct (add_at_ok h b w Hok Hb) as [h1 [E1 [S1 N1]]]. rewrite Ef, E1. cbn [fst].
    pose proof S1 as [SA [SB [SC SD]]].
    destruct (IH h1) as [S' [N' T']].
    + eapply same_shape_ok; eassumption.
    + intros e He. rewrite SC. apply Hl. now right.
    + split; [eapply same_shape_trans; eassumption|]. split.
      * intros i. rewrite N', N1. unfold hits, h_findBin. cbn [filter fst]. rewrite SA.
        unfold h_findBin in Eb. rewrite Eb. rewrite (Nat.eqb_sym b i).
        destruct (Nat.eqb i b); cbn [map qsum snd]; ring.
      * rewrite T', (total_add h h1 b w SB Hb N1). cbn [map qsum snd]. ring.
Qed.
