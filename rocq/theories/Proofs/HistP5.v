(** Means and Variances. *)
From Coq Require Import ZArith.
From Verif Require Import Base.Res Base.Num Base.SMap Model.Axis Model.Hist Spec.AxisSpec Spec.HistSpec Proofs.AxisP Proofs.HistP Proofs.HistP2 Proofs.HistP3 Proofs.HistP4.
Local Open Scope Qc_scope.
Local Open Scope res_scope.

(** centre of bin i along axis j *)
Definition centre (h : hist) (i j : nat) : Qc :=
  match binDim binCentre (hAxes h) i j with Ok x => x | _ => 0 end.

Lemma binDim_centre h i j : h_ok h -> (i < hNBins h)%nat -> (j < hNDims h)%nat ->
  binDim binCentre (hAxes h) i j = Ok (centre h i j).
Proof.
  intros Hok Hi Hj. unfold centre. pose proof Hok as [Hac [Hax [Hnb [Hndim Hlen]]]].
  assert (E : exists x, binDim binCentre (hAxes h) i j = Ok x).
  { unfold binDim. destruct (Nat.leb_spec (acNDims (hAxes h)) j); [lia|]. destruct (Nat.leb_spec (acNBins (hAxes h)) i); [lia|].
    assert (Hj' : (j < List.length (acAxes (hAxes h)))%nat) by (rewrite <- (h_ok_ndims h Hok); exact Hj).
    rewrite (vat_nth _ _ axis0 Hj'). cbn [bind].
    destruct (digits_spec (shape_of h) i) as [Hd Hr]; [rewrite <- (h_ok_nbins h Hok); exact Hi|].
    assert (Hu : unflatten (hAxes h) i j = Ok (nth j (digits (shape_of h) i) 0%nat)).
    { rewrite <- Hr at 1. exact (unflatten_digit (hAxes h) (digits (shape_of h) i) j Hac Hd Hj'). }
    rewrite Hu. cbn [bind].
    assert (Hb : built (nth j (acAxes (hAxes h)) axis0)).
    { destruct Hac as [_ [_ [_ [_ [_ F]]]]]. rewrite Forall_forall in F. apply F, nth_In, Hj'. }
    assert (G : forall s t p, Forall2 (fun i n => (i < n)%nat) t s -> (p < List.length t)%nat -> (nth p t 0 < nth p s 0)%nat).
    { clear. intros s t p H. revert p. induction H; intros [|p] Hp; cbn in *; try lia. apply IHForall2. lia. }
    assert (Hlt := G _ _ j Hd ltac:(rewrite (in_shape_length _ _ Hd), h_ok_shape_len; exact Hj')).
    unfold shape_of in Hlt at 2. rewrite (nth_map2 _ _ _ axis0) in Hlt by exact Hj'.
    eexists. unfold binCentre. apply (vat_nth _ _ 0). destruct (built_facts _ Hb) as [_ [_ [_ [-> _]]]]. exact Hlt. }
  destruct E as [x E]. rewrite E. reflexivity.
Qed.

Lemma accum_loop (val : nat -> nat -> res Qc) (v : nat -> nat -> Qc) L : forall ms : list Qc,
  (forall i j, In (i, j) L -> (j < List.length ms)%nat /\ val i j = Ok (v i j)) ->
  exists ms', foldM (fun ms (ij : nat * nat) => do x <- val (fst ij) (snd ij); do m <- vidx ms (snd ij); Ok (upd ms (snd ij) (m + x))) L ms = Ok ms' /\
    List.length ms' = List.length ms /\
    forall j, nth j ms' 0 = nth j ms 0 + qsum (map (fun ij => if Nat.eqb (snd ij) j then v (fst ij) j else 0) L).
Proof.
  induction L as [|[i k] L IH]; intros ms H; cbn [foldM map qsum fst snd].
  - exists ms. repeat split. intros; ring.
  - destruct (H i k) as [Hk Hv]; [now left|]. rewrite Hv. cbn [bind]. rewrite (vidx_nth _ _ 0 Hk). cbn [bind].
    destruct (IH (upd ms k (nth k ms 0 + v i k))) as [ms' [E [L' N]]].
    + intros i' j' Hin. rewrite upd_length. apply H. now right.
    + exists ms'. split; [exact E|]. split; [now rewrite L', upd_length|]. intros j. rewrite N, nth_upd by exact Hk.
      rewrite (Nat.eqb_sym k j). destruct (Nat.eqb_spec j k) as [->|]; ring.
Qed.
Lemma qsum_pairs (v : nat -> nat -> Qc) n d j : (j < d)%nat ->
  qsum (map (fun ij : nat * nat => if Nat.eqb (snd ij) j then v (fst ij) j else 0) (flat_map (fun i => map (pair i) (seq 0 d)) (seq 0 n)))
  = qsum (map (fun i => v i j) (seq 0 n)).
Proof.
  intros Hj. generalize 0%nat at 2 3 as s. revert n. induction n as [|n IH]; intros s; cbn [seq flat_map map qsum]; [reflexivity|].
  rewrite map_app, qsum_app, map_map. cbn [fst snd]. rewrite IH.
  rewrite (qsum_seq_single (fun _ => v s j) j) by lia. reflexivity.
Qed.

Lemma foldM_ext {A S} (f g : S -> A -> res S) l : forall s, (forall x s, In x l -> f s x = g s x) -> foldM f l s = foldM g l s.
Proof.
  induction l as [|x l IH]; intros s H; cbn [foldM]; [reflexivity|]. rewrite (H x s) by (now left).
  destruct (g s x); cbn [bind]; try reflexivity. apply IH. intros y s' Hy. apply H. now right.
Qed.
Lemma in_pairs i j n d : In (i, j) (flat_map (fun i => map (pair i) (seq 0 d)) (seq 0 n)) -> (i < n)%nat /\ (j < d)%nat.
Proof.
  intros H. apply in_flat_map in H as [x [Hx H]]. apply in_map_iff in H as [y [E Hy]]. injection E as -> ->.
  apply in_seq in Hx, Hy. lia.
Qed.

Definition wsum (h : hist) (p : Qc -> Qc) (j : nat) : Qc :=
  qsum (map (fun i => cont h i * p (centre h i j)) (seq 0 (hNBins h))).

Lemma means_ok h : h_ok h -> exists ms, means h = Ok ms /\ List.length ms = hNDims h /\
  forall j, (j < hNDims h)%nat -> nth j ms 0 = wsum h (fun x => x) j.
Proof.
  intros Hok. pose proof Hok as [_ [_ [_ [_ Hlen]]]].
  destruct (accum_loop (fun i j => do c <- vat (hCont h) i; do x <- binDim binCentre (hAxes h) i j; Ok (c * x))
     (fun i j => cont h i * centre h i j) (flat_map (fun i => map (pair i) (seq 0 (hNDims h))) (seq 0 (hNBins h)))
     (repeat 0 (hNDims h))) as [ms [E [L N]]].
  { intros i j Hin. apply in_pairs in Hin as [Hi Hj]. rewrite repeat_length. split; [exact Hj|].
    rewrite (vat_nth _ _ 0) by lia. cbn [bind]. rewrite binDim_centre by assumption. reflexivity. }
  exists ms. split; [|split; [now rewrite L, repeat_length|]].
  - rewrite <- E. unfold means. apply foldM_ext. intros [i j] s _. cbn [fst snd].
    destruct (vat (hCont h) i); cbn [bind]; try reflexivity. destruct (binDim _ _ _ _); cbn [bind]; reflexivity.
  - intros j Hj. rewrite N, nth_repeat, (qsum_pairs (fun i j => cont h i * centre h i j) _ _ _ Hj). unfold wsum. ring.
Qed.
Lemma variances_ok h : h_ok h -> exists vs, variances h = Ok vs /\ List.length vs = hNDims h /\
  forall j, (j < hNDims h)%nat -> nth j vs 0 = wsum h (fun x => x * x) j - wsum h (fun x => x) j * wsum h (fun x => x) j.
Proof.
  intros Hok. pose proof Hok as [_ [_ [_ [_ Hlen]]]].
  destruct (accum_loop (fun i j => do x <- binDim binCentre (hAxes h) i j; do c <- vat (hCont h) i; Ok (x * x * c))
     (fun i j => cont h i * (centre h i j * centre h i j)) (flat_map (fun i => map (pair i) (seq 0 (hNDims h))) (seq 0 (hNBins h)))
     (repeat 0 (hNDims h))) as [v [E [L N]]].
  { intros i j Hin. apply in_pairs in Hin as [Hi Hj]. rewrite repeat_length. split; [exact Hj|].
    rewrite binDim_centre by assumption. cbn [bind]. rewrite (vat_nth _ _ 0) by lia. cbn [bind]. f_equal. unfold cont. ring. }
  destruct (means_ok h Hok) as [ms [Em [Lm Nm]]].
  rewrite repeat_length in L.
  exists (map (fun i => nth i v 0 - nth i ms 0 * nth i ms 0) (seq 0 (hNDims h))).
  split; [|split; [now rewrite map_length, seq_length|]].
  - unfold variances.
    assert (E' : foldM (fun ms ij =>
           do x <- binDim binCentre (hAxes h) (fst ij) (snd ij);
           do c <- vat (hCont h) (fst ij);
           do m <- vidx ms (snd ij);
           Ok (upd ms (snd ij) (m + x * x * c)))
        (flat_map (fun i => map (pair i) (seq 0 (hNDims h))) (seq 0 (hNBins h)))
        (repeat 0 (hNDims h)) = Ok v).
    { rewrite <- E. apply foldM_ext. intros [i j] s _. cbn [fst snd].
      destruct (binDim _ _ _ _); cbn [bind]; try reflexivity. destruct (vat (hCont h) i); cbn [bind]; reflexivity. }
    rewrite E'. cbn [bind]. rewrite Em. cbn [bind]. apply seqM_ok. intros i Hi. apply in_seq in Hi.
    rewrite (vidx_nth _ _ 0) by lia. cbn [bind]. rewrite (vat_nth _ _ 0) by lia. reflexivity.
  - intros j Hj. rewrite nth_map_seq by exact Hj. rewrite Nm by exact Hj. f_equal.
    rewrite N, nth_repeat, (qsum_pairs (fun i j => cont h i * (centre h i j * centre h i j)) _ _ _ Hj). unfold wsum. ring.
Qed.
Lemma variance_nonneg (c x : nat -> Qc) l : (forall i, 0 <= c i) -> qsum (map c l) = 1 ->
  0 <= qsum (map (fun i => c i * (x i * x i)) l) - qsum (map (fun i => c i * x i) l) * qsum (map (fun i => c i * x i) l).
Proof.
  intros Hc H1. set (m := qsum (map (fun i => c i * x i) l)).
  assert (E : qsum (map (fun i => c i * (x i * x i)) l) - m * m = qsum (map (fun i => c i * ((x i - m) * (x i - m))) l)).
  { rewrite (qsum_map_ext (fun i => c i * ((x i - m) * (x i - m)))
      (fun i => (c i * (x i * x i) + (- (m + m)) * (c i * x i)) + (m * m) * c i)) by (intros; ring).
    rewrite !qsum_map_add, !qsum_map_mul, H1. fold m. ring. }
  rewrite E. apply qsum_nonneg. intros y Hy. apply in_map_iff in Hy as [i [<- _]].
  assert (0 <= (x i - m) * (x i - m)) by qnra. specialize (Hc i). qnra.
Qed.
Lemma moments_pkg h : h_reach h -> integral h = Ok 1 ->
  exists ms vs, means h = Ok ms /\ variances h = Ok vs /\ List.length ms = hNDims h /\ List.length vs = hNDims h /\
    forall j, (j < hNDims h)%nat -> exists cs, mapM (fun i => binDim binCentre (hAxes h) i j) (seq 0 (hNBins h)) = Ok cs /\
      nth j ms 0 = qsum (map (fun i => cont h i * nth i cs 0) (seq 0 (hNBins h))) /\
      nth j vs 0 = qsum (map (fun i => cont h i * ((nth i cs 0 - nth j ms 0) * (nth i cs 0 - nth j ms 0))) (seq 0 (hNBins h))) /\
      ((forall i, 0 <= cont h i) -> 0 <= nth j vs 0).
Proof.
  intros R I. pose proof (h_reach_ok h R) as Hok. rewrite (integral_total h Hok) in I. injection I as I.
  destruct (means_ok h Hok) as [ms [Em [Lm Nm]]]. destruct (variances_ok h Hok) as [vs [Ev [Lv Nv]]].
  exists ms, vs. repeat (split; [assumption|]). intros j Hj.
  exists (map (fun i => centre h i j) (seq 0 (hNBins h))). split.
  { apply seqM_ok. intros i Hi. apply in_seq in Hi. apply binDim_centre; [exact Hok|lia|exact Hj]. }
  assert (Ec : forall i, In i (seq 0 (hNBins h)) -> nth i (map (fun i => centre h i j) (seq 0 (hNBins h))) 0 = centre h i j).
  { intros i Hi. apply in_seq in Hi. rewrite (nth_map_seq (fun i => centre h i j)) by lia. reflexivity. }
  split; [rewrite Nm by exact Hj; apply qsum_map_ext; intros i Hi; rewrite Ec by exact Hi; reflexivity|]. split.
  - rewrite Nv by exact Hj. rewrite (Nm j Hj).
    rewrite (qsum_map_ext _ (fun i => cont h i * ((centre h i j - wsum h (fun x => x) j) * (centre h i j - wsum h (fun x => x) j)))).
    2:{ intros i Hi. rewrite Ec by exact Hi. reflexivity. }
    set (m := wsum h (fun x => x) j).
    rewrite (qsum_map_ext (fun i => cont h i * ((centre h i j - m) * (centre h i j - m)))
      (fun i => (cont h i * (centre h i j * centre h i j) + (- (m + m)) * (cont h i * centre h i j)) + (m * m) * cont h i)) by (intros; ring).
    rewrite !qsum_map_add, !qsum_map_mul. fold (total h). rewrite I.
    change (qsum (map (fun x => cont h x * centre h x j) (seq 0 (hNBins h)))) with m.
    change (qsum (map (fun x => cont h x * (centre h x j * centre h x j)) (seq 0 (hNBins h)))) with (wsum h (fun x => x * x) j). ring.
  - intros Hc. rewrite Nv by exact Hj. apply variance_nonneg; [exact Hc|]. exact I.
Qed.
Lemma mk_hist_pkg ac : ac_reach ac -> acAxes ac <> [] ->
  hAxes (mk_hist ac) = ac /\ hNBins (mk_hist ac) = acNBins ac /\ (forall i, cont (mk_hist ac) i = 0) /\ integral (mk_hist ac) = Ok 0.
Proof.
  intros R N. repeat split; try reflexivity; [apply mk_hist_cont|].
  rewrite integral_total by (apply mk_hist_ok; [now apply ac_reach_ok|exact N]). f_equal.
  unfold total. apply qsum_map_0. intros; apply mk_hist_cont.
Qed.
