(** Proofs for C81: conversion to ROOT histograms. *)
From Coq Require Import ZArith.
From Verif Require Import Base.Res Base.Num Base.SMap Model.Axis Model.Hist Model.Comp Model.DistTools Spec.AxisSpec Spec.HistSpec Spec.ConstraintSpec Spec.DistToolsSpec.
From Verif Require Import Proofs.AxisP Proofs.HistP Proofs.HistP2 Proofs.HistP4 Proofs.CompP2 Proofs.InterpP Proofs.HistToolsP3 Proofs.IOP4 Proofs.DistToolsP.
Local Open Scope Qc_scope.
Local Open Scope res_scope.

Definition rising (e : list Qc) : Prop := forall i j, (i < j < List.length e)%nat -> nth i e 0 < nth j e 0.
Lemma last_nth (l : list Qc) : last l 0 = nth (List.length l - 1) l 0.
Proof. induction l as [|x l IH] using rev_ind; [reflexivity|]. rewrite last_last, app_length. cbn [List.length]. rewrite app_nth2 by lia. replace (_ - _ - _)%nat with 0%nat by lia. reflexivity. Qed.
Lemma thFind_in e x i : rising e -> (S i < List.length e)%nat -> nth i e 0 <= x -> x < nth (S i) e 0 -> thFind e x = S i.
Proof.
  intros Hr Hi H1 H2.
  assert (Hs : sortedQ e). { intros a b Hab. destruct (Nat.eq_dec a b) as [->|]; [apply Qcle_refl|]. apply Qclt_le_weak, Hr. lia. }
  unfold thFind. destruct (qltb_spec x (hd 0 e)) as [C|C].
  { exfalso. assert (E : hd 0 e = nth 0 e 0) by (destruct e; reflexivity). rewrite E in C. pose proof (Hs 0%nat i ltac:(lia)). qlra. }
  destruct (qltb_spec x (last e 0)) as [D|D].
  2:{ exfalso. rewrite last_nth in D. pose proof (Hs (S i) (List.length e - 1)%nat ltac:(lia)). qlra. }
  cbn [negb]. unfold binarySearch. destruct (lowerBound_spec e x Hs) as [L1 [L2 L3]]. set (p := lowerBound e x) in *.
  destruct (qeqb (nth i e 0) x) eqn:E.
  - apply qeqb_eq in E. assert (P : p = i).
    { destruct (Nat.lt_trichotomy p i) as [Q|[Q|Q]]; [exfalso|exact Q|exfalso].
      - pose proof (L3 p ltac:(lia)). pose proof (Hr p i ltac:(lia)). qlra.
      - pose proof (L2 i Q). qlra. }
    rewrite P, E, qeqb_refl. destruct (Nat.ltb_spec i (List.length e)); [|lia]. cbn [andb]. lia.
  - apply qeqb_neq in E. assert (N : nth i e 0 < x). { destruct (qltb_spec (nth i e 0) x) as [K|K]; [exact K|]. exfalso. apply E. apply Qcle_antisym; assumption. }
    assert (P : p = S i).
    { destruct (Nat.lt_trichotomy p (S i)) as [Q|[Q|Q]]; [exfalso|exact Q|exfalso].
      - pose proof (L3 i ltac:(lia)). qlra.
      - pose proof (L2 (S i) Q). qlra. }
    rewrite P. destruct (qeqb (nth (S i) e 0) x) eqn:F; [apply qeqb_eq in F; rewrite F in H2; exfalso; qlra|].
    rewrite andb_false_r. lia.
Qed.
(** the edge list handed to ROOT *)
Definition redges (a : axis) : list Qc := aLow a ++ [aMax a].
Lemma redges_len a : built a -> List.length (redges a) = S (aNBins a).
Proof. intros H. unfold redges. rewrite app_length. destruct (built_facts a H) as [_ [-> _]]. cbn. lia. Qed.
Lemma redges_nth a i : built a -> (i < aNBins a)%nat -> nth i (redges a) 0 = lo_of a i.
Proof. intros H Hi. unfold redges, lo_of. rewrite app_nth1; [reflexivity|]. destruct (built_facts a H) as [_ [-> _]]. exact Hi. Qed.
Lemma redges_last a : built a -> nth (aNBins a) (redges a) 0 = aMax a.
Proof. intros H. unfold redges. destruct (built_facts a H) as [_ [L _]]. rewrite app_nth2; rewrite L; [|lia]. rewrite Nat.sub_diag. reflexivity. Qed.
Lemma redges_hi a i : built a -> contiguous a -> (i < aNBins a)%nat -> nth (S i) (redges a) 0 = hi_of a i.
Proof.
  intros H Hc Hi. destruct (Nat.eq_dec (S i) (aNBins a)) as [E|E].
  - rewrite E, redges_last by exact H. destruct (built_facts a H) as [_ [_ [_ [_ [_ [_ [_ [_ ->]]]]]]]]. f_equal. lia.
  - rewrite redges_nth by (try exact H; lia). symmetry. apply Hc. lia.
Qed.
Lemma redges_rising a : built a -> regular a -> rising (redges a).
Proof.
  intros H [Hc Hw]. assert (St : forall i, (i < aNBins a)%nat -> nth i (redges a) 0 < nth (S i) (redges a) 0).
  { intros i Hi. rewrite redges_nth, redges_hi by assumption. apply Hw, Hi. }
  intros i j [Hij Hj]. rewrite redges_len in Hj by exact H. induction j as [|j IH]; [lia|].
  destruct (Nat.eq_dec i j) as [->|N]; [apply St; lia|]. eapply Qclt_trans; [apply IH; lia|apply St; lia].
Qed.
Lemma centre_mid a i : built a -> regular a -> (i < aNBins a)%nat -> lo_of a i < centre_of a i /\ centre_of a i < hi_of a i.
Proof.
  intros H [_ Hw] Hi. specialize (Hw i Hi). unfold centre_of. set (x := lo_of a i) in *. set (y := hi_of a i) in *. clearbody x y.
  unfold Qcdiv. change (/ qz 2) with qhalf. split; qnra.
Qed.
Lemma find_centre a i : built a -> regular a -> (i < aNBins a)%nat -> thFind (redges a) (centre_of a i) = S i.
Proof.
  intros H Hr Hi. destruct (centre_mid a i H Hr Hi). apply thFind_in; [apply redges_rising; assumption|rewrite redges_len by exact H; lia| |].
  - rewrite redges_nth by assumption. now apply Qclt_le_weak.
  - rewrite redges_hi by (try assumption; apply Hr). assumption.
Qed.
Definition ctrs (axs : list axis) (idx : list nat) : list Qc := map (fun p => centre_of (fst p) (snd p)) (combine axs idx).
Lemma find_centres axs : Forall built axs -> Forall regular axs -> forall idx, in_shape (map aNBins axs) idx ->
  map (fun p => thFind (fst p) (snd p)) (combine (map redges axs) (ctrs axs idx)) = root_bin idx.
Proof.
  induction axs as [|a axs IH]; intros HB HR idx Hs; inversion Hs; subst; [reflexivity|]. inversion HB; inversion HR; subst.
  unfold ctrs, root_bin. cbn [map combine fst snd]. f_equal; [apply find_centre; assumption|]. apply IH; assumption.
Qed.

Lemma shape_nth s t : in_shape s t -> forall p, (p < List.length s)%nat -> (nth p t 0 < nth p s 0)%nat.
Proof. intros H. induction H; intros [|p] Hp; cbn in *; try lia. apply IHForall2. lia. Qed.
Lemma centre_dims ac idx : ac_ok ac -> acAxes ac <> [] -> in_shape (map aNBins (acAxes ac)) idx ->
  mapM (binDim binCentre ac (rowmajor (map aNBins (acAxes ac)) idx)) (seq 0 (List.length (acAxes ac))) = Ok (ctrs (acAxes ac) idx).
Proof.
  intros Hok Hne Hs. pose proof (in_shape_length _ _ Hs) as L. rewrite map_length in L.
  assert (Hk : (rowmajor (map aNBins (acAxes ac)) idx < acNBins ac)%nat).
  { rewrite (ac_nb_prod ac Hok Hne). apply rowmajor_lt. exact Hs. }
  pose proof Hok as [_ [_ [ND [_ [_ HB]]]]].
  rewrite (mapM_ok_eq _ (fun d => centre_of (nth d (acAxes ac) axis0) (nth d idx 0%nat))).
  - rewrite (map_combine_nth centre_of axis0 0%nat) by exact L. reflexivity.
  - intros d Hd. apply in_seq in Hd. unfold binDim. rewrite ND. destruct (Nat.leb_spec (List.length (acAxes ac)) d); [lia|].
    destruct (Nat.leb_spec (acNBins ac) (rowmajor (map aNBins (acAxes ac)) idx)); [lia|].
    rewrite (vat_nth _ d axis0) by lia. cbn [bind].
    assert (HU : unflatten ac (rowmajor (map aNBins (acAxes ac)) idx) d = Ok (nth d idx 0%nat)) by (apply (unflatten_digit ac idx d Hok Hs); lia).
    rewrite HU. cbn [bind]. apply centre_ok; [rewrite Forall_forall in HB; apply HB, nth_In; lia|].
    pose proof (shape_nth _ _ Hs d ltac:(rewrite map_length; lia)) as K. rewrite (nth_map2 _ _ _ axis0) in K by lia. exact K.
Qed.
Lemma root_bin_inj a b : root_bin a = root_bin b -> a = b.
Proof. revert b. induction a as [|x a IH]; intros [|y b] H; cbn in H; try discriminate; [reflexivity|]. injection H as -> H. f_equal. apply IH, H. Qed.
(** the Fill loop *)
Lemma fill_loop h : h_ok h -> Forall regular (acAxes (hAxes h)) -> forall m s t, (s + m = hNBins h)%nat ->
  thEdges t = map redges (acAxes (hAxes h)) ->
  (forall idx, in_shape (shape_of h) idx -> thCont t (root_bin idx) = if Nat.ltb (rowmajor (shape_of h) idx) s then cont_at h idx else 0) ->
  (forall k, (forall idx, in_shape (shape_of h) idx -> k <> root_bin idx) -> thCont t k = 0) ->
  exists t', foldM (fun t i => do xs <- mapM (binDim binCentre (hAxes h) i) (seq 0 (List.length (acAxes (hAxes h))));
                      do c <- getBinContent h i;
                      Ok (thFill t xs c)) (seq s m) t = Ok t' /\ thEdges t' = thEdges t /\ thTitles t' = thTitles t /\
    (forall idx, in_shape (shape_of h) idx -> thCont t' (root_bin idx) = cont_at h idx) /\
    (forall k, (forall idx, in_shape (shape_of h) idx -> k <> root_bin idx) -> thCont t' k = 0).
Proof.
  intros Hok HR. pose proof Hok as [Hac [Hne [Hnb [Hnd Hlen]]]]. pose proof Hac as [_ [_ [_ [_ [_ HB]]]]].
  induction m as [|m IH]; intros s t Hm HE HC HZ.
  - cbn [seq foldM]. exists t. repeat split; try reflexivity; [|exact HZ]. intros idx Hs. rewrite HC by exact Hs.
    pose proof (rowmajor_lt _ _ Hs) as K. rewrite <- (h_ok_nbins h Hok) in K. destruct (Nat.ltb_spec (rowmajor (shape_of h) idx) s); [reflexivity|lia].
  - destruct (index_of_bin (hAxes h) s Hac Hne ltac:(lia)) as [ix [Hix Rix]].
    cbn [seq foldM]. assert (EC := centre_dims (hAxes h) ix Hac Hne Hix). rewrite Rix in EC. rewrite EC. cbn [bind].
    assert (EG : getBinContent h s = Ok (cont h s)).
    { unfold getBinContent. destruct (Nat.ltb_spec (hNBins h) s); [lia|]. unfold cont. apply vidx_nth. lia. }
    rewrite EG. cbn [bind].
    assert (EK : map (fun p => thFind (fst p) (snd p)) (combine (thEdges t) (ctrs (acAxes (hAxes h)) ix)) = root_bin ix).
    { rewrite HE. apply find_centres; assumption. }
    destruct (IH (S s) (thFill t (ctrs (acAxes (hAxes h)) ix) (cont h s))) as [t' [E' [T1 [T2 [T3 T4]]]]].
    + lia.
    + exact HE.
    + intros idx Hs. unfold thFill. rewrite EK. cbn [thPut thCont]. destruct (list_eq_dec Nat.eq_dec (root_bin idx) (root_bin ix)) as [Q|Q].
      * apply root_bin_inj in Q. subst idx. rewrite HC by exact Hix. change (shape_of h) with (map aNBins (acAxes (hAxes h))). rewrite Rix.
        destruct (Nat.ltb_spec s s), (Nat.ltb_spec s (S s)); try lia. unfold cont_at. change (shape_of h) with (map aNBins (acAxes (hAxes h))). rewrite Rix. ring.
      * rewrite HC by exact Hs.
        assert (rowmajor (shape_of h) idx <> s). { intros C. apply Q. f_equal. apply (rowmajor_inj (shape_of h)); [exact Hs|exact Hix|]. rewrite C. symmetry. exact Rix. }
        destruct (Nat.ltb_spec (rowmajor (shape_of h) idx) s), (Nat.ltb_spec (rowmajor (shape_of h) idx) (S s)); try lia; reflexivity.
    + intros k Hk. unfold thFill. rewrite EK. cbn [thPut thCont]. destruct (list_eq_dec Nat.eq_dec k (root_bin ix)) as [Q|Q]; [exfalso; exact (Hk ix Hix Q)|]. apply HZ, Hk.
    + exists t'. split; [exact E'|]. repeat split; assumption.
Qed.
Lemma toTHn_pkg n h : h_reach h ->
  (hNDims h <> n -> toTHn n h = Throw DimensionError) /\
  (hNDims h = n -> Forall regular (acAxes (hAxes h)) ->
   exists t, toTHn n h = Ok t /\ thEdges t = map (fun a => aLow a ++ [aMax a]) (acAxes (hAxes h)) /\ thTitles t = map aLatex (acAxes (hAxes h)) /\
     (forall idx, in_shape (shape_of h) idx -> thCont t (root_bin idx) = cont_at h idx) /\
     (forall k, (forall idx, in_shape (shape_of h) idx -> k <> root_bin idx) -> thCont t k = 0)).
Proof.
  intros Hr. pose proof (h_reach_ok h Hr) as Hok. unfold toTHn. split.
  - intros H. destruct (Nat.eqb_spec (hNDims h) n); [contradiction|reflexivity].
  - intros H HR. destruct (Nat.eqb_spec (hNDims h) n); [|contradiction]. cbn [negb].
    assert (L : n = List.length (acAxes (hAxes h))) by (rewrite <- H; apply h_ok_ndims; exact Hok). clear e H. subst n.
    rewrite getAll. cbn [bind].
    destruct (fill_loop h Hok HR (hNBins h) 0 (mkTh (map (fun a => aLow a ++ [aMax a]) (acAxes (hAxes h))) (map aLatex (acAxes (hAxes h))) (fun _ => 0))) as [t [E [T1 [T2 [T3 T4]]]]]; try reflexivity.
    exists t. split; [exact E|]. repeat split; assumption.
Qed.
(** one dimension *)
Lemma qdiv_mul c w : w <> 0 -> c / w * w = c. Proof. intros H. field. exact H. Qed.
Lemma one_loop (g : nat -> res Qc) (f : nat -> Qc) : forall m s t, (forall i, (s <= i < s + m)%nat -> g i = Ok (f i)) ->
  exists t', foldM (fun t bin => do v <- g bin; Ok (thPut t [S bin] v)) (seq s m) t = Ok t' /\ thEdges t' = thEdges t /\ thTitles t' = thTitles t /\
    (forall i, (s <= i < s + m)%nat -> thCont t' [S i] = f i) /\ (forall k, (forall i, (s <= i < s + m)%nat -> k <> [S i]) -> thCont t' k = thCont t k).
Proof.
  induction m as [|m IH]; intros s t H; cbn [seq foldM].
  - exists t. repeat split; try reflexivity. intros i Hi. lia.
  - rewrite (H s) by lia. cbn [bind]. destruct (IH (S s) (thPut t [S s] (f s))) as [t' [E [T1 [T2 [T3 T4]]]]]; [intros i Hi; apply H; lia|].
    exists t'. split; [exact E|]. split; [exact T1|]. split; [exact T2|]. split.
    + intros i Hi. destruct (Nat.eq_dec i s) as [->|N]; [|apply T3; lia]. rewrite T4.
      * cbn [thPut thCont]. destruct (list_eq_dec Nat.eq_dec [S s] [S s]); [reflexivity|congruence].
      * intros j Hj C. injection C as C. lia.
    + intros k Hk. rewrite T4 by (intros i Hi; apply Hk; lia). cbn [thPut thCont]. destruct (list_eq_dec Nat.eq_dec k [S s]) as [Q|Q]; [|reflexivity].
      exfalso. apply (Hk s); [lia|exact Q].
Qed.
Lemma one_loop_fail (g : nat -> res Qc) : forall m s t, (forall i, (s <= i < s + m)%nat -> g i = NonFinite \/ exists v, g i = Ok v) ->
  (exists i, (s <= i < s + m)%nat /\ g i = NonFinite) -> foldM (fun t bin => do v <- g bin; Ok (thPut t [S bin] v)) (seq s m) t = NonFinite.
Proof.
  induction m as [|m IH]; intros s t H [i [Hi E]]; [lia|]. cbn [seq foldM]. destruct (H s ltac:(lia)) as [K|[v K]]; rewrite K; cbn [bind]; [reflexivity|].
  apply IH; [intros j Hj; apply H; lia|]. exists i. split; [|exact E]. assert (i <> s) by (intros ->; congruence). lia.
Qed.
Lemma width_ok a i : built a -> (i < aNBins a)%nat -> binWidth a i = Ok (hi_of a i - lo_of a i).
Proof.
  intros Hb Hi. unfold binWidth, lo_of, hi_of. destruct Hb as [name mn mx n latex E|name lo hi latex E].
  - apply mk_equal_ok in E as [_ [_ ->]]. cbn [aNBins aLow aHigh aWidth] in *. rewrite (vat_nth _ _ 0) by (rewrite repeat_length; exact Hi).
    rewrite !nth_map_seq by exact Hi. f_equal.
    rewrite (nth_indep _ 0 ((mx - mn) / qn n)) by (rewrite repeat_length; exact Hi). rewrite nth_repeat. ring.
  - apply mk_var_ok in E as [Hl [_ [_ ->]]]. cbn [aNBins aLow aHigh aWidth] in *. rewrite (vat_nth _ _ 0) by (rewrite map_length, combine_length; lia).
    rewrite (nth_map2 _ _ _ (0, 0)) by (rewrite combine_length; lia). rewrite combine_nth by congruence. reflexivity.
Qed.
Lemma foldM_ext' {A S} (f g : S -> A -> res S) l : forall s, (forall x s, In x l -> f s x = g s x) -> foldM f l s = foldM g l s.
Proof. induction l as [|x l IH]; intros s H; cbn; [reflexivity|]. rewrite H by now left. destruct (g s x); cbn; try reflexivity. apply IH. intros; apply H. now right. Qed.
Lemma toTH1D_pkg h wc : h_reach h ->
  (hNDims h <> 1%nat -> toTH1D h wc = Throw DimensionError) /\
  (forall a, acAxes (hAxes h) = [a] ->
   let dens i := if wc then cont h i / (hi_of a i - lo_of a i) else cont h i in
   (wc = true /\ (exists i, (i < aNBins a)%nat /\ lo_of a i = hi_of a i) /\ toTH1D h wc = NonFinite) \/
   ((wc = true -> forall i, (i < aNBins a)%nat -> lo_of a i < hi_of a i) /\
    exists t, toTH1D h wc = Ok t /\ thEdges t = [aLow a ++ [aMax a]] /\ thTitles t = [aLatex a] /\
      (forall i, (i < aNBins a)%nat -> thCont t [S i] = dens i) /\
      (forall k, (forall i, (i < aNBins a)%nat -> k <> [S i]) -> thCont t k = 0))).
Proof.
  intros Hr. pose proof (h_reach_ok h Hr) as Hok. unfold toTH1D. split.
  - intros H. destruct (Nat.eqb_spec (hNDims h) 1); [contradiction|reflexivity].
  - intros a Ha; cbv zeta. pose proof Hok as [Hac [Hne [Hnb [Hnd Hlen]]]]. pose proof Hac as [_ [_ [_ [_ [_ HB]]]]].
    assert (Hb : built a) by (rewrite Ha in HB; inversion HB; assumption).
    assert (D1 : hNDims h = 1%nat) by (rewrite (h_ok_ndims h Hok), Ha; reflexivity).
    assert (NB : hNBins h = aNBins a) by (rewrite (h_ok_nbins h Hok); unfold shape_of; rewrite Ha; cbn; lia).
    rewrite D1. cbn [Nat.eqb negb]. unfold getAxis. rewrite Ha. cbn [nth_error bind].
    destruct (built_facts a Hb) as [Hn [_ [Lh [_ [_ [_ [Hle [_ Emax]]]]]]]].
    assert (EL : last (aHigh a) 0 = aMax a) by (rewrite last_nth, Lh, Emax; reflexivity). rewrite EL.
    set (g := fun bin => do c <- getBinContent h bin; if wc then do w <- binWidth a bin; qdiv c w else Ok c).
    assert (EX : forall l t, foldM (fun t bin => do c <- getBinContent h bin; do v <- (if wc then do w <- binWidth a bin; qdiv c w else Ok c); Ok (thPut t [S bin] v)) l t
              = foldM (fun t bin => do v <- g bin; Ok (thPut t [S bin] v)) l t).
    { intros l t. apply foldM_ext'. intros x s0 _. unfold g. destruct (getBinContent h x); reflexivity. }
    rewrite EX. clear EX.
    assert (EG : forall i, (i < aNBins a)%nat -> g i = if wc then qdiv (cont h i) (hi_of a i - lo_of a i) else Ok (cont h i)).
    { intros i Hi. unfold g. assert (E : getBinContent h i = Ok (cont h i)).
      { unfold getBinContent. destruct (Nat.ltb_spec (hNBins h) i); [lia|]. unfold cont. apply vidx_nth. lia. }
      rewrite E. cbn [bind]. destruct wc; [|reflexivity]. rewrite width_ok by assumption. reflexivity. }
    assert (OKC : forall dens0 : nat -> Qc, (forall i, (i < aNBins a)%nat -> g i = Ok (dens0 i)) -> exists t, foldM (fun t bin => do v <- g bin; Ok (thPut t [S bin] v)) (seq 0 (aNBins a)) (mkTh [aLow a ++ [aMax a]] [aLatex a] (fun _ => 0)) = Ok t /\
       thEdges t = [aLow a ++ [aMax a]] /\ thTitles t = [aLatex a] /\ (forall i, (i < aNBins a)%nat -> thCont t [S i] = dens0 i) /\
       (forall k, (forall i, (i < aNBins a)%nat -> k <> [S i]) -> thCont t k = 0)).
    { intros d0 H0. destruct (one_loop g d0 (aNBins a) 0 (mkTh [aLow a ++ [aMax a]] [aLatex a] (fun _ => 0))) as [t [E [T1 [T2 [T3 T4]]]]]; [intros i Hi; apply H0; lia|].
      exists t. split; [exact E|]. split; [exact T1|]. split; [exact T2|]. split; [intros i Hi; apply T3; lia|].
      intros k Hk. rewrite T4; [reflexivity|]. intros i Hi. apply Hk. lia. }
    destruct wc; [|right; split; [discriminate|apply OKC; intros i Hi; apply EG, Hi]].
    destruct (forallb (fun i => negb (qeqb (lo_of a i) (hi_of a i))) (seq 0 (aNBins a))) eqn:FB.
    + right. rewrite forallb_forall in FB. assert (P : forall i, (i < aNBins a)%nat -> lo_of a i < hi_of a i).
      { intros i Hi. specialize (FB i ltac:(apply in_seq; lia)). apply negb_true_iff, qeqb_neq in FB. specialize (Hle i Hi).
        destruct (qltb_spec (lo_of a i) (hi_of a i)); [assumption|]. exfalso. apply FB, Qcle_antisym; assumption. }
      split; [intros _; exact P|]. apply OKC. intros i Hi. rewrite EG by exact Hi. unfold qdiv. destruct (qeqb _ 0) eqn:Q; [|reflexivity].
      apply qeqb_eq in Q. specialize (P i Hi). exfalso. qlra.
    + left. split; [reflexivity|].
      assert (EX : exists i, (i < aNBins a)%nat /\ lo_of a i = hi_of a i).
      { clear -FB. induction (aNBins a) as [|n IH]; [discriminate|]. rewrite seq_S, forallb_app in FB. apply andb_false_iff in FB. destruct FB as [F|F].
        - destruct (IH F) as [i [Hi E]]. exists i. split; [lia|exact E].
        - cbn in F. rewrite andb_true_r in F. apply negb_false_iff, qeqb_eq in F. exists n. split; [lia|exact F]. }
      split; [exact EX|]. destruct EX as [i [Hi E]]. apply one_loop_fail.
      * intros j Hj. rewrite EG by lia. unfold qdiv. destruct (qeqb _ 0); [now left|right; eexists; reflexivity].
      * exists i. split; [lia|]. rewrite EG by exact Hi. unfold qdiv. rewrite E. replace (hi_of a i - hi_of a i) with 0 by ring. rewrite qeqb_refl. reflexivity.
Qed.
