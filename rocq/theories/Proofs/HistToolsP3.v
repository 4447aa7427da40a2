(** C61, part 3: Get1DSlices. *)
From Verif Require Import Base.Res Base.Num Base.SMap Model.Axis Model.Hist Model.HistTools Spec.AxisSpec Spec.HistSpec
  Spec.HistToolsSpec Proofs.AxisP Proofs.AxisP2 Proofs.HistP Proofs.HistP2 Proofs.HistP3 Proofs.HistP4 Proofs.HistToolsP Proofs.HistToolsP2.
From Coq Require Import Lia Permutation.
Local Open Scope nat_scope.
Local Open Scope res_scope.

Lemma mapM_ok_eq {A B} (f : A -> res B) (g : A -> B) l : (forall x, In x l -> f x = Ok (g x)) -> mapM f l = Ok (map g l).
Proof.
  induction l as [|x l IH]; intros H; [reflexivity|]. unfold mapM in *. cbn [map seqM]. rewrite (H x (or_introl eq_refl)).
  cbn [bind]. rewrite IH by (intros y Hy; apply H; now right). reflexivity.
Qed.
Lemma skipn_upd {A} (l : list A) : forall d i, d < List.length l -> skipn d (upd l d i) = i :: skipn (S d) l.
Proof. induction l as [|x l IH]; intros [|d] i H; cbn [List.length] in H; try lia; cbn [upd skipn]; [reflexivity|]. rewrite IH by lia. reflexivity. Qed.
Lemma firstn_S {A} (l : list A) : forall d x, nth_error l d = Some x -> firstn (S d) l = firstn d l ++ [x].
Proof. induction l as [|y l IH]; intros [|d] x H; cbn [nth_error] in H; try discriminate; cbn [firstn app]; [injection H as ->; reflexivity|]. f_equal. apply IH, H. Qed.

Lemma recComb_eq maxes : forall d vec, d <= List.length vec -> d <= List.length maxes ->
  recursiveCombinations d vec maxes = Ok (map (fun t => rev t ++ skipn d vec) (tuples (rev (firstn d maxes)))).
Proof.
  induction d as [|d IH]; intros vec Hv Hm; cbn [recursiveCombinations].
  - reflexivity.
  - unfold vidx. destruct (nth_error maxes d) as [m|] eqn:E; [|apply nth_error_None in E; lia]. cbn [bind].
    rewrite (mapM_ok_eq _ (fun i => map (fun t => rev t ++ i :: skipn (S d) vec) (tuples (rev (firstn d maxes))))).
    + cbn [bind]. f_equal. rewrite (firstn_S _ _ _ E), rev_app_distr. cbn [rev app tuples].
      rewrite flat_map_map, flat_map_concat_map. f_equal. apply map_ext. intros i. rewrite map_map. apply map_ext.
      intros t. cbn [rev]. rewrite <- app_assoc. reflexivity.
    + intros i _. rewrite (proj2 (Nat.ltb_lt d (List.length vec))) by lia.
      rewrite IH by (rewrite ?upd_length; lia). rewrite skipn_upd by lia. reflexivity.
Qed.
Lemma tuples_nodup shape : NoDup (tuples shape).
Proof.
  apply (NoDup_map_inv (rowmajor shape)). rewrite map_rowmajor_tuples. apply seq_NoDup.
Qed.
Lemma in_shape_rev s t : in_shape s t -> in_shape (rev s) (rev t).
Proof.
  unfold in_shape. induction 1 as [|i n t s H F IH]; cbn [rev]; [constructor|]. apply Forall2_app; [exact IH|]. constructor; [exact H|constructor].
Qed.
Definition combos (shape : list nat) : list (list nat) := map (@rev nat) (tuples (rev shape)).
Lemma combos_spec shape : NoDup (combos shape) /\ (forall c, In c (combos shape) <-> in_shape shape c) /\
  List.length (combos shape) = prod shape.
Proof.
  assert (Hin : forall c, In c (combos shape) <-> in_shape shape c).
  { intros c. unfold combos. rewrite in_map_iff. split.
    - intros [t [<- Ht]]. apply in_tuples in Ht. rewrite <- (rev_involutive shape). now apply in_shape_rev.
    - intros H. exists (rev c). rewrite rev_involutive. split; [reflexivity|]. apply in_tuples. now apply in_shape_rev. }
  assert (Hnd : NoDup (combos shape)).
  { apply NoDup_map_inj; [|apply tuples_nodup]. intros x y _ _ E. rewrite <- (rev_involutive x), E. apply rev_involutive. }
  split; [exact Hnd|]. split; [exact Hin|]. rewrite <- tuples_length. apply Permutation_length, NoDup_Permutation.
  - exact Hnd.
  - apply tuples_nodup.
  - intros c. rewrite Hin, in_tuples. tauto.
Qed.

(** the slice map of one combination *)
Definition slice_step (fixed : list string) (c : list nat) (m : smap nat) (i : nat) : res (smap nat) :=
  do n <- vat fixed i; do b <- vat c i; Ok (sset n b m).
Lemma slice_map fixed c : NoDup fixed -> List.length c = List.length fixed -> forall k, k <= List.length fixed ->
  exists m, foldM (slice_step fixed c) (seq 0 k) sempty = Ok m /\ swf m /\ List.length m = k /\
    (forall n b, sfind n m = Some b <-> exists i, i < k /\ nth_error fixed i = Some n /\ nth_error c i = Some b).
Proof.
  intros Hnd Hl. induction k as [|k IH]; intros Hk.
  - exists []. repeat split; try reflexivity; try constructor. discriminate. intros [i [H _]]. lia.
  - destruct IH as [m [E [Hw [Hlen Hm]]]]; [lia|]. rewrite seq_S. cbn [Nat.add].
    assert (Efold : foldM (slice_step fixed c) (seq 0 k ++ [k]) sempty = bind (foldM (slice_step fixed c) (seq 0 k) sempty) (fun m => slice_step fixed c m k)).
    { generalize (@sempty nat) as s0. generalize (seq 0 k) as L. induction L as [|x L IHL]; intros s0; cbn [app foldM bind].
      - destruct (slice_step fixed c s0 k); reflexivity.
      - destruct (slice_step fixed c s0 x) as [a| | | |]; cbn [bind]; try reflexivity. apply IHL. }
    rewrite Efold, E. cbn [bind]. unfold slice_step.
    destruct (nth_error fixed k) as [n|] eqn:En; [|apply nth_error_None in En; lia].
    destruct (nth_error c k) as [b|] eqn:Eb; [|apply nth_error_None in Eb; lia].
    unfold vat. rewrite En, Eb. cbn [bind]. exists (sset n b m).
    assert (Hnew : ~ In n (skeys m)).
    { intros C. apply sfind_in in C. destruct C as [v C]. apply Hm in C. destruct C as [i [Hi [C1 _]]].
      assert (i = k); [|lia]. apply (proj1 (NoDup_nth_error fixed) Hnd); [lia|congruence]. }
    split; [reflexivity|]. split; [now apply sset_wf|]. split.
    { rewrite sset_length by exact Hw. destruct (in_dec string_dec n (skeys m)); [contradiction|]. unfold shas.
      destruct (sfind n m) eqn:Ef; [|lia]. exfalso. apply Hnew, sfind_in. eauto. }
    intros n' b'. destruct (string_dec n' n) as [->|Hne].
    + rewrite sfind_sset_eq. split.
      * intros E0. injection E0 as <-. exists k. auto.
      * intros [i [Hi [C1 C2]]]. assert (i = k).
        { apply (proj1 (NoDup_nth_error fixed) Hnd); [apply nth_error_Some; congruence|congruence]. }
        subst i. congruence.
    + rewrite sfind_sset_neq by exact Hne. rewrite Hm. split; intros [i [Hi [C1 C2]]]; exists i.
      * split; [lia|auto].
      * assert (i <> k) by (intros ->; congruence). split; [lia|auto].
Qed.

Lemma others_length name names : NoDup names -> In name names ->
  S (List.length (filter (fun n => negb (String.eqb n name)) names)) = List.length names.
Proof.
  induction names as [|x names IH]; intros Hnd Hin; [destruct Hin|]. inversion Hnd as [|? ? H1 H2]; subst. cbn [filter List.length].
  destruct (String.eqb_spec x name) as [->|Hne]; cbn [negb].
  - f_equal. rewrite <- (filter_ext_in (fun _ => true)); [clear; induction names as [|y l IH]; cbn [filter List.length]; congruence|].
    intros y Hy. destruct (String.eqb_spec y name) as [->|_]; [contradiction|reflexivity].
  - destruct Hin as [C|Hin]; [congruence|]. cbn [List.length]. rewrite (IH H2 Hin). reflexivity.
Qed.

Definition bins_of (h : hist) (n : string) : nat := aNBins (ax_named (hAxes h) n).
Definition others (h : hist) (name : string) : list string := filter (fun n => negb (String.eqb n name)) (names_of h).

Lemma slices_pkg h name : h_reach h ->
  (In name (names_of h) ->
   exists oshape combos slices, get1DSlices h name = Ok slices /\
     Forall2 (fun n k => exists a, In a (acAxes (hAxes h)) /\ aName a = n /\ aNBins a = k)
             (filter (fun n => negb (String.eqb n name)) (names_of h)) oshape /\
     NoDup combos /\ (forall c, In c combos <-> in_shape oshape c) /\ List.length slices = prod oshape /\
     Forall2 (fun c s => axes_named (hAxes h) [name] s /\
        forall idx, in_shape (shape_of h) idx ->
          project (names_of h) idx (filter (fun n => negb (String.eqb n name)) (names_of h)) = c ->
          cont s (coord (names_of h) idx name) = cont_at h idx) combos slices) /\
  (~ In name (names_of h) -> get1DSlices h name = Throw NotFoundError).
Proof.
  intros Hr. pose proof (h_reach_ok _ Hr) as Hok. pose proof Hok as [Hac _].
  assert (Hm : mapM (fun n => do a <- getAxisByName (hAxes h) n; Ok (aNBins a)) (others h name) =
               Ok (map (bins_of h) (others h name))).
  { apply mapM_ok_eq. intros n Hn. apply filter_In in Hn. destruct (named_facts (hAxes h) n Hac (proj1 Hn)) as [-> _]. reflexivity. }
  unfold get1DSlices. rewrite (h_names h Hok). fold (others h name). rewrite Hm. cbn [bind]. split; intros Hin.
  - destruct (named_facts (hAxes h) name Hac Hin) as [E1 [_ [_ [E4 [E5 [_ E7]]]]]]. rewrite E1. cbn [bind].
    destruct (built_facts _ E7) as [Hpos _]. destruct (Nat.eqb_spec (aNBins (ax_named (hAxes h) name)) 0) as [C|_]; [lia|].
    set (fixed := others h name) in *. set (oshape := map (bins_of h) fixed).
    assert (Hlo : List.length oshape = List.length fixed) by apply map_length.
    rewrite recComb_eq by (rewrite ?repeat_length, ?Hlo; lia). cbn [bind].
    assert (Ec : map (fun t => rev t ++ skipn (List.length fixed) (repeat 0 (List.length fixed))) (tuples (rev (firstn (List.length fixed) oshape))) = combos oshape).
    { rewrite skipn_all2 by (rewrite repeat_length; lia). rewrite <- Hlo, firstn_all. unfold combos. apply map_ext. intros t. apply app_nil_r. }
    rewrite Ec. destruct (combos_spec oshape) as [Hcn [Hci Hcl]].
    assert (Hndn : NoDup (names_of h)) by (now apply names_nodup).
    assert (Hfl : S (List.length fixed) = hNDims h).
    { rewrite <- (names_ndims h Hok). apply others_length; assumption. }
    assert (Hfn : NoDup fixed) by (apply NoDup_filter'; exact Hndn).
    assert (Hfi : incl fixed (names_of h)) by (intros n Hn; apply filter_In in Hn; tauto).
    assert (Hone : forall c, In c (combos oshape) -> exists s,
       bind (foldM (slice_step fixed c) (seq 0 (hNDims h - 1)) sempty) (fun m => getSlice h m) = Ok s /\
       axes_named (hAxes h) [name] s /\
       forall idx, in_shape (shape_of h) idx -> project (names_of h) idx fixed = c ->
          cont s (coord (names_of h) idx name) = cont_at h idx).
    { intros c Hc. apply Hci in Hc. assert (Hcl' : List.length c = List.length fixed) by (rewrite (in_shape_length _ _ Hc); exact Hlo).
      replace (hNDims h - 1) with (List.length fixed) by lia.
      destruct (slice_map fixed c Hfn Hcl' (List.length fixed)) as [m [E [Hw [Hml Hmf]]]]; [lia|]. rewrite E. cbn [bind].
      destruct (slice_1d_pkg h m Hr Hw) as [s [n [a [Es [Ha [Hia [Han [Hnf Hcont]]]]]]]].
      - intros n Hn. apply sfind_in in Hn. destruct Hn as [b Hn]. apply Hmf in Hn. destruct Hn as [i [_ [H1 _]]].
        apply Hfi. eapply nth_error_In. exact H1.
      - lia.
      - intros a b Ha Hb. apply Hmf in Hb. destruct Hb as [i [Hi [H1 H2]]].
        assert (Hbn : bins_of h (aName a) = aNBins a).
        { unfold bins_of. destruct (named_facts (hAxes h) (aName a) Hac) as [_ [_ [_ [F4 [F5 _]]]]]; [now apply in_map|].
          f_equal. apply nth_error_In in F4. clear -F4 F5 Ha Hac. destruct Hac as [_ [_ [_ [_ [Hnd _]]]]].
          set (x := ax_named (hAxes h) (aName a)) in *. clearbody x. induction (acAxes (hAxes h)) as [|y l IH]; [destruct Ha|].
          cbn [map] in Hnd. inversion Hnd as [|? ? N1 N2]; subst. destruct Ha as [->|Ha], F4 as [->|F4]; auto.
          - exfalso. apply N1. rewrite <- F5. now apply in_map.
          - exfalso. apply N1. rewrite F5. now apply in_map. }
        assert (Ho : nth_error oshape i = Some (aNBins a)).
        { unfold oshape. rewrite nth_error_map, H1. cbn [option_map]. rewrite Hbn. reflexivity. }
        clear -Hc H2 Ho. revert i H2 Ho. induction Hc as [|x k c s Hx F IH]; intros [|i] H2 Ho; cbn [nth_error] in *; try discriminate.
        + injection H2 as ->. injection Ho as ->. exact Hx.
        + exact (IH i H2 Ho).
      - exists s. assert (Hnn : n = name).
        { destruct (string_dec n name) as [|Hne]; [assumption|]. exfalso.
          assert (Hnin : In n fixed).
          { apply filter_In. split; [rewrite <- Han; now apply in_map|]. destruct (String.eqb_spec n name); [contradiction|reflexivity]. }
          apply In_nth_error in Hnin. destruct Hnin as [i Hi].
          assert (Hil : i < List.length fixed) by (apply nth_error_Some; congruence).
          destruct (nth_error c i) as [b|] eqn:Eb; [|apply nth_error_None in Eb; lia].
          assert (sfind n m = Some b) by (apply Hmf; exists i; auto). congruence. }
        subst n. split; [exact Es|]. split.
        + unfold axes_named. rewrite Ha. repeat constructor; assumption.
        + intros idx Hidx Hp. rewrite <- Hcont; [rewrite Hnn; reflexivity|exact Hidx|].
          intros n b Hb. apply Hmf in Hb. destruct Hb as [i [_ [H1 H2]]]. rewrite <- Hp in H2. unfold project in H2.
          rewrite nth_error_map, H1 in H2. cbn [option_map] in H2. congruence. }
    destruct (mapM_forall2 (fun c => bind (foldM (slice_step fixed c) (seq 0 (hNDims h - 1)) sempty) (fun m => getSlice h m)) (combos oshape)) as [slices [Es F]].
    { intros c Hc. destruct (Hone c Hc) as [s [H _]]. eauto. }
    exists oshape, (combos oshape), slices. split; [exact Es|]. split; [|split; [exact Hcn|split; [exact Hci|split]]].
    + change (filter (fun n => negb (String.eqb n name)) (names_of h)) with fixed. unfold oshape.
      clear -Hfi Hac. induction fixed as [|n l IH]; constructor.
      * destruct (named_facts (hAxes h) n Hac) as [_ [_ [_ [F4 [F5 _]]]]]; [apply Hfi; now left|].
        exists (ax_named (hAxes h) n). split; [eapply nth_error_In; exact F4|]. auto.
      * apply IH. intros x Hx. apply Hfi. now right.
    + rewrite <- Hcl. symmetry. exact (forall2_len _ _ _ F).
    + change (filter (fun n => negb (String.eqb n name)) (names_of h)) with fixed.
      clear -F Hone. revert F Hone. generalize (combos oshape) as L. intros L F Hone.
      induction F as [|c s L ss E F IH]; constructor.
      * destruct (Hone c (or_introl eq_refl)) as [s' [E' R]]. rewrite E in E'. injection E' as <-. exact R.
      * apply IH. intros x Hx. apply Hone. now right.
  - unfold getAxisByName. rewrite (getAxisIndex_notin _ _ Hac Hin). reflexivity.
Qed.
