(** Packaged statements for Props/AxisProps.v *)
From Verif Require Import Base.Res Base.Num Model.Axis Spec.AxisSpec Proofs.AxisP.
Local Open Scope Qc_scope.

Lemma findBin_full a x : built a ->
  (findBin a x < aNBins a)%nat /\
  (contiguous a ->
    (x < aMin a -> findBin a x = 0%nat) /\
    (aMax a <= x -> findBin a x = (aNBins a - 1)%nat) /\
    (aMin a <= x -> x < aMax a -> forall i, in_bin a i x <-> i = findBin a x)).
Proof.
  intros Hb. split; [apply findBin_lt; exact Hb|]. intros Hc.
  destruct (findBin_regions a x Hb Hc) as [H1 [H2 H3]].
  split; [exact H1|]. split; [exact H2|]. intros Hlo Hhi i. split.
  - intros Hi. apply (in_bin_unique a i _ x Hb Hc Hi). apply H3; assumption.
  - intros ->. apply H3; assumption.
Qed.

Lemma overlapping_witness : exists a x j,
  built a /\ ~ in_bin a (findBin a x) x /\ in_bin a j x.
Proof.
  destruct (mk_var "e" [0; 1; qz 2] [qz 10; qz 2; qz 3] "") as [a| | | |] eqn:E; try discriminate.
  exists a, (qz 5), 0%nat. split; [eapply built_var; exact E|].
  vm_compute in E. injection E as <-. split.
  - intros [_ [_ H]]. vm_compute in H. discriminate.
  - repeat split; vm_compute; try lia; congruence.
Qed.

Lemma mk_equal_full name mn mx n latex :
  (mk_equal name mn mx n latex = Throw LogicError <-> (mx <= mn \/ n = 0%nat)) /\
  (mn < mx -> n <> 0%nat ->
   exists a, mk_equal name mn mx n latex = Ok a /\ aNBins a = n /\ aName a = name /\
     aMin a = mn /\ aMax a = mx /\ lo_of a 0 = mn /\ hi_of a (n - 1) = mx /\ contiguous a /\
     forall i, (i < n)%nat -> exists l h c w,
       binLow a i = Ok l /\ binHigh a i = Ok h /\ binCentre a i = Ok c /\ binWidth a i = Ok w /\
       w = (mx - mn) / qn n /\ h - l = w /\ c = (l + h) / qz 2).
Proof.
  split.
  - unfold mk_equal. destruct (qleb_spec mx mn) as [H|H]; cbn [orb]; [split; auto|].
    destruct (Nat.eqb_spec n 0) as [Hn|Hn]; [split; auto|]. split; [discriminate|].
    intros [C|C]; [exfalso; qlra|contradiction].
  - intros Hm Hn. unfold mk_equal. destruct (qleb_spec mx mn) as [H|H]; [exfalso; qlra|].
    destruct (Nat.eqb_spec n 0) as [|_]; [contradiction|]. cbn [orb].
    match goal with |- exists a, Ok ?b = _ /\ _ => set (a := b) end.
    assert (Hb : mk_equal name mn mx n latex = Ok a).
    { unfold mk_equal. destruct (qleb_spec mx mn) as [C|C]; [exfalso; qlra|].
      destruct (Nat.eqb_spec n 0) as [|_]; [contradiction|]. reflexivity. }
    pose proof (mk_equal_contiguous _ _ _ _ _ _ Hb) as Hc.
    destruct (built_facts a (built_equal a _ _ _ _ _ Hb)) as [_ [_ [_ [_ [_ [_ [_ [H1 H2]]]]]]]].
    exists a. split; [reflexivity|]. split; [reflexivity|]. split; [reflexivity|]. split; [reflexivity|].
    split; [reflexivity|]. split; [symmetry; exact H1|]. split; [symmetry; exact H2|]. split; [exact Hc|].
    intros i Hi. unfold binLow, binHigh, binCentre, binWidth.
    rewrite !(fun l => vat_nth l i 0) by (cbn; rewrite ?map_length, ?seq_length, ?repeat_length; exact Hi).
    cbn [a aLow aHigh aCentre aWidth]. rewrite !nth_map_seq by exact Hi.
    rewrite nth_indep with (d' := (mx - mn) / qn n) by (rewrite repeat_length; exact Hi).
    rewrite nth_repeat.
    do 4 eexists. do 4 (split; [reflexivity|]). split; [reflexivity|]. split.
    + field. apply qn_S_nz. lia.
    + assert (qhalf = 1 / (1 + 1)) as -> by reflexivity.
      assert (qz 2 = 1 + 1) as -> by reflexivity. field. split; [apply qn_S_nz; lia|discriminate].
Qed.

Lemma mk_var_full name lo hi latex :
  ((exists a, mk_var name lo hi latex = Ok a) <->
   (List.length lo = List.length hi /\ lo <> [] /\
    (forall i, (S i < List.length lo)%nat -> nth i lo 0 <= nth (S i) lo 0) /\
    (forall i, (i < List.length lo)%nat -> nth i lo 0 <= nth i hi 0))) /\
  ((forall a, mk_var name lo hi latex <> Ok a) -> mk_var name lo hi latex = Throw LogicError) /\
  (forall a, mk_var name lo hi latex = Ok a ->
    aNBins a = List.length lo /\ aName a = name /\ aLow a = lo /\ aHigh a = hi /\
    aMin a = lo_of a 0 /\ aMax a = hi_of a (aNBins a - 1) /\
    forall i, (i < List.length lo)%nat ->
      binLow a i = Ok (nth i lo 0) /\ binHigh a i = Ok (nth i hi 0) /\
      binCentre a i = Ok ((nth i lo 0 + nth i hi 0) / qz 2) /\
      binWidth a i = Ok (nth i hi 0 - nth i lo 0)).
Proof.
  split; [|split].
  - split.
    + intros [a E]. apply mk_var_ok in E as [Hl [Hn [He _]]].
      apply edges_ok_spec in He; [|auto]. split; [auto|]. split; [|apply He].
      intros ->. cbn in Hn; lia.
    + intros [Hl [Hn [Ho He]]]. unfold mk_var. rewrite <- Hl, Nat.eqb_refl. cbn [negb orb].
      destruct (Nat.eqb_spec (List.length lo) 0) as [C|_]; [destruct lo; [contradiction|discriminate]|].
      assert (E : edges_ok None lo hi = true).
      { apply edges_ok_spec; [exact Hl|]. split; [exact I|]. split; assumption. }
      rewrite E. cbn [negb]. eauto.
  - intros H. unfold mk_var in *. destruct (_ || _); [reflexivity|].
    destruct (negb _); [reflexivity|]. exfalso. eapply H. reflexivity.
  - intros a E. pose proof (built_var a _ _ _ _ E) as Hb.
    destruct (built_facts a Hb) as [_ [H0 [H3 [_ [_ [_ [_ [H1 H2]]]]]]]].
    apply mk_var_ok in E as [Hl [Hn [_ ->]]]. cbn [aNBins aName aLow aHigh] in *.
    do 4 (split; [reflexivity|]). split; [exact H1|]. split; [exact H2|].
    intros i Hi. unfold binLow, binHigh, binCentre, binWidth. cbn [aLow aHigh aCentre aWidth].
    rewrite !(fun l => vat_nth l i 0) by (rewrite ?map_length, ?combine_length; lia).
    rewrite !(nth_map2 _ _ _ (0, 0)) by (rewrite combine_length; lia).
    rewrite !combine_nth by auto. cbn [fst snd]. repeat split. f_equal.
    assert (qhalf = 1 / (1 + 1)) as -> by reflexivity.
    assert (qz 2 = 1 + 1) as -> by reflexivity. field. discriminate.
Qed.

Lemma flatten_bijection ac : ac_reach ac -> acAxes ac <> [] ->
  let shape := map aNBins (acAxes ac) in
  acNBins ac = prod shape /\
  (forall idx, in_shape shape idx ->
     flatten ac idx = Ok (rowmajor shape idx) /\ (rowmajor shape idx < acNBins ac)%nat /\
     unpack ac (rowmajor shape idx) = Ok idx /\
     forall d, (d < List.length shape)%nat -> unflatten ac (rowmajor shape idx) d = Ok (nth d idx 0%nat)) /\
  (forall k, (k < acNBins ac)%nat ->
     exists idx, in_shape shape idx /\ unpack ac k = Ok idx /\ flatten ac idx = Ok k) /\
  (forall i1 i2 k, in_shape shape i1 -> in_shape shape i2 ->
     flatten ac i1 = Ok k -> flatten ac i2 = Ok k -> i1 = i2) /\
  (forall idx, List.length idx <> List.length shape -> flatten ac idx = Throw DimensionError) /\
  (forall k d, (List.length shape <> 1)%nat -> (acNBins ac <= k)%nat -> unflatten ac k d = Throw NotFoundError).
Proof.
  intros Hr Hne shape. pose proof (ac_reach_ok ac Hr) as Hok. subst shape. fold (ac_nb ac).
  assert (Hnl : List.length (ac_nb ac) = List.length (acAxes ac)) by apply map_length.
  pose proof (ac_nb_prod ac Hok Hne) as Hp.
  assert (F : forall idx, in_shape (ac_nb ac) idx -> flatten ac idx = Ok (rowmajor (ac_nb ac) idx)).
  { intros idx Hi. apply flatten_rowmajor; auto. rewrite (in_shape_length _ _ Hi). exact Hnl. }
  split; [exact Hp|]. split; [|split; [|split; [|split]]].
  - intros idx Hi. split; [apply F; exact Hi|]. split; [rewrite Hp; apply rowmajor_lt; exact Hi|].
    split; [apply unpack_rowmajor; assumption|]. intros d Hd. apply unflatten_digit; auto. lia.
  - intros k Hk. destruct (unpack_flatten_id ac k Hok Hk) as [idx [H1 [H2 H3]]]. eauto.
  - intros i1 i2 k H1 H2 E1 E2. rewrite F in E1, E2 by assumption. injection E1 as E1. injection E2 as E2.
    apply (rowmajor_inj (ac_nb ac)); auto. congruence.
  - intros idx Hl. apply flatten_dim; [exact Hok|]. congruence.
  - intros k d Hd Hk. unfold unflatten. pose proof Hok as [_ [_ [-> _]]].
    destruct (Nat.eqb_spec (List.length (acAxes ac)) 1); [lia|].
    destruct (Nat.leb_spec (acNBins ac) k); [reflexivity|lia].
Qed.

Lemma ac_findBin_full ac vals : ac_reach ac -> acAxes ac <> [] ->
  (List.length vals <> List.length (acAxes ac) -> ac_findBin ac vals = Throw DimensionError) /\
  (List.length vals = List.length (acAxes ac) ->
   exists k, ac_findBin ac vals = Ok k /\ (k < acNBins ac)%nat /\
    (forall d a v, nth_error (acAxes ac) d = Some a -> nth_error vals d = Some v ->
      unflatten ac k d = Ok (findBin a v)) /\
    (Forall2 (fun a v => contiguous a /\ aMin a <= v /\ v < aMax a) (acAxes ac) vals ->
     exists los his, binLowEdges ac k = Ok los /\ binHighEdges ac k = Ok his /\
       Forall2 (fun l v => l <= v) los vals /\ Forall2 (fun v h => v < h) vals his)).
Proof.
  intros Hr Hne. pose proof (ac_reach_ok ac Hr) as Hok. split; [apply ac_findBin_dim; exact Hok|].
  intros Hl. destruct (ac_findBin_spec ac vals Hok Hne Hl) as [k [Hk [Hkn Hd]]].
  exists k. split; [exact Hk|]. split; [exact Hkn|]. split.
  - intros d a v Ha Hv. rewrite Hd by (apply nth_error_Some; congruence).
    rewrite (nth_error_nth _ _ _ Ha), (nth_error_nth _ _ _ Hv). reflexivity.
  - intros HF.
    assert (HF' : forall d, (d < List.length vals)%nat ->
      let a := nth d (acAxes ac) axis0 in contiguous a /\ aMin a <= nth d vals 0 /\ nth d vals 0 < aMax a).
    { clear -HF. induction HF as [|a v la lv H _ IH]; intros d Hd; [cbn in Hd; lia|].
      destruct d; cbn in *; [exact H|apply IH; lia]. }
    destruct (findBin_box ac vals Hok Hne Hl HF') as [k' [los [his [H1 [H2 [H3 [H4 [H5 H6]]]]]]]].
    rewrite Hk in H1. injection H1 as <-. exists los, his. split; [exact H2|]. split; [exact H3|].
    clear -H4 H5 H6. split.
    + revert los his H4 H5 H6. induction vals as [|v vals IH]; intros [|l los] [|h his] H4 H5 H6; cbn in *; try discriminate; constructor.
      * apply (H6 0%nat). lia.
      * apply (IH los his); [lia|lia|]. intros d Hd. apply (H6 (S d)). lia.
    + revert los his H4 H5 H6. induction vals as [|v vals IH]; intros [|l los] [|h his] H4 H5 H6; cbn in *; try discriminate; constructor.
      * apply (H6 0%nat). lia.
      * apply (IH los his); [lia|lia|]. intros d Hd. apply (H6 (S d)). lia.
Qed.

Lemma getAxisIndex_iff ac n i : ac_ok ac ->
  getAxisIndex ac n = Ok i <-> exists a, nth_error (acAxes ac) i = Some a /\ aName a = n.
Proof.
  intros Hok. pose proof (getAxisIndex_spec ac n Hok) as H. split.
  - intros E. rewrite E in H. exact H.
  - intros [a [Ha Hn]]. assert (Hin : In n (map aName (acAxes ac))).
    { subst n. apply in_map. eapply nth_error_In; exact Ha. }
    destruct (getAxisIndex ac n) as [j|e| | |] eqn:E; try contradiction.
    + f_equal. destruct H as [b [Hb Hbn]]. destruct Hok as [_ [_ [_ [_ [Hnd _]]]]].
      rewrite NoDup_nth_error in Hnd. apply Hnd.
      * rewrite map_length. apply nth_error_Some. congruence.
      * rewrite !nth_error_map, Ha, Hb. cbn. congruence.
    + destruct e; contradiction.
Qed.

Lemma ac_names_full ac : ac_reach ac ->
  NoDup (map aName (acAxes ac)) /\
  acNames ac = map aName (acAxes ac) /\ acNbins ac = map aNBins (acAxes ac) /\
  acNDims ac = List.length (acAxes ac) /\
  acNBins ac = (if Nat.eqb (List.length (acAxes ac)) 0 then 0%nat else prod (map aNBins (acAxes ac))) /\
  (forall n i, getAxisIndex ac n = Ok i <-> exists a, nth_error (acAxes ac) i = Some a /\ aName a = n) /\
  (forall n, (forall i, getAxisIndex ac n <> Ok i) -> getAxisIndex ac n = Throw NotFoundError) /\
  (forall a, built a ->
     if in_dec string_dec (aName a) (map aName (acAxes ac))
     then addAxis ac a = Throw ValueError
     else exists ac', addAxis ac a = Ok ac' /\ acAxes ac' = acAxes ac ++ [a]) /\
  (forall l, Forall built l -> exists p s, l = p ++ s /\ acAxes (fst (addAxes ac l)) = acAxes ac ++ p /\
     match s with
     | [] => snd (addAxes ac l) = Ok tt
     | a :: _ => snd (addAxes ac l) = Throw ValueError /\ In (aName a) (map aName (acAxes ac ++ p))
     end).
Proof.
  intros Hr. pose proof (ac_reach_ok ac Hr) as Hok. pose proof Hok as [H1 [H2 [H3 [H4 [H5 H6]]]]].
  split; [exact H5|]. split; [exact H1|]. split; [exact H2|]. split; [exact H3|].
  split; [rewrite H4; destruct (acAxes ac); reflexivity|].
  split; [intros n i; apply getAxisIndex_iff; exact Hok|].
  split; [|split].
  - intros n Hn. unfold getAxisIndex in *. destruct (index_of n (acNames ac)); [exfalso; eapply Hn; reflexivity|reflexivity].
  - intros a Hb. destruct (in_dec _ _ _) as [Hi|Hi]; [apply addAxis_dup; exact Hi|].
    destruct (addAxis_new _ _ Hi) as [ac' E]. exists ac'. split; [exact E|].
    apply (addAxis_ok _ _ _ Hok Hb E).
  - intros l Hl. apply addAxes_prefix; assumption.
Qed.
Lemma get_axis_pkg ac i : ac_reach ac ->
  ((i < acNDims ac)%nat -> exists a, getAxis ac i = Ok a /\ nth_error (acAxes ac) i = Some a /\ getAxisIndex ac (aName a) = Ok i) /\
  ((acNDims ac <= i)%nat -> getAxis ac i = Throw NotFoundError).
Proof.
  intros R. destruct (ac_names_full ac R) as [_ [_ [_ [E [_ [G _]]]]]]. rewrite E. unfold getAxis. split; intros H.
  - destruct (nth_error (acAxes ac) i) as [a|] eqn:N; [|apply nth_error_None in N; lia]. exists a. split; [reflexivity|]. split; [reflexivity|]. apply G. exists a. auto.
  - destruct (nth_error (acAxes ac) i) as [a|] eqn:N; [|reflexivity]. assert (i < List.length (acAxes ac))%nat by (apply nth_error_Some; congruence). lia.
Qed.
