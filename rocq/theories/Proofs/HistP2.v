(** Marginalise, ranged integrals, arithmetic. *)
From Coq Require Import ZArith.
From Verif Require Import Base.Res Base.Num Base.SMap Model.Axis Model.Hist Spec.AxisSpec Spec.HistSpec Proofs.AxisP Proofs.HistP.
Local Open Scope Qc_scope.
Local Open Scope res_scope.

Lemma seq_mul P : forall n s, flat_map (fun i => map (fun k => (i * P + k)%nat) (seq 0 P)) (seq s n) = seq (s * P) (n * P).
Proof.
  induction n as [|n IH]; intros s; cbn [seq flat_map]; [reflexivity|].
  rewrite IH. replace (S n * P)%nat with (P + n * P)%nat by lia. rewrite seq_app. f_equal.
  - change (fun k => (s * P + k)%nat) with (Nat.add (s * P)).
    generalize (s * P)%nat as b. intros b. clear.
    assert (W : forall m c, map (Nat.add b) (seq c m) = seq (b + c) m).
    { induction m as [|m IH]; intros c; cbn; [reflexivity|]. rewrite IH. f_equal. f_equal. lia. }
    rewrite W. f_equal. lia.
  - f_equal. lia.
Qed.
Lemma flat_map_map {A B C} (f : A -> list B) (g : B -> C) l : map g (flat_map f l) = flat_map (fun x => map g (f x)) l.
Proof. induction l as [|x l IH]; cbn; [reflexivity|]. now rewrite map_app, IH. Qed.
Lemma map_rowmajor_tuples shape : map (rowmajor shape) (tuples shape) = seq 0 (prod shape).
Proof.
  induction shape as [|n s IH]; cbn [tuples prod]; [reflexivity|].
  rewrite flat_map_map. change 0%nat with (0 * prod s)%nat at 2. rewrite <- (seq_mul (prod s) n 0).
  apply flat_map_ext. intros i. rewrite map_map. rewrite <- IH, map_map. apply map_ext. reflexivity.
Qed.
Lemma in_tuples shape idx : In idx (tuples shape) <-> in_shape shape idx.
Proof.
  unfold in_shape. revert idx. induction shape as [|n s IH]; intros idx; cbn [tuples].
  - split; [intros [<-|[]]; constructor|intros H; inversion H; now left].
  - rewrite in_flat_map. split.
    + intros [i [Hi H]]. apply in_map_iff in H as [t [<- Ht]]. apply in_seq in Hi. constructor; [lia|]. now apply IH.
    + intros H. inversion H as [|i n' t s' Hi Ht]; subst. exists i. split; [apply in_seq; lia|].
      apply in_map. now apply IH.
Qed.
Lemma qsum_bins_tuples shape (F : nat -> Qc) :
  qsum (map F (seq 0 (prod shape))) = qsum (map (fun t => F (rowmajor shape t)) (tuples shape)).
Proof. rewrite <- map_rowmajor_tuples, map_map. reflexivity. Qed.
Lemma qsum_filter {A} (p : A -> bool) (F : A -> Qc) l :
  qsum (map F (filter p l)) = qsum (map (fun x => if p x then F x else 0) l).
Proof. induction l as [|x l IH]; cbn [filter map qsum]; [reflexivity|]. destruct (p x); cbn [map qsum]; rewrite IH; ring. Qed.

(** name positions *)
Lemma coord_index names n idx i : index_of n names = Some i -> List.length idx = List.length names ->
  coord names idx n = nth i idx 0%nat.
Proof.
  revert idx i. induction names as [|m names IH]; intros [|x idx] i H Hl; cbn in *; try discriminate.
  destruct (String.eqb m n); [injection H as <-; reflexivity|].
  destruct (index_of n names) as [j|]; cbn in H; [|discriminate]. injection H as <-. cbn [nth]. apply IH; auto; lia.
Qed.

Lemma getAxisIndex_in ac n : ac_ok ac -> In n (map aName (acAxes ac)) ->
  exists i, getAxisIndex ac n = Ok i /\ index_of n (acNames ac) = Some i /\ (i < List.length (acAxes ac))%nat /\
    exists a, getAxisByName ac n = Ok a /\ nth_error (acAxes ac) i = Some a /\ aName a = n.
Proof.
  intros Hok Hin. pose proof (getAxisIndex_spec ac n Hok) as H. unfold getAxisIndex in *.
  destruct (index_of n (acNames ac)) as [i|] eqn:E; [|contradiction].
  destruct H as [a [Ha Hn]]. exists i. split; [reflexivity|]. split; [reflexivity|].
  split; [apply nth_error_Some; congruence|]. exists a. split; [|auto].
  unfold getAxisByName, getAxisIndex. rewrite E. cbn [bind]. unfold vat. rewrite Ha. reflexivity.
Qed.
Lemma getAxisIndex_notin ac n : ac_ok ac -> ~ In n (map aName (acAxes ac)) -> getAxisIndex ac n = Throw NotFoundError.
Proof.
  intros Hok Hin. pose proof (getAxisIndex_spec ac n Hok) as H. unfold getAxisIndex in *.
  destruct (index_of n (acNames ac)) as [i|] eqn:E; [|reflexivity]. destruct H as [a [Ha <-]].
  exfalso. apply Hin. apply in_map. eapply nth_error_In; eassumption.
Qed.

Definition ax_named (ac : axcol) (n : string) : axis :=
  match getAxisByName ac n with Ok a => a | _ => axis0 end.
Definition pos_named (ac : axcol) (n : string) : nat :=
  match getAxisIndex ac n with Ok i => i | _ => 0%nat end.
Lemma named_facts ac n : ac_ok ac -> In n (map aName (acAxes ac)) ->
  getAxisByName ac n = Ok (ax_named ac n) /\ getAxisIndex ac n = Ok (pos_named ac n) /\
  (pos_named ac n < List.length (acAxes ac))%nat /\ nth_error (acAxes ac) (pos_named ac n) = Some (ax_named ac n) /\
  aName (ax_named ac n) = n /\ index_of n (acNames ac) = Some (pos_named ac n) /\ built (ax_named ac n).
Proof.
  intros Hok Hin. destruct (getAxisIndex_in ac n Hok Hin) as [i [E1 [E2 [Hi [a [E3 [E4 E5]]]]]]].
  unfold ax_named, pos_named. rewrite E1, E3. repeat split; auto.
  destruct Hok as [_ [_ [_ [_ [_ Hb]]]]]. rewrite Forall_forall in Hb. apply Hb. eapply nth_error_In; eassumption.
Qed.

(** the axis collection built by Marginalise *)
Lemma marg_axes ac names : ac_ok ac -> incl names (map aName (acAxes ac)) -> forall acc, ac_ok acc ->
  NoDup (map aName (acAxes acc) ++ names) ->
  exists nac, foldM (fun c n => do a <- getAxisByName ac n; addAxis c a) names acc = Ok nac /\ ac_ok nac /\
    acAxes nac = acAxes acc ++ map (ax_named ac) names.
Proof.
  intros Hok Hin. induction names as [|n names IH]; intros acc Hacc Hnd; cbn [foldM map].
  - exists acc. rewrite app_nil_r. auto.
  - destruct (named_facts ac n Hok) as [-> [_ [_ [_ [Hn [_ Hb]]]]]]; [apply Hin; now left|]. cbn [bind].
    assert (Hni : ~ In (aName (ax_named ac n)) (map aName (acAxes acc))).
    { rewrite Hn. intros C. apply NoDup_remove_2 in Hnd. apply Hnd. apply in_or_app. now left. }
    destruct (addAxis_new acc _ Hni) as [acc' E]. rewrite E. cbn [bind].
    destruct (addAxis_ok _ _ _ Hacc Hb E) as [Hacc' [Ha' _]].
    destruct (IH) with (acc := acc') as [nac [E' [Ho' Hax]]].
    + intros x Hx. apply Hin. now right.
    + exact Hacc'.
    + rewrite Ha', map_app. cbn [map]. rewrite Hn, <- app_assoc. exact Hnd.
    + exists nac. split; [exact E'|]. split; [exact Ho'|]. rewrite Hax, Ha', <- app_assoc. reflexivity.
Qed.
Lemma marg_axes_dup ac names : ac_ok ac -> incl names (map aName (acAxes ac)) -> forall acc, ac_ok acc ->
  ~ NoDup (map aName (acAxes acc) ++ names) ->
  foldM (fun c n => do a <- getAxisByName ac n; addAxis c a) names acc = Throw ValueError.
Proof.
  intros Hok Hin. induction names as [|n names IH]; intros acc Hacc Hnd; cbn [foldM].
  - exfalso. apply Hnd. rewrite app_nil_r. apply Hacc.
  - destruct (named_facts ac n Hok) as [-> [_ [_ [_ [Hn [_ Hb]]]]]]; [apply Hin; now left|]. cbn [bind].
    destruct (in_dec string_dec (aName (ax_named ac n)) (map aName (acAxes acc))) as [C|C].
    + rewrite (addAxis_dup _ _ C). reflexivity.
    + destruct (addAxis_new acc _ C) as [acc' E]. rewrite E. cbn [bind].
      destruct (addAxis_ok _ _ _ Hacc Hb E) as [Hacc' [Ha' _]].
      apply IH; [intros x Hx; apply Hin; now right|exact Hacc'|].
      rewrite Ha', map_app. cbn [map]. rewrite Hn, <- app_assoc. exact Hnd.
Qed.

Lemma mapM_check (P : string -> Prop) (f : string -> res unit) names :
  (forall n, In n names -> f n = Ok tt) -> mapM f names = Ok (map (fun _ => tt) names).
Proof. intros H. apply (seqM_ok f (fun _ => tt)). exact H. Qed.
Lemma mapM_check_fail (known : list string) names : ~ incl names known ->
  mapM (fun n => if in_dec string_dec n known then Ok tt else Throw NotFoundError) names = Throw NotFoundError.
Proof.
  unfold mapM. induction names as [|n names IH]; intros H; [exfalso; apply H; intros x []|].
  cbn [map seqM]. destruct (in_dec string_dec n known) as [Hn|Hn]; [|reflexivity]. cbn [bind].
  rewrite IH; [reflexivity|]. intros C. apply H. intros x [<-|Hx]; auto.
Qed.

Lemma hist_shape_nb h : shape_of h = ac_nb (hAxes h). Proof. reflexivity. Qed.

Lemma project_in_shape h idx names : h_ok h -> incl names (names_of h) -> in_shape (shape_of h) idx ->
  in_shape (map aNBins (map (ax_named (hAxes h)) names)) (project (names_of h) idx names) /\
  project (names_of h) idx names = map (fun n => nth (pos_named (hAxes h) n) idx 0%nat) names.
Proof.
  intros Hok Hin Hidx. pose proof Hok as [Hac _]. pose proof (in_shape_length _ _ Hidx) as Hl.
  rewrite (h_ok_shape_len h) in Hl.
  assert (E : project (names_of h) idx names = map (fun n => nth (pos_named (hAxes h) n) idx 0%nat) names).
  { unfold project. apply map_ext_in. intros n Hn. apply coord_index.
    - destruct (named_facts _ n Hac (Hin n Hn)) as [_ [_ [_ [_ [_ [E _]]]]]]. unfold names_of.
      destruct Hac as [<- _]. exact E.
    - unfold names_of. rewrite map_length. exact Hl. }
  split; [|exact E]. rewrite E. unfold in_shape. clear E.
  induction names as [|n names IH]; cbn [map]; constructor.
  - destruct (named_facts _ n Hac (Hin n (or_introl eq_refl))) as [_ [_ [Hp [Hnth _]]]].
    assert (G : forall s t p, Forall2 (fun i n => (i < n)%nat) t s -> (p < List.length t)%nat -> (nth p t 0 < nth p s 0)%nat).
    { clear. intros s t p H. revert p. induction H; intros [|p] Hp; cbn in *; try lia. apply IHForall2. lia. }
    assert (Hlt := G _ _ (pos_named (hAxes h) n) Hidx ltac:(lia)). unfold shape_of in Hlt.
    rewrite (nth_map2 _ _ _ axis0) in Hlt by exact Hp.
    rewrite (nth_error_nth _ _ axis0 Hnth) in Hlt. exact Hlt.
  - apply IH. intros x Hx. apply Hin. now right.
Qed.

Lemma addBin_lt h b w : (b < hNBins h)%nat -> addBinContent h b w = add_at h b w.
Proof. intros H. unfold addBinContent. destruct (Nat.ltb_spec (hNBins h) b); [lia|reflexivity]. Qed.

Lemma marginalise_ok h names : h_ok h -> names <> [] -> NoDup names -> incl names (names_of h) ->
  exists m, marginalise h names = Ok m /\ h_ok m /\
    acAxes (hAxes m) = map (ax_named (hAxes h)) names /\
    (forall j, in_shape (shape_of m) j ->
       cont_at m j = qsum (map (cont_at h) (filter (fun idx => nlist_eqb (project (names_of h) idx names) j) (tuples (shape_of h))))) /\
    total m = total h.
Proof.
  intros Hok Hne Hnd Hin. pose proof Hok as [Hac [Hax [Hnb [Hndim Hlen]]]].
  unfold marginalise.
  assert (En : acNames (hAxes h) = names_of h) by apply Hac. rewrite En.
  rewrite (mapM_check (fun _ => True)).
  2:{ intros n Hn. destruct (in_dec string_dec n (names_of h)) as [|C]; [reflexivity|]. exfalso. apply C, Hin, Hn. }
  cbn [bind].
  rewrite (seqM_ok (getAxisIndex (hAxes h)) (pos_named (hAxes h))).
  2:{ intros n Hn. apply (named_facts _ n Hac (Hin n Hn)). }
  cbn [bind].
  destruct (marg_axes (hAxes h) names Hac Hin ac_empty ac_empty_ok Hnd) as [nac [Enac [Hnac Hnax]]].
  rewrite Enac. cbn [bind]. cbn [acAxes ac_empty app] in Hnax.
  assert (Hnn : acAxes nac <> []) by (rewrite Hnax; destruct names; [congruence|discriminate]).
  set (m0 := mk_hist nac). assert (Hm0 : h_ok m0) by (apply mk_hist_ok; assumption).
  set (gt := fun idx => rowmajor (shape_of m0) (project (names_of h) idx names)).
  set (g := fun k => gt (digits (shape_of h) k)).
  assert (Hg : forall k, (k < hNBins h)%nat -> (g k < hNBins m0)%nat).
  { intros k Hk. rewrite (h_ok_nbins m0 Hm0). unfold g, gt. apply rowmajor_lt. unfold shape_of, m0; cbn. rewrite Hnax.
    apply project_in_shape; auto. apply digits_spec. rewrite (h_ok_nbins h Hok) in Hk. exact Hk. }
  destruct (scatter_ok (fun m bin =>
           do old <- mapM (fun i => unflatten (hAxes h) bin i) (seq 0 (hNDims h));
           do new <- mapM (fun i => vat old i) (map (pos_named (hAxes h)) names);
           do nb <- flatten (hAxes m) new;
           do c <- vat (hCont h) bin;
           ret (addBinContent m nb c)) g (fun k => cont h k) (seq 0 (hNBins h)) m0 Hm0) as [m [E [S [N T]]]].
  { intros k h1 Hk H1 S1. apply in_seq in Hk. assert (Hk' : (k < hNBins h)%nat) by lia. split; [apply Hg; exact Hk'|].
    destruct (digits_spec (shape_of h) k) as [Hd Hr]; [rewrite <- (h_ok_nbins h Hok); exact Hk'|].
    assert (Hu : unpack (hAxes h) k = Ok (digits (shape_of h) k)).
    { rewrite <- Hr at 1. apply unpack_rowmajor; [exact Hac|exact Hd]. }
    unfold unpack in Hu. rewrite Hndim, Hu. cbn [bind].
    rewrite (seqM_ok _ (fun i => nth i (digits (shape_of h) k) 0%nat)).
    2:{ intros i Hi. apply in_map_iff in Hi as [n [<- Hn]]. apply vat_nth.
        rewrite (in_shape_length _ _ Hd), h_ok_shape_len.
        apply (named_facts _ n Hac (Hin n Hn)). }
    cbn [bind]. rewrite map_map.
    destruct (project_in_shape h _ names Hok Hin Hd) as [Hp1 Hp2]. rewrite <- Hp2.
    destruct S1 as [SA [SB _]]. rewrite SA.
    rewrite flatten_rowmajor.
    2: exact Hnac. 2: exact Hnn.
    2:{ cbn [m0 mk_hist setAxes hAxes]. rewrite Hnax. apply in_shape_length in Hp1. rewrite Hp1. apply map_length. }
    cbn [bind]. rewrite (vat_nth _ _ 0) by lia. cbn [bind]. fold (cont h k).
    change (rowmajor (ac_nb nac) (project (names_of h) (digits (shape_of h) k) names)) with (g k).
    f_equal. apply addBin_lt. rewrite SB. apply Hg. exact Hk'. }
  exists m. split; [exact E|]. split; [eapply same_shape_ok; eassumption|].
  pose proof S as [SA [SB [SC SD]]].
  split; [rewrite SA; exact Hnax|]. split.
  - intros j Hj. unfold cont_at at 1. rewrite N. unfold m0. rewrite mk_hist_cont, Qcplus_0_l.
    assert (Esh : shape_of m = shape_of m0) by (unfold shape_of; now rewrite SA).
    rewrite (h_ok_nbins h Hok). rewrite (qsum_bins_tuples (shape_of h)). rewrite qsum_filter.
    apply qsum_map_ext. intros t Ht. apply in_tuples in Ht.
    assert (Ed : digits (shape_of h) (rowmajor (shape_of h) t) = t).
    { apply (rowmajor_inj (shape_of h)); [|exact Ht|]; destruct (digits_spec (shape_of h) _ (rowmajor_lt _ _ Ht)); auto. }
    unfold g. rewrite Ed. unfold gt. fold (cont_at h t). rewrite Esh in *.
    assert (Hp := proj1 (project_in_shape h t names Hok Hin Ht)). rewrite <- Hnax in Hp.
    unfold nlist_eqb. destruct (list_eq_dec Nat.eq_dec (project (names_of h) t names) j) as [<-|C].
    + rewrite Nat.eqb_refl. reflexivity.
    + destruct (Nat.eqb_spec (rowmajor (shape_of m0) j) (rowmajor (shape_of m0) (project (names_of h) t names))) as [Er|]; [|reflexivity].
      exfalso. apply C. symmetry. eapply (rowmajor_inj (shape_of m0)); eauto.
  - rewrite T. assert (total m0 = 0) as ->.
    { unfold total. apply qsum_map_0. intros; apply mk_hist_cont. }
    unfold total. apply Qcplus_0_l.
Qed.

Lemma marginalise_unknown h names : h_ok h -> ~ incl names (names_of h) -> marginalise h names = Throw NotFoundError.
Proof.
  intros [Hac _] H. unfold marginalise.
  replace (acNames (hAxes h)) with (names_of h) by (symmetry; apply Hac).
  rewrite mapM_check_fail by exact H. reflexivity.
Qed.
Lemma marginalise_dup h names : h_ok h -> incl names (names_of h) -> ~ NoDup names -> marginalise h names = Throw ValueError.
Proof.
  intros [Hac _] Hin H. unfold marginalise.
  replace (acNames (hAxes h)) with (names_of h) by (symmetry; apply Hac).
  rewrite (mapM_check (fun _ => True)).
  2:{ intros n Hn. destruct (in_dec string_dec n (names_of h)) as [|C]; [reflexivity|]. exfalso. apply C, Hin, Hn. }
  cbn [bind].
  rewrite (seqM_ok (getAxisIndex (hAxes h)) (pos_named (hAxes h))).
  2:{ intros n Hn. apply (named_facts _ n Hac (Hin n Hn)). }
  cbn [bind]. rewrite (marg_axes_dup (hAxes h) names Hac Hin ac_empty ac_empty_ok H). reflexivity.
Qed.
Lemma marginalise_nil h : h_ok h -> (0 < hNBins h)%nat -> marginalise h [] = UB.
Proof.
  intros Hok H. pose proof Hok as [Hac [Hax [Hnb [Hndim Hlen]]]]. unfold marginalise, mapM. cbn [map seqM bind foldM].
  destruct (hNBins h) as [|n] eqn:E; [lia|]. cbn [seq foldM].
  destruct (unpack_flatten_id (hAxes h) 0 Hac) as [idx [Hu _]]; [lia|]. unfold unpack, mapM in Hu.
  rewrite Hndim, Hu. reflexivity.
Qed.

(** ranged integral *)
Lemma findBin1_ok h v : h_ok h -> hNDims h = 1%nat ->
  exists a, acAxes (hAxes h) = [a] /\ built a /\ h_findBin1 h v = Ok (findBin a v) /\ hNBins h = aNBins a.
Proof.
  intros Hok H1. pose proof Hok as [Hac [Hax [Hnb [Hndim Hlen]]]]. pose proof (h_ok_ndims h Hok) as Hd.
  destruct (acAxes (hAxes h)) as [|a [|b l]] eqn:E; cbn in Hd; try lia.
  exists a. split; [reflexivity|]. assert (Hb : built a).
  { destruct Hac as [_ [_ [_ [_ [_ F]]]]]. rewrite E in F. now inversion F. }
  split; [exact Hb|]. split.
  - unfold h_findBin1. rewrite H1. cbn [Nat.eqb negb]. unfold getAxis. rewrite E. reflexivity.
  - rewrite (h_ok_nbins h Hok). unfold shape_of. rewrite E. cbn. lia.
Qed.
