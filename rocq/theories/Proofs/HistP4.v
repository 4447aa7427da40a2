(** Packaged statements for C06-C12, C64, C65. *)
From Coq Require Import ZArith.
From Verif Require Import Base.Res Base.Num Base.SMap Model.Axis Model.Hist Spec.AxisSpec Spec.HistSpec Proofs.AxisP Proofs.HistP Proofs.HistP2 Proofs.HistP3.
Local Open Scope Qc_scope.
Local Open Scope res_scope.

Lemma same_shape_axes h h' : same_shape h h' -> same_axes h' h.
Proof. intros [A [B [C D]]]. repeat split; assumption. Qed.

Lemma fills_pkg h l : h_reach h -> (forall e, In e l -> List.length (fst e) = hNDims h) ->
  same_axes (fills h l) h /\
  (forall i, (i < hNBins h)%nat -> cont (fills h l) i = cont h i +
     qsum (map snd (filter (fun e => match h_findBin h (fst e) with Ok b => Nat.eqb b i | _ => false end) l))) /\
  (forall e, In e l -> exists b, h_findBin h (fst e) = Ok b /\ (b < hNBins h)%nat /\
     snd (fill h (fst e) (snd e)) = Ok tt) /\
  integral h = Ok (total h) /\
  integral (fills h l) = Ok (total h + qsum (map snd l)).
Proof.
  intros R Hl. pose proof (h_reach_ok h R) as Hok. destruct (fills_ok l h Hok Hl) as [SS [N T]].
  split; [now apply same_shape_axes|]. split; [intros; apply N|]. split.
  - intros [v w] He. destruct (fill_ok h v w Hok (Hl _ He)) as [b [Eb [Hb Ef]]]. exists b. cbn [fst snd].
    split; [exact Eb|]. split; [exact Hb|]. rewrite Ef. destruct (add_at_ok h b w Hok Hb) as [h' [E _]]. rewrite E. reflexivity.
  - split; [now apply integral_total|]. rewrite <- T. apply integral_total. eapply same_shape_ok; eassumption.
Qed.

Lemma fill_throw_pkg h v w : h_reach h -> List.length v <> hNDims h -> fill h v w = (h, Throw DimensionError).
Proof. intros _. apply fill_dim. Qed.

Lemma getValues_ok {V} (m : smap V) (d : V) names : (forall n, In n names -> exists v, sfind n m = Some v) ->
  getValues m names = Ok (map (fun n => match sfind n m with Some v => v | None => d end) names).
Proof.
  intros H. apply seqM_ok. intros n Hn. destruct (H n Hn) as [v E]. unfold sat. rewrite E. reflexivity.
Qed.
Lemma getValues_missing {V} (m : smap V) names n : In n names -> sfind n m = None ->
  getValues m names = Throw std_out_of_range.
Proof.
  unfold getValues, mapM. induction names as [|x names IH]; intros Hn Hm; [contradiction|]. cbn [map seqM].
  destruct (sat x m) as [v|e| | |] eqn:E; unfold sat in E; destruct (sfind x m) eqn:Ex; try discriminate.
  - cbn [bind]. destruct Hn as [->|Hn]; [congruence|]. rewrite IH by assumption. reflexivity.
  - injection E as <-. reflexivity.
Qed.

Lemma fill_map_pkg h m w : h_reach h ->
  ((forall n, In n (names_of h) -> exists v, sfind n m = Some v) ->
    exists vals, Forall2 (fun n v => sfind n m = Some v) (names_of h) vals /\ fill_map h m w = fill h vals w /\
      snd (fill h vals w) = Ok tt) /\
  ((exists n, In n (names_of h) /\ sfind n m = None) -> fill_map h m w = (h, Throw NotFoundError)).
Proof.
  intros R. pose proof (h_reach_ok h R) as Hok. pose proof Hok as [Hac _].
  assert (En : acNames (hAxes h) = names_of h) by apply Hac. split.
  - intros H. exists (map (fun n => match sfind n m with Some v => v | None => 0 end) (names_of h)).
    split; [|].
    + clear -H. induction (names_of h) as [|n l IH]; cbn [map]; constructor.
      * destruct (H n) as [v E]; [now left|]. rewrite E. reflexivity.
      * apply IH. intros x Hx. apply H. now right.
    + destruct (fill_ok h (map (fun n => match sfind n m with Some v => v | None => 0 end) (names_of h)) w Hok) as [b [Eb [Hb Ef]]].
      { rewrite map_length. unfold names_of. rewrite map_length. symmetry. now apply h_ok_ndims. }
      destruct (add_at_ok h b w Hok Hb) as [h' [E' _]].
      unfold fill_map. rewrite En, (getValues_ok m 0) by exact H. rewrite Ef, E'. auto.
  - intros [n [Hn Hm]]. unfold fill_map. rewrite En, (getValues_missing m _ n Hn Hm). reflexivity.
Qed.

Lemma bin_access_pkg h b v : h_reach h ->
  ((b < hNBins h)%nat ->
     getBinContent h b = Ok (cont h b) /\
     (exists h', setBinContent h b v = (h', Ok tt) /\ same_axes h' h /\
        forall i, cont h' i = if Nat.eqb i b then v else cont h i) /\
     (exists h', addBinContent h b v = (h', Ok tt) /\ same_axes h' h /\
        forall i, cont h' i = if Nat.eqb i b then cont h i + v else cont h i)) /\
  ((hNBins h < b)%nat -> getBinContent h b = Throw NotFoundError /\
     setBinContent h b v = (h, Throw NotFoundError) /\ addBinContent h b v = (h, Throw NotFoundError)).
Proof.
  intros R. pose proof (h_reach_ok h R) as Hok. pose proof Hok as [_ [_ [_ [_ Hl]]]].
  unfold getBinContent, setBinContent, addBinContent. split; intros Hb.
  - destruct (Nat.ltb_spec (hNBins h) b); [lia|]. split; [apply vidx_nth; lia|]. split.
    + destruct (put_ok h b v Hok Hb) as [h' [E [SS N]]]. exists h'. split; [exact E|]. split; [now apply same_shape_axes|exact N].
    + destruct (add_at_ok h b v Hok Hb) as [h' [E [SS N]]]. exists h'. split; [exact E|]. split; [now apply same_shape_axes|].
      intros i. rewrite N. destruct (Nat.eqb i b); [reflexivity|]. ring.
  - destruct (Nat.ltb_spec (hNBins h) b); [|lia]. auto.
Qed.
Lemma bin_access_boundary h v : h_reach h ->
  getBinContent h (hNBins h) = UB /\ snd (setBinContent h (hNBins h) v) = UB /\ snd (addBinContent h (hNBins h) v) = UB.
Proof.
  intros R. pose proof (h_reach_ok h R) as Hok. pose proof Hok as [_ [_ [_ [_ Hl]]]].
  unfold getBinContent, setBinContent, addBinContent. destruct (Nat.ltb_spec (hNBins h) (hNBins h)); [lia|].
  split; [apply vidx_oob; lia|]. unfold add_at, put. destruct (Nat.ltb_spec (hNBins h) (List.length (hCont h))); [lia|]. auto.
Qed.

Lemma total_ext h h' (g : nat -> Qc) : hNBins h' = hNBins h -> (forall i, (i < hNBins h)%nat -> cont h' i = g i) ->
  total h' = qsum (map g (seq 0 (hNBins h))).
Proof. intros E N. unfold total. rewrite E. apply qsum_map_ext. intros i Hi. apply in_seq in Hi. apply N. lia. Qed.

Lemma nbins_pos h : h_ok h -> (0 < hNBins h)%nat.
Proof.
  intros Hok. rewrite (h_ok_nbins h Hok). apply prod_pos_all. apply Forall_forall. intros n Hn.
  unfold shape_of in Hn. apply in_map_iff in Hn as [a [<- Ha]]. destruct Hok as [[_ [_ [_ [_ [_ F]]]]] _].
  rewrite Forall_forall in F. apply (built_facts a (F a Ha)).
Qed.

Lemma normalise_ok h : h_ok h -> total h <> 0 ->
  exists h', normalise h = (h', Ok tt) /\ same_shape h h' /\
    (forall i, cont h' i = cont h i / total h) /\ total h' = 1.
Proof.
  intros Hok Hnz. unfold normalise. rewrite (integral_total h Hok).
  destruct (map_bins_ok (fun _ x => qdiv x (total h)) (fun _ x => x / total h) h Hok) as [h' [E [SS N]]].
  { intros i Hi. unfold qdiv. apply qeqb_neq in Hnz. rewrite Hnz. reflexivity. }
  exists h'. split; [exact E|]. split; [exact SS|].
  assert (N' : forall i, cont h' i = cont h i / total h).
  { intros i. rewrite N. destruct (Nat.ltb_spec i (hNBins h)); [reflexivity|].
    assert (cont h i = 0) as ->. { unfold cont. apply nth_overflow. destruct Hok as [_ [_ [_ [_ ->]]]]. assumption. }
    field. exact Hnz. }
  split; [exact N'|].
  rewrite (total_ext h h' (fun i => (/ total h) * cont h i)).
  - rewrite qsum_map_mul. fold (total h). field. exact Hnz.
  - apply SS.
  - intros i _. rewrite N'. field. exact Hnz.
Qed.

Lemma hist_ext h h' : same_shape h h' -> (forall i, cont h' i = cont h i) -> h' = h.
Proof.
  intros [A [B [C D]]] N. destruct h as [a c n d], h' as [a' c' n' d']. cbn in *. subst. f_equal.
  apply nth_ext with (d := 0) (d' := 0); [exact D|]. intros i _. apply N.
Qed.

Lemma normalise_pkg h : h_reach h ->
  (total h <> 0 ->
    exists h', normalise h = (h', Ok tt) /\ same_axes h' h /\ integral h' = Ok 1 /\
      (forall i j, cont h' i * cont h j = cont h' j * cont h i) /\
      (forall i, cont h' i * total h = cont h i) /\
      normalise h' = (h', Ok tt)) /\
  (total h = 0 -> normalise h = (h, NonFinite)).
Proof.
  intros R. pose proof (h_reach_ok h R) as Hok. split.
  - intros Hnz. destruct (normalise_ok h Hok Hnz) as [h' [E [SS [N T]]]].
    assert (Hok' : h_ok h') by (eapply same_shape_ok; eassumption).
    exists h'. split; [exact E|]. split; [now apply same_shape_axes|]. split; [rewrite (integral_total h' Hok'), T; reflexivity|].
    split; [intros i j; rewrite !N; field; exact Hnz|]. split; [intros i; rewrite N; field; exact Hnz|].
    destruct (normalise_ok h' Hok') as [h2 [E2 [SS2 [N2 _]]]]; [rewrite T; discriminate|].
    rewrite E2. f_equal. apply hist_ext; [exact SS2|]. intros i. rewrite N2, T. field. discriminate.
  - intros Hz. unfold normalise. rewrite (integral_total h Hok), Hz. unfold map_bins.
    pose proof (nbins_pos h Hok) as Hp. destruct Hok as [_ [_ [_ [_ Hl]]]].
    destruct (hNBins h) as [|n]; [lia|]. cbn [seq foldM]. rewrite (vidx_nth _ _ 0) by lia. cbn [bind].
    unfold qdiv. rewrite qeqb_refl. reflexivity.
Qed.

Lemma marginalise_pkg h names : h_reach h ->
  (names <> [] -> NoDup names -> incl names (names_of h) ->
   exists m, marginalise h names = Ok m /\
     Forall2 (fun n a => In a (acAxes (hAxes h)) /\ aName a = n) names (acAxes (hAxes m)) /\
     (forall j, in_shape (shape_of m) j ->
        cont_at m j = qsum (map (cont_at h)
          (filter (fun idx => nlist_eqb (project (names_of h) idx names) j) (tuples (shape_of h))))) /\
     integral h = Ok (total h) /\ integral m = Ok (total h)) /\
  (~ incl names (names_of h) -> marginalise h names = Throw NotFoundError) /\
  (incl names (names_of h) -> ~ NoDup names -> marginalise h names = Throw ValueError).
Proof.
  intros R. pose proof (h_reach_ok h R) as Hok. split; [|split].
  - intros Hne Hnd Hin. destruct (marginalise_ok h names Hok Hne Hnd Hin) as [m [E [Hm [Ha [N T]]]]].
    exists m. split; [exact E|]. split; [|split; [exact N|]].
    + rewrite Ha. clear -Hin Hok. induction names as [|n l IH]; cbn [map]; constructor.
      * destruct (named_facts (hAxes h) n) as [_ [_ [_ [H1 [H2 _]]]]]; [apply Hok|apply Hin; now left|].
        split; [eapply nth_error_In; exact H1|exact H2].
      * apply IH. intros x Hx. apply Hin. now right.
    + split; [now apply integral_total|]. rewrite (integral_total m Hm), T. reflexivity.
  - intros H. now apply marginalise_unknown.
  - intros H1 H2. now apply marginalise_dup.
Qed.
Lemma marginalise_none_pkg h : h_reach h -> marginalise h [] = UB.
Proof. intros R. pose proof (h_reach_ok h R) as Hok. apply marginalise_nil; [exact Hok|now apply nbins_pos]. Qed.

(** slices *)
Lemma slice_gen_pkg h fixed : h_reach h -> swf fixed -> incl (skeys fixed) (names_of h) ->
  (List.length fixed < hNDims h)%nat ->
  (forall a b, In a (acAxes (hAxes h)) -> sfind (aName a) fixed = Some b -> (b < aNBins a)%nat) ->
  let free := filter (fun n => negb (shas n fixed)) (names_of h) in
  exists s, getSlice h fixed = Ok s /\
    Forall2 (fun n a => In a (acAxes (hAxes h)) /\ aName a = n) free (acAxes (hAxes s)) /\
    forall idx, in_shape (shape_of h) idx -> (forall n b, sfind n fixed = Some b -> coord (names_of h) idx n = b) ->
      cont s (rowmajor (rev (shape_of s)) (rev (project (names_of h) idx free))) = cont_at h idx.
Proof.
  intros R Hwf Hin Hlt Hr free. pose proof (h_reach_ok h R) as Hok.
  destruct (slice_ok h fixed Hok Hwf Hin Hlt) as [s [E [Hs [Ha N]]]].
  - intros n b Hf. assert (Hn : In n (names_of h)) by (apply Hin, sfind_in; eauto).
    destruct (named_facts (hAxes h) n (proj1 Hok) Hn) as [_ [_ [_ [H1 [H2 _]]]]].
    apply Hr; [eapply nth_error_In; exact H1|]. rewrite H2. exact Hf.
  - exists s. split; [exact E|]. split; [|exact N]. rewrite Ha. unfold free_names. fold free.
    assert (Hf : incl free (names_of h)) by (intros x Hx; apply filter_In in Hx; apply Hx).
    clear -Hf Hok. induction free as [|n l IH]; cbn [map]; constructor.
    + destruct (named_facts (hAxes h) n) as [_ [_ [_ [H1 [H2 _]]]]]; [apply Hok|apply Hf; now left|].
      split; [eapply nth_error_In; exact H1|exact H2].
    + apply IH. intros x Hx. apply Hf. now right.
Qed.

Lemma slice_1d_pkg h fixed : h_reach h -> swf fixed -> incl (skeys fixed) (names_of h) ->
  hNDims h = S (List.length fixed) ->
  (forall a b, In a (acAxes (hAxes h)) -> sfind (aName a) fixed = Some b -> (b < aNBins a)%nat) ->
  exists s n a, getSlice h fixed = Ok s /\ acAxes (hAxes s) = [a] /\ In a (acAxes (hAxes h)) /\ aName a = n /\
    sfind n fixed = None /\
    forall idx, in_shape (shape_of h) idx -> (forall m b, sfind m fixed = Some b -> coord (names_of h) idx m = b) ->
      cont s (coord (names_of h) idx n) = cont_at h idx.
Proof.
  intros R Hwf Hin Hd Hr. pose proof (h_reach_ok h R) as Hok.
  destruct (slice_gen_pkg h fixed R Hwf Hin ltac:(lia) Hr) as [s [E [F N]]].
  set (free := filter (fun n => negb (shas n fixed)) (names_of h)) in *.
  assert (Hl : List.length free = 1%nat).
  { assert (Hnd : NoDup (names_of h)) by apply Hok.
    assert (Hp : (List.length free + List.length fixed = List.length (names_of h))%nat).
    { assert (Hk : NoDup (skeys fixed)) by (apply swf_nodup; exact Hwf).
      assert (Hperm : Permutation.Permutation (names_of h) (free ++ skeys fixed)).
      { apply Permutation.NoDup_Permutation; [exact Hnd| |].
        - 
          assert (G : forall (a b : list string), NoDup a -> NoDup b -> (forall x, In x a -> ~ In x b) -> NoDup (a ++ b)).
          { clear. intros a b Ha Hb Hd. induction Ha as [|x l Hx Hl IH]; cbn; [exact Hb|]. constructor.
            - rewrite in_app_iff. intros [C|C]; [contradiction|]. apply (Hd x); [now left|exact C].
            - apply IH. intros y Hy. apply Hd. now right. }
          apply G; [apply NoDup_filter; exact Hnd|exact Hk|]. intros x Hx C. apply filter_In in Hx as [_ Hx].
          apply sfind_in in C as [v C]. unfold shas in Hx. rewrite C in Hx. discriminate.
        - intros x. rewrite in_app_iff. split.
          + intros Hx. destruct (sfind x fixed) as [v|] eqn:Ex.
            * right. apply sfind_in. eauto.
            * left. apply filter_In. split; [exact Hx|]. unfold shas. rewrite Ex. reflexivity.
          + intros [Hx|Hx]; [apply filter_In in Hx; apply Hx|apply Hin, Hx]. }
      apply Permutation.Permutation_length in Hperm. rewrite app_length in Hperm. unfold skeys in Hperm. rewrite map_length in Hperm. lia. }
    unfold names_of in Hp. rewrite map_length in Hp. rewrite (h_ok_ndims h Hok) in Hd. lia. }
  destruct free as [|n [|? ?]] eqn:Ef; cbn in Hl; try lia.
  inversion F as [|? a ? l [Ha1 Ha2] F' E1 E2]; subst. inversion F'; subst.
  exists s, (aName a), a. split; [exact E|]. split; [auto|]. split; [exact Ha1|]. split; [reflexivity|]. split.
  - assert (Hx : In (aName a) (filter (fun n => negb (shas n fixed)) (names_of h))) by (fold free; rewrite Ef; now left).
    apply filter_In in Hx as [_ Hx]. unfold shas in Hx. destruct (sfind (aName a) fixed); [discriminate|reflexivity].
  - intros idx H1 H2. rewrite <- (N idx H1 H2). f_equal. unfold shape_of. rewrite <- E2. cbn. lia.
Qed.

Lemma slice_errors_pkg h fixed : h_reach h -> swf fixed ->
  (~ incl (skeys fixed) (names_of h) -> getSlice h fixed = Throw NotFoundError) /\
  (incl (skeys fixed) (names_of h) -> (hNDims h <= List.length fixed)%nat -> getSlice h fixed = Throw DimensionError).
Proof.
  intros R Hwf. pose proof (h_reach_ok h R) as Hok. assert (En : acNames (hAxes h) = names_of h) by apply Hok.
  unfold getSlice. rewrite En. split.
  - intros Hn. assert (E : forall f : smap nat, ~ incl (skeys f) (names_of h) ->
      mapM (fun kv : string * nat => if in_dec string_dec (fst kv) (names_of h) then Ok tt else Throw NotFoundError) f = Throw NotFoundError).
    { clear. unfold mapM. induction f as [|[k v] f IH]; intros H; [exfalso; apply H; intros x []|]. cbn [map seqM fst].
      destruct (in_dec string_dec k (names_of h)); [|reflexivity]. cbn [bind]. rewrite IH; [reflexivity|].
      intros C. apply H. intros x [<-|Hx]; auto. }
    rewrite (E fixed Hn). reflexivity.
  - intros Hin Hle. rewrite (seqM_ok _ (fun _ => tt)).
    + cbn [bind]. destruct (Nat.leb_spec (hNDims h) (List.length fixed)); [reflexivity|lia].
    + intros kv Hkv. destruct (in_dec string_dec (fst kv) (names_of h)) as [|C]; [reflexivity|].
      exfalso. apply C, Hin. unfold skeys. apply in_map. exact Hkv.
Qed.

(** arithmetic *)
Lemma qlist_eqb_eq a b : qlist_eqb a b = true <-> a = b.
Proof.
  revert b. induction a as [|x a IH]; intros [|y b]; cbn; split; try discriminate; auto.
  - rewrite andb_true_iff. intros [H1 H2]. apply qeqb_eq in H1. apply IH in H2. congruence.
  - intros E. injection E as -> ->. rewrite qeqb_refl. cbn. now apply IH.
Qed.
Lemma ac_eqb_eq a b : ac_eqb a b = true <-> Forall2 same_edges (acAxes a) (acAxes b).
Proof.
  unfold ac_eqb. generalize (acAxes a) (acAxes b). intros l. induction l as [|x l IH]; intros [|y m]; cbn; split; intros H;
    try discriminate; try (now inversion H); auto.
  - apply andb_true_iff in H as [H1 H2]. constructor; [|now apply IH]. unfold axis_eqb in H1.
    apply andb_true_iff in H1 as [A B]. apply qlist_eqb_eq in A, B. split; assumption.
  - inversion H as [|? ? ? ? [A B] H2]; subst. apply andb_true_iff. split; [|now apply IH].
    unfold axis_eqb. apply andb_true_iff. split; now apply qlist_eqb_eq.
Qed.
Lemma same_edges_nbins h o : h_ok h -> h_ok o -> Forall2 same_edges (acAxes (hAxes o)) (acAxes (hAxes h)) -> hNBins o = hNBins h.
Proof.
  intros Ho Hh F. rewrite (h_ok_nbins h Ho), (h_ok_nbins o Hh). unfold shape_of. f_equal.
  pose proof Ho as [[_ [_ [_ [_ [_ F1]]]]] _]. pose proof Hh as [[_ [_ [_ [_ [_ F2]]]]] _].
  revert F1 F2. induction F as [|a b l m [E1 E2] F IH]; intros F1 F2; [reflexivity|].
  inversion F1; inversion F2; subst. cbn. f_equal; [|now apply IH].
  destruct (built_facts a) as [_ [L1 _]]; [assumption|]. destruct (built_facts b) as [_ [L2 _]]; [assumption|]. congruence.
Qed.

Lemma pointwise_ok f g h o : h_ok h -> h_ok o -> Forall2 same_edges (acAxes (hAxes o)) (acAxes (hAxes h)) ->
  (forall i, (i < hNBins h)%nat -> f (cont h i) (cont o i) = Ok (g (cont h i) (cont o i))) ->
  exists h', pointwise f h o = (h', Ok tt) /\ same_shape h h' /\
    forall i, (i < hNBins h)%nat -> cont h' i = g (cont h i) (cont o i).
Proof.
  intros Hh Ho F Hf. pose proof (same_edges_nbins h o Hh Ho F) as En.
  unfold pointwise. rewrite (proj2 (ac_eqb_eq _ _) F). cbn [negb].
  destruct (map_bins_ok (fun i x => do y <- getBinContent o i; f x y) (fun i x => g x (cont o i)) h Hh) as [h' [E [SS N]]].
  - intros i Hi. unfold getBinContent. destruct (Nat.ltb_spec (hNBins o) i); [lia|].
    rewrite (vidx_nth _ _ 0) by (destruct Ho as [_ [_ [_ [_ ->]]]]; lia). cbn [bind]. apply Hf. exact Hi.
  - exists h'. split; [exact E|]. split; [exact SS|]. intros i Hi. rewrite N.
    destruct (Nat.ltb_spec i (hNBins h)); [reflexivity|lia].
Qed.
Lemma pointwise_rej f h o : ~ Forall2 same_edges (acAxes (hAxes o)) (acAxes (hAxes h)) -> pointwise f h o = (h, Throw ValueError).
Proof.
  intros H. unfold pointwise. destruct (ac_eqb (hAxes o) (hAxes h)) eqn:E; [|reflexivity].
  exfalso. apply H. now apply ac_eqb_eq.
Qed.

Lemma arith_pkg h o w : h_reach h -> h_reach o ->
  (Forall2 same_edges (acAxes (hAxes o)) (acAxes (hAxes h)) ->
    (exists h', h_add h o w = (h', Ok tt) /\ same_axes h' h /\
       (forall i, (i < hNBins h)%nat -> cont h' i = cont h i + w * cont o i) /\
       integral h = Ok (total h) /\ integral o = Ok (total o) /\ integral h' = Ok (total h + w * total o)) /\
    (exists h', h_multiply h o = (h', Ok tt) /\ same_axes h' h /\
       forall i, (i < hNBins h)%nat -> cont h' i = cont h i * cont o i) /\
    ((forall i, (i < hNBins h)%nat -> cont o i <> 0) ->
      exists h', h_divide h o = (h', Ok tt) /\ same_axes h' h /\
       forall i, (i < hNBins h)%nat -> cont h' i * cont o i = cont h i)) /\
  (~ Forall2 same_edges (acAxes (hAxes o)) (acAxes (hAxes h)) ->
    h_add h o w = (h, Throw ValueError) /\ h_multiply h o = (h, Throw ValueError) /\ h_divide h o = (h, Throw ValueError)).
Proof.
  intros R1 R2. pose proof (h_reach_ok h R1) as Hh. pose proof (h_reach_ok o R2) as Ho. split.
  - intros F. split; [|split].
    + destruct (pointwise_ok (fun x y => Ok (x + y * w)) (fun x y => x + y * w) h o Hh Ho F) as [h' [E [SS N]]]; [reflexivity|].
      exists h'. split; [exact E|]. split; [now apply same_shape_axes|]. split; [intros i Hi; rewrite N by exact Hi; ring|].
      split; [now apply integral_total|]. split; [now apply integral_total|].
      rewrite (integral_total h') by (eapply same_shape_ok; eassumption). f_equal.
      rewrite (total_ext h h' (fun i => cont h i + w * cont o i)).
      * rewrite qsum_map_add, qsum_map_mul. unfold total. rewrite (same_edges_nbins h o Hh Ho F). reflexivity.
      * apply SS.
      * intros i Hi. rewrite N by exact Hi. ring.
    + destruct (pointwise_ok (fun x y => Ok (x * y)) (fun x y => x * y) h o Hh Ho F) as [h' [E [SS N]]]; [reflexivity|].
      exists h'. split; [exact E|]. split; [now apply same_shape_axes|exact N].
    + intros Hnz. destruct (pointwise_ok qdiv (fun x y => x / y) h o Hh Ho F) as [h' [E [SS N]]].
      { intros i Hi. unfold qdiv. specialize (Hnz i Hi). apply qeqb_neq in Hnz. rewrite Hnz. reflexivity. }
      exists h'. split; [exact E|]. split; [now apply same_shape_axes|]. intros i Hi. rewrite N by exact Hi. field. now apply Hnz.
  - intros F. unfold h_add, h_multiply, h_divide. rewrite !pointwise_rej by exact F. auto.
Qed.

Lemma scale_pkg h k : h_reach h ->
  (exists h', scale h k = (h', Ok tt) /\ same_axes h' h /\ (forall i, cont h' i = k * cont h i) /\
     integral h' = Ok (k * total h)) /\
  (exists h', empty_bins h = (h', Ok tt) /\ same_axes h' h /\ (forall i, cont h' i = 0) /\ integral h' = Ok 0) /\
  (same_axes (addPadding h k) h /\
   forall i, (i < hNBins h)%nat -> cont (addPadding h k) i = if qeqb (cont h i) 0 then k else cont h i).
Proof.
  intros R. pose proof (h_reach_ok h R) as Hh. split; [|split].
  - destruct (map_bins_ok (fun _ x => Ok (x * k)) (fun _ x => x * k) h Hh) as [h' [E [SS N]]]; [reflexivity|].
    assert (N' : forall i, cont h' i = k * cont h i).
    { intros i. rewrite N. destruct (Nat.ltb_spec i (hNBins h)); [ring|].
      assert (cont h i = 0) as ->. { unfold cont. apply nth_overflow. destruct Hh as [_ [_ [_ [_ ->]]]]. assumption. } ring. }
    exists h'. split; [exact E|]. split; [now apply same_shape_axes|]. split; [exact N'|].
    rewrite (integral_total h') by (eapply same_shape_ok; eassumption). f_equal.
    rewrite (total_ext h h' (fun i => k * cont h i)); [apply qsum_map_mul|apply SS|intros; apply N'].
  - destruct (map_bins_ok (fun _ _ => Ok 0) (fun _ _ => 0) h Hh) as [h' [E [SS N]]]; [reflexivity|].
    assert (N' : forall i, cont h' i = 0) by (intros i; rewrite N; destruct (Nat.ltb _ _); reflexivity).
    exists h'. split; [exact E|]. split; [now apply same_shape_axes|]. split; [exact N'|].
    rewrite (integral_total h') by (eapply same_shape_ok; eassumption). f_equal. unfold total. apply qsum_map_0. intros; apply N'.
  - split; [repeat split|]. intros i Hi. unfold cont, addPadding; cbn [hCont].
    apply (nth_map2 (fun x => if qeqb x 0 then k else x)). destruct Hh as [_ [_ [_ [_ ->]]]]. exact Hi.
Qed.

(** ranged integral *)
Lemma qsum_sublist_le (f : nat -> Qc) n lo m : (lo + m <= n)%nat -> (forall i, 0 <= f i) ->
  qsum (map f (seq lo m)) <= qsum (map f (seq 0 n)).
Proof.
  intros H Hf. replace n with (lo + (m + (n - lo - m)))%nat by lia.
  rewrite !seq_app, !map_app, !qsum_app. cbn [Nat.add].
  assert (0 <= qsum (map f (seq 0 lo))) by (apply qsum_nonneg; intros x Hx; apply in_map_iff in Hx as [i [<- _]]; apply Hf).
  assert (0 <= qsum (map f (seq (lo + m) (n - lo - m)))) by (apply qsum_nonneg; intros x Hx; apply in_map_iff in Hx as [i [<- _]]; apply Hf).
  qlra.
Qed.
Lemma integral_range_pkg h : h_reach h ->
  (hNDims h <> 1%nat -> forall a b, integral_range h a b = Throw DimensionError) /\
  (hNDims h = 1%nat -> exists ax, acAxes (hAxes h) = [ax] /\ hNBins h = aNBins ax /\ forall mn mx,
     (mx <= mn -> integral_range h mn mx = Ok 0) /\
     (mn < mx -> contiguous ax ->
        (findBin ax mn <= findBin ax mx < hNBins h)%nat /\
        integral_range h mn mx = Ok (qsum (map (cont h) (seq (findBin ax mn) (S (findBin ax mx - findBin ax mn)))))) /\
     (contiguous ax -> (forall i, 0 <= cont h i) -> exists r, integral_range h mn mx = Ok r /\ 0 <= r /\ r <= total h)).
Proof.
  intros R. pose proof (h_reach_ok h R) as Hh. split.
  - intros H a b. unfold integral_range. destruct (Nat.eqb_spec (hNDims h) 1); [contradiction|reflexivity].
  - intros H. destruct (findBin1_ok h 0 Hh H) as [ax [E1 [Hb [_ En]]]]. exists ax. split; [exact E1|]. split; [exact En|].
    intros mn mx.
    assert (G1 : mx <= mn -> integral_range h mn mx = Ok 0).
    { intros Hle. unfold integral_range. rewrite H. cbn [Nat.eqb negb]. apply qleb_le in Hle. rewrite Hle. reflexivity. }
    assert (G2 : mn < mx -> contiguous ax ->
        (findBin ax mn <= findBin ax mx < hNBins h)%nat /\
        integral_range h mn mx = Ok (qsum (map (cont h) (seq (findBin ax mn) (S (findBin ax mx - findBin ax mn)))))).
    { intros Hlt Hc. assert (Hm : (findBin ax mn <= findBin ax mx)%nat) by (apply findBin_mono; auto; qlra).
      pose proof (findBin_lt ax mx Hb) as Hx.
      split; [lia|]. unfold integral_range. rewrite H. cbn [Nat.eqb negb]. apply qleb_gt in Hlt. rewrite Hlt.
      destruct (findBin1_ok h mn Hh H) as [a1 [F1 [_ [F2 _]]]]. destruct (findBin1_ok h mx Hh H) as [a2 [F3 [_ [F4 _]]]].
      rewrite E1 in F1, F3. injection F1 as <-. injection F3 as <-. rewrite F2, F4. cbn [bind].
      rewrite foldM_sum.
      - f_equal. rewrite Qcplus_0_l. f_equal. f_equal. f_equal. lia.
      - intros i Hi. apply in_seq in Hi. destruct Hh as [_ [_ [_ [_ ->]]]]. lia. }
    split; [exact G1|]. split; [exact G2|]. intros Hc Hnn.
    assert (Hnt : 0 <= total h) by (apply qsum_nonneg; intros x Hx; apply in_map_iff in Hx as [i [<- _]]; apply Hnn).
    destruct (qleb_spec mx mn) as [Hle|Hlt].
    + exists 0. split; [now apply G1|]. split; [apply Qcle_refl|exact Hnt].
    + destruct (G2 Hlt Hc) as [[Hlo Hhi] E]. eexists. split; [exact E|]. split.
      * apply qsum_nonneg; intros x Hx; apply in_map_iff in Hx as [i [<- _]]; apply Hnn.
      * apply qsum_sublist_le; [lia|exact Hnn].
Qed.
