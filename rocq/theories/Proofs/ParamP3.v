From Coq Require Import ZArith Sorted.
From Verif Require Import Base.Res Base.Num Base.SMap Model.Axis Model.Hist Model.Param Spec.AxisSpec Spec.HistSpec Spec.ParamSpec
  Proofs.AxisP Proofs.HistP Proofs.HistP4 Proofs.ParamP Proofs.ParamP2.
Local Open Scope Qc_scope.

Lemma index_of_nth ns n i : NoDup ns -> nth_error ns i = Some n -> index_of n ns = Some i.
Proof.
  intros Hnd Hi. pose proof (index_of_spec n ns) as H. destruct (index_of n ns) as [j|].
  - destruct H as [Hj _]. f_equal. apply (proj1 (NoDup_nth_error ns) Hnd j i); [apply nth_error_Some; congruence|congruence].
  - exfalso. apply H. eapply nth_error_In; exact Hi.
Qed.
Lemma sset_add_in k s x : In x (sset_add k s) <-> x = k \/ In x s.
Proof.
  unfold sset_add. rewrite skeys_sset_in. unfold skeys. rewrite map_map. cbn. rewrite map_id. reflexivity.
Qed.
Lemma setnames_in ns : forall s x, In x (fold_left (fun s n => sset_add n s) ns s) <-> In x ns \/ In x s.
Proof.
  induction ns as [|n ns IH]; intros s x; cbn [fold_left]; [cbn; tauto|]. rewrite IH, sset_add_in. cbn. intuition.
Qed.
Lemma c_names_spec ns h x : In x (c_names (CSpec ns h)) <-> In x ns.
Proof. cbn [c_names]. rewrite setnames_in. cbn. tauto. Qed.

Lemma spec_setLoop_ok d ns : forall h i, h_reach h -> (i + List.length ns <= hNBins h)%nat ->
  (forall n, In n ns -> has_key d n) ->
  exists h', spec_setLoop h d i ns = (h', Ok tt) /\ h_reach h' /\ same_axes h' h /\
    (forall j n v, nth_error ns j = Some n -> sfind n d = Some v -> cont h' (i + j) = v) /\
    (forall j, (j < i \/ i + List.length ns <= j)%nat -> cont h' j = cont h j).
Proof.
  induction ns as [|n ns IH]; intros h i HR Hi Hd; cbn [spec_setLoop].
  - exists h. split; [reflexivity|]. split; [exact HR|]. split; [repeat split|]. split; [intros [|j]; discriminate|auto].
  - destruct (Hd n (or_introl eq_refl)) as [v Ev]. rewrite Ev. cbn [List.length] in Hi.
    destruct (proj1 (bin_access_pkg h i v HR)) as [_ [[h1 [E1 [S1 C1]]] _]]; [lia|]. rewrite E1.
    pose proof (hr_setBin h i v HR) as HR1. rewrite E1 in HR1. cbn [fst] in HR1.
    destruct (IH h1 (S i)) as [h2 [E2 [R2 [S2 [C2 K2]]]]]; [exact HR1|destruct S1 as [_ [-> _]]; lia|intros; apply Hd; now right|].
    exists h2. split; [exact E2|]. split; [exact R2|]. split.
    { destruct S1 as [A [B C]], S2 as [A2 [B2 C3]]. repeat split; congruence. }
    split.
    + intros [|j] m w Hj Ew; cbn in Hj.
      * injection Hj as ->. rewrite Nat.add_0_r, K2, C1 by lia. rewrite Nat.eqb_refl. congruence.
      * rewrite <- Nat.add_succ_comm. eapply C2; eauto.
    + intros j Hj. cbn [List.length] in Hj. rewrite K2, C1 by lia. destruct (Nat.eqb_spec j i); [lia|reflexivity].
Qed.
Lemma spec_setLoop_missing d ns : forall h i, h_reach h -> (i + List.length ns <= hNBins h)%nat ->
  (exists n, In n ns /\ ~ has_key d n) -> snd (spec_setLoop h d i ns) = Throw ParameterError.
Proof.
  induction ns as [|n ns IH]; intros h i HR Hi [x [Hx Hk]]; [contradiction|]. cbn [spec_setLoop List.length] in *.
  destruct (sfind n d) as [v|] eqn:Ev; [|reflexivity].
  destruct (proj1 (bin_access_pkg h i v HR)) as [_ [[h1 [E1 [S1 C1]]] _]]; [lia|]. rewrite E1.
  pose proof (hr_setBin h i v HR) as HR1. rewrite E1 in HR1. cbn [fst] in HR1. apply IH; [exact HR1|destruct S1 as [_ [-> _]]; lia|].
  destruct Hx as [->|Hx]; [|eauto]. exfalso. apply Hk. exists v. exact Ev.
Qed.
Lemma spec_setLoop_reach d ns : forall h i, h_reach h -> (i + List.length ns <= hNBins h)%nat ->
  h_reach (fst (spec_setLoop h d i ns)) /\ same_axes (fst (spec_setLoop h d i ns)) h.
Proof.
  induction ns as [|n ns IH]; intros h i HR Hi; cbn [spec_setLoop List.length] in *.
  - split; [exact HR|repeat split].
  - destruct (sfind n d) as [v|]; [|split; [exact HR|repeat split]].
    destruct (proj1 (bin_access_pkg h i v HR)) as [_ [[h1 [E1 [S1 C1]]] _]]; [lia|]. rewrite E1.
    pose proof (hr_setBin h i v HR) as HR1. rewrite E1 in HR1. cbn [fst] in HR1.
    destruct (IH h1 (S i)) as [A B]; [exact HR1|destruct S1 as [_ [-> _]]; lia|]. split; [exact A|].
    destruct S1 as [X [Y Z]], B as [X2 [Y2 Z2]]. repeat split; congruence.
Qed.

Lemma spec_get ns h i n : comp_ok (CSpec ns h) -> nth_error ns i = Some n -> c_get (CSpec ns h) n = Ok (cont h i).
Proof.
  intros [HR [Hnd Hl]] Hi. cbn [c_get]. rewrite (index_of_nth ns n i Hnd Hi).
  apply bin_access_pkg; [exact 0|exact HR|]. rewrite <- Hl. apply nth_error_Some. congruence.
Qed.
Lemma mk_spectral_ok name ac : ac_reach ac -> acAxes ac <> [] -> comp_ok (mk_spectral name ac) /\
  c_count (mk_spectral name ac) = acNBins ac /\
  forall i, (i < acNBins ac)%nat -> c_get (mk_spectral name ac) (name ++ "_bin_" ++ dec i) = Ok 0.
Proof.
  intros H1 H2. assert (OKC : comp_ok (mk_spectral name ac)).
  { split; [now constructor|]. split.
    - apply NoDup_map_inj; [|apply seq_NoDup]. intros x y H. apply append_inj in H. apply (append_inj "_bin_") in H. now apply dec_inj.
    - rewrite map_length, seq_length. cbn. reflexivity. }
  split; [exact OKC|]. split; [reflexivity|]. intros i Hi. unfold mk_spectral in *.
  rewrite (spec_get _ _ i _ OKC).
  - f_equal. now rewrite mk_hist_cont.
  - rewrite nth_error_map, (nth_error_nth' _ 0%nat) by now rewrite seq_length. now rewrite seq_nth.
Qed.

(** what every component guarantees *)
Lemma comp_get c : comp_ok c ->
  (forall n, In n (c_names c) <-> exists v, c_get c n = Ok v) /\ (forall n, ~ In n (c_names c) -> c_get c n = Throw ParameterError).
Proof.
  intros H. destruct c as [nm v|d|p|ns h].
  - cbn. split; intros n; [|intros Hn]; destruct (String.eqb_spec n nm) as [->|Hne].
    + split; eauto.
    + split; [intros [->|[]]; congruence|intros [v' C]; discriminate].
    + exfalso. apply Hn. now left.
    + reflexivity.
  - cbn. split; intros n.
    + rewrite sfind_in. destruct (sfind n d); split; intros [x E]; try discriminate; eauto.
    + intros Hn. apply sfind_not_in in Hn. now rewrite Hn.
  - destruct H as [HR Hu]. cbn. split; intros n; [apply pm_get_in, pm_reach_ok, HR|].
    intros Hn. apply pm_get_unbound. now apply sfind_not_in.
  - split; intros n; [|intros Hn]; rewrite c_names_spec in *.
    + split.
      * intros Hn. apply In_nth_error in Hn as [i Hi]. rewrite (spec_get ns h i n H Hi). eauto.
      * intros [v E]. cbn [c_get] in E. pose proof (index_of_spec n ns) as Hs. destruct (index_of n ns); [|discriminate].
        destruct Hs as [Hs _]. eapply nth_error_In; exact Hs.
    + cbn [c_get]. pose proof (index_of_spec n ns) as Hs. destruct (index_of n ns); [|reflexivity].
      exfalso. apply Hn. destruct Hs as [Hs _]. eapply nth_error_In; exact Hs.
Qed.
Lemma sof_find {V} (l : list (string * V)) : NoDup (map fst l) -> forall m n,
  sfind n (fold_left (fun m kv => sset (fst kv) (snd kv) m) l m) =
  match sfind n l with Some v => Some v | None => sfind n m end.
Proof.
  induction l as [|[k v] l IH]; intros Hnd m n; cbn [fold_left sfind fst snd]; [reflexivity|].
  inversion Hnd as [|? ? Hk Hnd']; subst. rewrite IH by exact Hnd'. destruct (String.eqb_spec n k) as [->|Hne].
  - assert (sfind k l = None) as -> by now apply sfind_not_in. apply sfind_sset_eq.
  - destruct (sfind n l); [reflexivity|]. now apply sfind_sset_neq.
Qed.
Lemma sof_length {V} (l : list (string * V)) : NoDup (map fst l) -> List.length (sof l) = List.length l.
Proof.
  unfold sof. intros Hnd.
  assert (G : forall m, swf m -> (forall k, In k (map fst l) -> sfind k m = None) ->
     List.length (fold_left (fun m kv => sset (fst kv) (snd kv) m) l m) = (List.length l + List.length m)%nat).
  { clear -Hnd. induction l as [|[k v] l IH]; intros m W H; cbn [fold_left fst snd List.length]; [reflexivity|].
    inversion Hnd as [|? ? Hk Hnd']; subst. rewrite IH; [|exact Hnd'|now apply sset_wf|].
    - rewrite sset_length by exact W. unfold shas. rewrite (H k (or_introl eq_refl)). lia.
    - intros x Hx. rewrite sfind_sset_neq; [apply H; now right|]. intros ->. contradiction. }
  rewrite G; [cbn; lia|constructor|reflexivity].
Qed.
Lemma sfind_combine_nth {V} (ns : list string) (vs : list V) : NoDup ns -> List.length ns = List.length vs ->
  forall n v, sfind n (combine ns vs) = Some v <-> exists i, nth_error ns i = Some n /\ nth_error vs i = Some v.
Proof.
  intros Hnd. revert vs. induction Hnd as [|x ns Hx Hnd IH]; intros vs Hl n v; destruct vs as [|y vs]; try discriminate; cbn [combine sfind].
  - split; [discriminate|]. intros [[|i] [C _]]; discriminate.
  - destruct (String.eqb_spec n x) as [->|Hne].
    + split; [intros [= ->]; exists 0%nat; auto|]. intros [[|i] [C1 C2]]; cbn in *; [congruence|]. exfalso. apply Hx. eapply nth_error_In; exact C1.
    + rewrite IH by (cbn in Hl; lia). split; intros [i [C1 C2]]; [exists (S i); auto|]. destruct i as [|i]; cbn in *; [congruence|eauto].
Qed.
Lemma map_fst_combine {A B} (l : list A) (r : list B) : List.length l = List.length r -> map fst (combine l r) = l.
Proof. revert r; induction l as [|x l IH]; intros [|y r] H; cbn in *; try discriminate; [reflexivity|]. f_equal. apply IH. lia. Qed.
Lemma comp_getAll c : comp_ok c -> exists d, c_getAll c = Ok d /\ swf d /\ List.length d = c_count c /\
  forall n v, sfind n d = Some v <-> c_get c n = Ok v.
Proof.
  intros H. destruct c as [nm v|d|p|ns h].
  - exists [(nm, v)]. cbn. split; [reflexivity|]. split; [repeat constructor|]. split; [reflexivity|]. intros n w.
    destruct (String.eqb n nm); split; intros [= ->]; reflexivity.
  - exists d. cbn. repeat split; auto. { now intros ->. } destruct (sfind n d); intros [= ->]; reflexivity.
  - destruct H as [HR Hu]. destruct (pm_getAll_ok p (pm_reach_ok p HR)) as [d [E [W [K F]]]]. exists d. cbn.
    split; [exact E|]. split; [exact W|]. split; [|exact F]. unfold pm_count. rewrite <- (map_length fst (pmPtrs p)), <- (map_length fst d).
    unfold pm_names, skeys in K. now rewrite K.
  - pose proof H as [HR [Hnd Hl]]. pose proof (h_reach_ok h HR) as [_ [_ [_ [_ HC]]]].
    assert (Hlen : List.length ns = List.length (hCont h)) by congruence.
    cbn [c_getAll c_count]. rewrite Hlen, Nat.eqb_refl. exists (sof (combine ns (hCont h))).
    assert (ND : NoDup (map fst (combine ns (hCont h)))) by now rewrite map_fst_combine.
    split; [reflexivity|]. split; [apply sof_wf|]. split.
    + rewrite sof_length by exact ND. rewrite combine_length. lia.
    + intros n v. unfold sof. rewrite sof_find by exact ND. change (sfind n (@sempty Qc)) with (@None Qc).
      assert (EQ : match sfind n (combine ns (hCont h)) with Some v0 => Some v0 | None => None end = sfind n (combine ns (hCont h))) by now destruct (sfind n (combine ns (hCont h))).
      rewrite EQ, sfind_combine_nth by auto. split.
      * intros [i [A B]]. rewrite (spec_get ns h i n H A). unfold cont. now rewrite (nth_error_nth _ _ _ B).
      * intros G. assert (Hin : In n ns) by (apply (c_names_spec ns h), comp_get; eauto). apply In_nth_error in Hin as [i Hi].
        exists i. split; [exact Hi|]. rewrite (spec_get ns h i n H Hi) in G. injection G as <-. unfold cont. apply nth_error_nth'.
        rewrite <- Hlen. apply nth_error_Some. congruence.
Qed.

Lemma fold_set_find (d : smap Qc) : swf d -> forall (m : smap Qc) n,
  sfind n (fold_left (fun m kv => sset (fst kv) (snd kv) m) d m) = match sfind n d with Some v => Some v | None => sfind n m end.
Proof. intros W m n. apply sof_find. now apply swf_nodup in W. Qed.

(** a successful SetParameters *)
Lemma comp_setAll c d c' : comp_ok c -> swf d -> c_setAll c d = (c', Ok tt) ->
  comp_ok c' /\ (forall n v, In n (c_names c) -> sfind n d = Some v -> c_get c' n = Ok v) /\
  (forall n, In n (c_names c) -> In n (c_names c')).
Proof.
  intros H Wd E. destruct c as [nm v|d0|p|ns h]; cbn [c_setAll] in E.
  - destruct (sfind nm d) as [w|] eqn:Ew; [|discriminate]. injection E as <-. cbn. split; [exact I|]. split; [|auto].
    intros n x [<-|[]] Hx. rewrite String.eqb_refl. congruence.
  - injection E as <-. cbn [comp_ok c_get c_names]. split; [apply sof_gen_wf; exact H|]. split.
    + intros n v Hn Hv. rewrite fold_set_find by exact Wd. now rewrite Hv.
    + intros n Hn. apply sfind_in. rewrite fold_set_find by exact Wd. apply sfind_in in Hn as [w ->]. destruct (sfind n d); eauto.
  - destruct H as [HR Hu]. destruct (pm_setAll p d) as [p' r] eqn:Ep. injection E as <- ->.
    destruct (first_missing d (pm_names p)) as [A|[pre [k [post [E [A B]]]]]].
    + destruct (proj1 (setAll_pkg p d HR Hu) A) as [p2 [E2 [N [U [G _]]]]]. rewrite Ep in E2. injection E2 as <-. cbn.
      split; [split; [|exact U]|]. { pose proof (pr_step p (PSetAll d) HR) as R. cbn [pm_step] in R. rewrite Ep in R. exact R. }
      split; [exact G|]. intros n Hn. now rewrite N.
    + exfalso. destruct (pm_setAll_missing p d pre k post (pm_reach_ok p HR) E A B) as [p2 [E2 _]]. congruence.
  - destruct H as [HR [Hnd Hl]]. destruct (spec_setLoop h d 0 ns) as [h' r] eqn:Es. injection E as <- ->.
    destruct (first_missing d ns) as [A|[pre [k [post [E [A B]]]]]].
    + destruct (spec_setLoop_ok d ns h 0 HR) as [h2 [E2 [R2 [S2 [C2 _]]]]]; [lia|exact A|]. rewrite Es in E2. injection E2 as <-.
      assert (OK' : comp_ok (CSpec ns h')) by (split; [exact R2|split; [exact Hnd|destruct S2 as [_ [-> _]]; exact Hl]]).
      split; [exact OK'|]. split; [|intros n; rewrite !c_names_spec; auto].
      intros n v Hn Hv. apply c_names_spec in Hn. apply In_nth_error in Hn as [i Hi]. rewrite (spec_get ns h' i n OK' Hi). f_equal.
      exact (C2 i n v Hi Hv).
    + exfalso. assert (snd (spec_setLoop h d 0 ns) = Throw ParameterError) as C; [|rewrite Es in C; discriminate].
      apply spec_setLoop_missing; [exact HR|lia|]. exists k. split; [rewrite E; apply in_or_app; right; now left|]. intros [w W]. congruence.
Qed.
(** C18: the components other than the dictionary-based ones *)
Lemma own_params_pkg c d : comp_ok c -> ~ is_dict c -> swf d ->
  ((forall n, In n (c_names c) -> has_key d n) -> exists c', c_setAll c d = (c', Ok tt) /\ comp_ok c' /\
     (forall n, In n (c_names c') <-> In n (c_names c)) /\
     forall n v, In n (c_names c) -> sfind n d = Some v -> c_get c' n = Ok v) /\
  ((exists n, In n (c_names c) /\ ~ has_key d n) -> snd (c_setAll c d) = Throw ParameterError /\
     forall n, In n (c_names (fst (c_setAll c d))) <-> In n (c_names c)).
Proof.
  intros H Hd Wd.
  assert (NM : forall c', c' = fst (c_setAll c d) -> forall n, In n (c_names c') <-> In n (c_names c)).
  { intros c' -> n. destruct c as [nm v|d0|p|ns h]; cbn [c_setAll].
    - destruct (sfind nm d); reflexivity.
    - exfalso; apply Hd; exact I.
    - unfold pm_setAll. destruct (pm_setLoop _ _ _ _). reflexivity.
    - destruct (spec_setLoop h d 0 ns). reflexivity. }
  split.
  - intros Hk. assert (exists c', c_setAll c d = (c', Ok tt)) as [c' E].
    { destruct c as [nm v|d0|p|ns h]; cbn [c_setAll].
      - destruct (Hk nm (or_introl eq_refl)) as [w ->]. eauto.
      - exfalso; apply Hd; exact I.
      - destruct H as [HR Hu]. destruct (proj1 (setAll_pkg p d HR Hu) Hk) as [p' [-> _]]. eauto.
      - destruct H as [HR [Hnd Hl]]. destruct (spec_setLoop_ok d ns h 0 HR) as [h' [-> _]]; [lia| |eauto].
        intros n Hn. apply Hk. now apply c_names_spec. }
    exists c'. split; [exact E|]. destruct (comp_setAll c d c' H Wd E) as [A [B _]]. split; [exact A|]. split; [|exact B].
    apply NM. now rewrite E.
  - intros [n [Hn Hk]]. split; [|apply NM; reflexivity]. destruct c as [nm v|d0|p|ns h]; cbn [c_setAll].
    + destruct Hn as [<-|[]]. destruct (sfind nm d) eqn:E; [exfalso; apply Hk; eexists; exact E|reflexivity].
    + exfalso; apply Hd; exact I.
    + destruct H as [HR Hu]. pose proof (proj2 (setAll_pkg p d HR Hu)) as A. destruct (pm_setAll p d) as [p' r]. cbn in *. apply A. eauto.
    + destruct H as [HR [Hnd Hl]]. pose proof (spec_setLoop_missing d ns h 0 HR) as A. destruct (spec_setLoop h d 0 ns) as [h' r]. cbn in *.
      apply A; [lia|]. exists n. split; [now apply (c_names_spec ns h)|exact Hk].
Qed.
(** what the dictionary-based components do *)
Lemma dict_params_pkg d0 d : swf d0 -> swf d -> exists c', c_setAll (CDict d0) d = (c', Ok tt) /\
  (forall n, In n (c_names c') <-> In n (c_names (CDict d0)) \/ has_key d n) /\
  (forall n v, sfind n d = Some v -> c_get c' n = Ok v) /\
  (forall n, ~ has_key d n -> c_get c' n = c_get (CDict d0) n).
Proof.
  intros W0 Wd. cbn [c_setAll]. eexists. split; [reflexivity|]. cbn [c_names c_get]. split; [|split].
  - intros n. rewrite !sfind_in. rewrite fold_set_find by exact Wd. unfold has_key.
    destruct (sfind n d); split; intros; eauto. destruct H as [H|[v C]]; [exact H|discriminate].
  - intros n v Hv. rewrite fold_set_find by exact Wd. now rewrite Hv.
  - intros n Hn. rewrite fold_set_find by exact Wd. unfold has_key in Hn. destruct (sfind n d) as [v|]; [exfalso; eauto|reflexivity].
Qed.

(** rename *)
Lemma rename_pkg c o n : comp_ok c ->
  (In o (c_names c) -> ~ In n (c_names c) -> exists c', c_rename c o n = (c', Ok tt) /\ comp_ok c' /\
     c_get c' n = c_get c o /\ c_get c' o = Throw ParameterError /\
     (forall m, m <> o -> m <> n -> c_get c' m = c_get c m) /\ c_count c' = c_count c) /\
  (~ In o (c_names c) -> c_rename c o n = (c, Throw ParameterError)).
Proof.
  intros H. split.
  - intros Ho Hn. assert (Hne : o <> n) by (intros ->; contradiction).
    destruct c as [nm v|d0|p|ns h].
    + destruct Ho as [<-|[]]. cbn. rewrite String.eqb_refl. eexists. split; [reflexivity|]. cbn. rewrite !String.eqb_refl.
      destruct (String.eqb_spec nm n); [contradiction|]. repeat split. intros m H1 H2.
      destruct (String.eqb_spec m n); [contradiction|]. destruct (String.eqb_spec m nm); [contradiction|reflexivity].
    + cbn [c_names] in *. apply sfind_in in Ho as [v Ev]. cbn [c_rename]. rewrite Ev. eexists. split; [reflexivity|].
      cbn [comp_ok c_get c_count]. split; [now apply serase_wf, sset_wf|]. rewrite !sfind_serase, !sfind_sset.
      destruct (String.eqb_spec n o); [congruence|]. rewrite !String.eqb_refl, Ev. split; [reflexivity|]. split; [reflexivity|]. split.
      * intros m H1 H2. rewrite sfind_serase, sfind_sset. destruct (String.eqb_spec m o); [contradiction|]. destruct (String.eqb_spec m n); [contradiction|reflexivity].
      * assert (HL : forall (m : smap Qc) k, swf m -> shas k m = true -> S (List.length (serase k m)) = List.length m).
        { clear. intros m k W H. apply swf_nodup in W. induction m as [|[k' v] t IH]; [discriminate|].
          cbn [serase filter fst]. inversion W as [|? ? Hx Ht]; subst. destruct (String.eqb_spec k k') as [->|Hne]; cbn [negb List.length].
          - f_equal. f_equal. apply filter_all. intros [k2 v2] Hin. cbn.
            destruct (String.eqb_spec k' k2) as [->|]; [|reflexivity]. exfalso. apply Hx. apply in_map_iff. exists (k2, v2). auto.
          - f_equal. apply IH; [exact Ht|]. unfold shas in *. cbn [sfind] in H. destruct (String.eqb_spec k k'); [congruence|exact H]. }
        apply eq_add_S. rewrite HL; [|now apply sset_wf|unfold shas; rewrite sfind_sset; destruct (String.eqb o n); [reflexivity|now rewrite Ev]].
        rewrite sset_length by exact H. unfold shas. apply sfind_not_in in Hn. now rewrite Hn.
    + destruct H as [HR Hu]. apply pm_reach_ok in HR as Hp. cbn [c_names] in *. apply sfind_in in Ho as [l B].
      destruct (pm_rename_ok p o n l Hp B Hn) as [p' [E [M [F C]]]]. cbn [c_rename]. rewrite E. eexists. split; [reflexivity|].
      cbn [comp_ok c_get c_count]. split.
      { split; [|eapply rename_unaliased; eauto]. pose proof (pr_step p (PRename o n) HR) as R. cbn [pm_step] in R. rewrite E in R. exact R. }
      unfold pm_get, sat. rewrite !F, M. destruct (String.eqb_spec n o); [congruence|]. rewrite !String.eqb_refl, B.
      split; [reflexivity|]. split; [reflexivity|]. split; [|exact C]. intros m H1 H2. rewrite F.
      destruct (String.eqb_spec m o); [contradiction|]. destruct (String.eqb_spec m n); [contradiction|reflexivity].
    + pose proof H as [HR [Hnd Hl]]. rewrite c_names_spec in *. apply In_nth_error in Ho as [i Hi]. cbn [c_rename].
      rewrite (index_of_nth ns o i Hnd Hi). eexists. split; [reflexivity|].
      assert (Hil : (i < List.length ns)%nat) by (apply nth_error_Some; congruence).
      assert (OK' : comp_ok (CSpec (upd ns i n) h)).
      { split; [exact HR|]. split; [|now rewrite upd_length]. apply NoDup_nth_error. intros a b Ha. rewrite upd_length in Ha.
        rewrite !nth_error_upd by exact Hil. destruct (Nat.eqb_spec a i), (Nat.eqb_spec b i); try congruence.
        - intros C. exfalso. apply Hn. eapply nth_error_In. symmetry. exact C.
        - intros C. exfalso. apply Hn. eapply nth_error_In. exact C.
        - apply (proj1 (NoDup_nth_error ns) Hnd); exact Ha. }
      split; [exact OK'|]. assert (NE : forall j, nth_error (upd ns i n) j = if Nat.eqb j i then Some n else nth_error ns j) by (intros; now apply nth_error_upd).
      split; [|split; [|split]].
      * rewrite (spec_get _ h i n OK'), (spec_get ns h i o H Hi); [reflexivity|]. rewrite NE, Nat.eqb_refl. reflexivity.
      * apply comp_get; [exact OK'|]. rewrite c_names_spec. intros C. apply In_nth_error in C as [j Hj]. rewrite NE in Hj.
        destruct (Nat.eqb_spec j i); [congruence|]. apply n0. apply (proj1 (NoDup_nth_error ns) Hnd); [apply nth_error_Some; congruence|congruence].
      * intros m H1 H2. destruct (in_dec string_dec m ns) as [Hm|Hm].
        -- apply In_nth_error in Hm as [j Hj]. rewrite (spec_get _ h j m OK'), (spec_get ns h j m H Hj); [reflexivity|].
           rewrite NE. destruct (Nat.eqb_spec j i); [congruence|exact Hj].
        -- rewrite (proj2 (comp_get _ OK')), (proj2 (comp_get _ H)); [reflexivity| |]; rewrite c_names_spec; [exact Hm|].
           intros C. apply In_nth_error in C as [j Hj]. rewrite NE in Hj. destruct (Nat.eqb_spec j i); [congruence|]. apply Hm. eapply nth_error_In; exact Hj.
      * reflexivity.
  - intros Ho. destruct c as [nm v|d0|p|ns h].
    + cbn in *. destruct (String.eqb_spec o nm) as [->|]; [exfalso; apply Ho; now left|reflexivity].
    + cbn in *. apply sfind_not_in in Ho. now rewrite Ho.
    + cbn in *. apply sfind_not_in in Ho. unfold pm_rename. now rewrite Ho.
    + rewrite c_names_spec in Ho. cbn. pose proof (index_of_spec o ns) as Hs. destruct (index_of o ns); [|reflexivity].
      exfalso. apply Ho. destruct Hs as [Hs _]. eapply nth_error_In; exact Hs.
Qed.
Lemma rename_collision_pkg c o n : is_pm c -> In n (c_names c) -> c_rename c o n = (c, Throw ParameterError).
Proof.
  destruct c; try contradiction. cbn. intros _ Hn. apply sfind_in in Hn as [l B]. unfold pm_rename, shas. rewrite B.
  destruct (sfind o (pmPtrs p)); reflexivity.
Qed.

(** C19 *)
Lemma spectral_pkg ns h : comp_ok (CSpec ns h) ->
  (forall i n, nth_error ns i = Some n -> c_get (CSpec ns h) n = Ok (cont h i)) /\
  (forall d, (forall n, In n ns -> has_key d n) -> exists h', c_setAll (CSpec ns h) d = (CSpec ns h', Ok tt) /\ same_axes h' h /\
     forall i n v, nth_error ns i = Some n -> sfind n d = Some v -> cont h' i = v) /\
  (forall d, (exists n, In n ns /\ ~ has_key d n) -> exists h', c_setAll (CSpec ns h) d = (CSpec ns h', Throw ParameterError)).
Proof.
  intros H. pose proof H as [HR [Hnd Hl]]. split; [|split].
  - intros i n. now apply spec_get.
  - intros d Hd. destruct (spec_setLoop_ok d ns h 0 HR) as [h' [E [R [S1 [C _]]]]]; [lia|exact Hd|]. exists h'. cbn [c_setAll]. rewrite E.
    split; [reflexivity|]. split; [exact S1|]. intros i n v. apply C.
  - intros d Hd. pose proof (spec_setLoop_missing d ns h 0 HR) as A. cbn [c_setAll]. destruct (spec_setLoop h d 0 ns) as [h' r]. cbn in A.
    exists h'. f_equal. apply A; [lia|exact Hd].
Qed.
Lemma spectral_set_pkg ns h n v : comp_ok (CSpec ns h) -> In n ns ->
  (exists ns', c_set (CSpec ns h) n v = (CSpec ns' h, Ok tt)) \/ c_set (CSpec ns h) n v = (CSpec ns h, UB).
Proof.
  intros [HR [Hnd Hl]] Hn. apply In_nth_error in Hn as [i Hi]. cbn [c_set]. rewrite (index_of_nth ns n i Hnd Hi).
  unfold char_name. destruct (_ && _); [left; eexists; reflexivity|now right].
Qed.

(** C20 *)
Lemma comp_setAll_total c d : comp_ok c -> snd (c_setAll c d) = Ok tt \/ snd (c_setAll c d) = Throw ParameterError.
Proof.
  intros H. destruct c as [nm v|d0|p|ns h]; cbn [c_setAll].
  - destruct (sfind nm d); auto.
  - auto.
  - destruct H as [HR Hu]. destruct (first_missing d (pm_names p)) as [A|[pre [k [post [E [A B]]]]]].
    + destruct (proj1 (setAll_pkg p d HR Hu) A) as [p' [-> _]]. auto.
    + destruct (pm_setAll_missing p d pre k post (pm_reach_ok p HR) E A B) as [p' [-> _]]. auto.
  - destruct H as [HR [Hnd Hl]]. destruct (first_missing d ns) as [A|[pre [k [post [E [A B]]]]]].
    + destruct (spec_setLoop_ok d ns h 0 HR) as [h' [-> _]]; [lia|exact A|auto].
    + assert (snd (spec_setLoop h d 0 ns) = Throw ParameterError) as C.
      { apply spec_setLoop_missing; [exact HR|lia|]. exists k. split; [rewrite E; apply in_or_app; right; now left|]. intros [w W]. congruence. }
      destruct (spec_setLoop h d 0 ns) as [h' r']. cbn in *. auto.
Qed.
Lemma cm_set_pkg cs d : Forall comp_ok cs -> swf d -> d <> [] ->
  (forall cs', cm_setAll cs d = (cs', Ok tt) <-> Forall2 (fun c c' => c_setAll c d = (c', Ok tt)) cs cs') /\
  (forall cs', cm_setAll cs d = (cs', Ok tt) -> forall i c c' n v, nth_error cs i = Some c -> nth_error cs' i = Some c' ->
     In n (c_names c) -> sfind n d = Some v -> c_get c' n = Ok v) /\
  (forall n, (exists c, In c cs /\ ~ is_dict c /\ In n (c_names c)) -> ~ has_key d n -> snd (cm_setAll cs d) = Throw ParameterError).
Proof.
  intros H Wd Hne. assert (ED : cm_setAll cs d = cm_setLoop cs d) by (unfold cm_setAll; destruct d; [contradiction|reflexivity]).
  assert (F : forall cs', cm_setLoop cs d = (cs', Ok tt) <-> Forall2 (fun c c' => c_setAll c d = (c', Ok tt)) cs cs').
  { clear H ED. induction cs as [|c cs IH]; intros cs'; cbn [cm_setLoop].
    - split; [intros [= <-]; constructor|]. intros F. inversion F. reflexivity.
    - split.
      + intros E. destruct (c_setAll c d) as [c' [[]|e| | |]] eqn:Ec; try discriminate. destruct (cm_setLoop cs d) as [t r] eqn:Et.
        injection E as <- ->. constructor; [exact Ec|]. now apply IH.
      + intros F. inversion F as [|? c' ? t' Hc Ht]; subst. rewrite Hc. apply IH in Ht. rewrite Ht. reflexivity. }
  rewrite ED. split; [exact F|]. split.
  - intros cs' E i c c' n v Hc Hc' Hn Hv. apply F in E.
    assert (Hs : c_setAll c d = (c', Ok tt)).
    { clear -E Hc Hc'. revert i Hc Hc'. induction E as [|a b l r Hab E IH]; intros [|i] Hc Hc'; cbn in *; try discriminate; [|eauto].
      injection Hc as <-. injection Hc' as <-. exact Hab. }
    assert (Hok : comp_ok c) by (rewrite Forall_forall in H; apply H; eapply nth_error_In; exact Hc).
    exact (proj1 (proj2 (comp_setAll c d c' Hok Wd Hs)) n v Hn Hv).
  - intros n [c [Hc [Hd Hn]]] Hk. clear F ED. induction H as [|x cs Hx Hcs IH]; [contradiction|]. cbn [cm_setLoop].
    destruct (c_setAll x d) as [x' r] eqn:Ex. destruct Hc as [->|Hc].
    + destruct (proj2 (own_params_pkg c d Hx Hd Wd) (ex_intro _ n (conj Hn Hk))) as [A _]. rewrite Ex in A. cbn in A. subst. reflexivity.
    + pose proof (comp_setAll_total x d Hx) as T. rewrite Ex in T. cbn [snd] in T. destruct T as [->| ->]; [|reflexivity].
      specialize (IH Hc). destruct (cm_setLoop cs d). exact IH.
Qed.
Lemma sinsert_fold (m : smap Qc) : NoDup (skeys m) -> forall pd n, swf pd ->
  swf (fold_left (fun pd kv => sinsert (fst kv) (snd kv) pd) m pd) /\
  sfind n (fold_left (fun pd kv => sinsert (fst kv) (snd kv) pd) m pd) = match sfind n pd with Some v => Some v | None => sfind n m end.
Proof.
  induction m as [|[k v] m IH]; intros Hnd pd n W; cbn [fold_left fst snd].
  - split; [exact W|]. now destruct (sfind n pd).
  - inversion Hnd as [|? ? Hk Hnd']; subst.
    assert (W' : swf (sinsert k v pd)) by (unfold sinsert; destruct (sfind k pd); [exact W|now apply sset_wf]).
    destruct (IH Hnd' (sinsert k v pd) n W') as [A B]. split; [exact A|]. rewrite B. cbn [sfind]. unfold sinsert.
    destruct (sfind k pd) as [w|] eqn:Ek.
    + destruct (sfind n pd) eqn:En; [reflexivity|]. destruct (String.eqb_spec n k); [congruence|reflexivity].
    + rewrite sfind_sset. destruct (String.eqb_spec n k) as [->|]; [now rewrite Ek|]. reflexivity.
Qed.
Lemma cm_get_pkg cs : Forall comp_ok cs -> exists d, cm_getAll cs = Ok d /\ swf d /\
  cm_names cs = Ok (skeys d) /\ cm_total cs = Ok (List.length d) /\
  (forall n v, sfind n d = Some v <-> exists i c, nth_error cs i = Some c /\ c_get c n = Ok v /\
     forall j c', (j < i)%nat -> nth_error cs j = Some c' -> ~ In n (c_names c')) /\
  (forall n, cm_get cs n = match sfind n d with Some v => Ok v | None => Throw ParameterError end).
Proof.
  intros H.
  assert (G : forall cs pd, Forall comp_ok cs -> swf pd -> exists d,
     foldM (fun pd c => bind (c_getAll c) (fun m => Ok (fold_left (fun pd kv => sinsert (fst kv) (snd kv) pd) m pd))) cs pd = Ok d /\ swf d /\
     forall n v, sfind n d = Some v <-> sfind n pd = Some v \/ (sfind n pd = None /\ exists i c, nth_error cs i = Some c /\ c_get c n = Ok v /\
       forall j c', (j < i)%nat -> nth_error cs j = Some c' -> ~ In n (c_names c'))).
  { clear. induction cs as [|c cs IH]; intros pd H W; cbn [foldM].
    - exists pd. split; [reflexivity|]. split; [exact W|]. intros n v. split; [auto|]. intros [E|[_ [i [c [E _]]]]]; [exact E|destruct i; discriminate].
    - inversion H as [|? ? Hc Hcs]; subst. destruct (comp_getAll c Hc) as [m [Em [Wm [_ Fm]]]]. rewrite Em. cbn [bind].
      pose proof (fun n => sinsert_fold m (swf_nodup _ Wm) pd n W) as SF.
      destruct (IH (fold_left (fun pd kv => sinsert (fst kv) (snd kv) pd) m pd) Hcs (proj1 (SF ""%string))) as [d [Ed [Wd Fd]]].
      exists d. split; [exact Ed|]. split; [exact Wd|]. intros n v. rewrite Fd, (proj2 (SF n)).
      destruct (sfind n pd) as [w|] eqn:Ep.
      + split; [intros [?|[C _]]; [now left|discriminate]|]. intros [?|[C _]]; [now left|discriminate].
      + destruct (sfind n m) as [w|] eqn:Ew.
        * apply Fm in Ew. split.
          -- intros [[= ->]|[C _]]; [|discriminate]. right. split; [reflexivity|]. exists 0%nat, c. split; [reflexivity|]. split; [exact Ew|]. intros; lia.
          -- intros [C|[_ [i [c2 [A [B K]]]]]]; [discriminate|]. left. destruct i as [|i]; cbn in A; [injection A as <-; congruence|].
             exfalso. apply (K 0%nat c); [lia|reflexivity|]. apply (proj1 (comp_get c Hc)). eauto.
        * assert (Hno : ~ In n (c_names c)).
          { intros C. apply (proj1 (comp_get c Hc)) in C as [x Hx]. apply Fm in Hx. congruence. }
          split.
          -- intros [C|[_ [i [c2 [A [B K]]]]]]; [discriminate|]. right. split; [reflexivity|]. exists (S i), c2. split; [exact A|]. split; [exact B|].
             intros [|j] c' Hj Hn; cbn in Hn; [injection Hn as <-; exact Hno|]. apply (K j); [lia|exact Hn].
          -- intros [C|[_ [i [c2 [A [B K]]]]]]; [discriminate|]. right. split; [reflexivity|]. destruct i as [|i]; cbn in A.
             ++ injection A as <-. exfalso. apply Hno. apply (proj1 (comp_get c Hc)). eauto.
             ++ exists i, c2. split; [exact A|]. split; [exact B|]. intros j c' Hj Hn. apply (K (S j)); [lia|exact Hn]. }
  destruct (G cs sempty H (sempty_wf)) as [d [E [W F]]]. exists d. unfold cm_names, cm_total, cm_get, rmap. fold (cm_getAll cs) in E. rewrite E.
  split; [reflexivity|]. split; [exact W|]. split; [reflexivity|]. split; [reflexivity|]. split; [|reflexivity].
  intros n v. rewrite F. cbn [sfind sempty]. split; [intros [C|[_ C]]; [discriminate|exact C]|]. intros C. right. auto.
Qed.

(** setting one parameter of a component (all but the spectral one, see C19) *)
Lemma set_one_pkg c n v : comp_ok c ->
  (In n (c_names c) -> ~ is_spec c -> exists c', c_set c n v = (c', Ok tt) /\ comp_ok c' /\ c_names c' = c_names c /\
     c_get c' n = Ok v /\ (forall m, m <> n -> c_get c' m = c_get c m)) /\
  (~ In n (c_names c) -> c_set c n v = (c, Throw ParameterError)).
Proof.
  intros H. split.
  - intros Hn Hs. destruct c as [nm w|d0|p|ns h]; [| | |now elim Hs].
    + cbn in *. destruct Hn as [->|[]]. rewrite String.eqb_refl. eexists. split; [reflexivity|]. cbn. rewrite String.eqb_refl.
      repeat split. intros m Hm. destruct (String.eqb_spec m n); [contradiction|reflexivity].
    + cbn in Hn. pose proof (proj1 (sfind_in _ _) Hn) as [w Hw]. cbn [c_set]. unfold shas. rewrite Hw. eexists. split; [reflexivity|].
      cbn [comp_ok c_names c_get] in *. split; [now apply sset_wf|]. split; [now apply sset_keys_id|]. rewrite sfind_sset_eq. split; [reflexivity|].
      intros m Hm. now rewrite sfind_sset_neq.
    + destruct H as [HR HU]. cbn in Hn. destruct (set_pkg p n v HR HU Hn) as [p' [E [N [U [G _]]]]]. cbn [c_set]. rewrite E. eexists. split; [reflexivity|].
      cbn [comp_ok c_names c_get]. split; [split; [|exact U]|].
      { pose proof (pr_step p (PSet n v) HR) as R. cbn [pm_step] in R. rewrite E in R. exact R. }
      split; [exact N|]. rewrite G, String.eqb_refl. split; [reflexivity|]. intros m Hm. rewrite G. destruct (String.eqb_spec m n); [contradiction|reflexivity].
  - intros Hn. destruct c as [nm w|d0|p|ns h]; cbn [c_set].
    + cbn in Hn. destruct (String.eqb_spec n nm); [exfalso; apply Hn; now left|reflexivity].
    + cbn in Hn. apply sfind_not_in in Hn. unfold shas. now rewrite Hn.
    + cbn in Hn. apply sfind_not_in in Hn. unfold pm_set. now rewrite Hn.
    + rewrite c_names_spec in Hn. pose proof (index_of_spec n ns) as Hx. destruct (index_of n ns); [|reflexivity].
      exfalso. apply Hn. destruct Hx as [Hx _]. eapply nth_error_In; exact Hx.
Qed.
