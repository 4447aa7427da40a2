From Verif Require Import Base.Res Base.Num Base.SMap Model.Axis Model.Event Model.Hist Model.ED Model.Param Model.EDMan Model.Comp Model.EDM
  Spec.AxisSpec Spec.HistSpec Spec.ParamSpec Spec.EDMSpec Proofs.AxisP Proofs.HistP Proofs.HistP2 Proofs.ParamP Proofs.ParamP2 Proofs.ParamP3 Proofs.EDManP Proofs.CompP Proofs.HistToolsP2.
Local Open Scope Qc_scope.
Local Open Scope res_scope.

Definition cnames (held : list dist) : list string := map (fun d => dname (dclone d)) held.
Definition xinv (s : xman) (held : list dist) : Prop :=
  xmDists s = map dclone held /\ xmNDists s = List.length held /\ List.length (xmNorms s) = List.length held /\
  (forall d t, held = d :: t -> xmNDims s = dndims d) /\ pm_ok (xmPm s) /\
  (forall n l, bound (xmPm s) n l -> exists i, l = LElem 0 i) /\ unaliased (xmPm s).
(** names as registered *)
Definition xreg (s : xman) (held : list dist) : Prop :=
  (forall n, In n (xm_names s) <-> In n (cnames held)) /\
  (NoDup (cnames held) -> forall i n, nth_error (cnames held) i = Some n -> bound (xmPm s) n (LElem 0 i)).

Lemma addAll_ptrs c names : forall k p n l,
  sfind n (pmPtrs (fold_left (fun p ni => pm_add p (LElem c (snd ni)) (fst ni)) (combine names (seq k (List.length names))) p)) = Some l ->
  sfind n (pmPtrs p) = Some l \/ exists i, nth_error names i = Some n /\ l = LElem c (k + i).
Proof.
  induction names as [|x names IH]; intros k p n l H; cbn [List.length seq combine fold_left fst snd] in H; [now left|].
  apply IH in H as [H|[i [Hi ->]]].
  - cbn [pm_add pmPtrs] in H. rewrite sfind_sset in H. destruct (String.eqb_spec n x) as [->|Hne].
    + injection H as <-. right. exists 0%nat. split; [reflexivity|]. f_equal. lia.
    + now left.
  - right. exists (S i). split; [exact Hi|]. f_equal. lia.
Qed.
Lemma addAll_names c names : forall k p n, In n names \/ In n (pm_names p) ->
  In n (pm_names (fold_left (fun p ni => pm_add p (LElem c (snd ni)) (fst ni)) (combine names (seq k (List.length names))) p)).
Proof.
  induction names as [|x names IH]; intros k p n H; cbn [List.length seq combine fold_left fst snd]; [destruct H as [[]|H]; exact H|].
  apply IH. cbn in H. destruct H as [[->|H]|H]; [right| |right].
  - unfold pm_names, pm_add; cbn [pmPtrs]. apply skeys_sset_in. now left.
  - now left.
  - unfold pm_names, pm_add; cbn [pmPtrs]. apply skeys_sset_in. now right.
Qed.
Lemma register_ok s held : xmDists s = map dclone held -> xmNDists s = List.length held -> List.length (xmNorms s) = List.length held ->
  (forall d t, held = d :: t -> xmNDims s = dndims d) ->
  exists s', xm_register s = (s', Ok tt) /\ xinv s' held /\ xreg s' held /\ xmNorms s' = xmNorms s.
Proof.
  intros H1 H2 H3 H4. unfold xm_register. cbv zeta. set (p := pm_clear (xmPm s)). unfold pm_addContainer.
  assert (EN : map dname (xmDists s) = cnames held) by (rewrite H1, map_map; reflexivity). rewrite EN.
  change (mCnt (pmMem p) 0%nat) with (xmNorms s). rewrite H3. unfold cnames at 1. rewrite map_length, Nat.eqb_refl.
  assert (Hp : pm_ok p) by (split; [constructor|intros n l B; discriminate]).
  destruct (pm_addAll_gen 0%nat (cnames held) 0 p Hp) as [A [B [C D]]]; [change (mCnt (pmMem p) 0%nat) with (xmNorms s); rewrite H3; unfold cnames; rewrite map_length; lia|].
  fold (pm_addAll p 0%nat (cnames held)) in A, B, C, D. set (p' := pm_addAll p 0%nat (cnames held)) in *.
  assert (HB : forall n l, bound p' n l -> exists i, nth_error (cnames held) i = Some n /\ l = LElem 0 i).
  { intros n l Hb. apply addAll_ptrs in Hb as [Hb|[i [Hi ->]]]; [discriminate|]. exists i. auto. }
  eexists. split; [reflexivity|]. unfold xinv, xreg, xmNorms. cbn [xm_withPm xmPm xmDists xmNDists xmNDims].
  split; [|split; [|rewrite B; reflexivity]].
  - repeat (split; [first [assumption|rewrite B; exact H3]|]). split.
    + intros n l Hb. destruct (HB n l Hb) as [i [_ ->]]. eauto.
    + intros n n' l B1 B2. destruct (HB n l B1) as [i [E1 ->]]. destruct (HB n' _ B2) as [j [E2 E3]]. injection E3 as <-. congruence.
  - split.
    + intros n. unfold xm_names. cbn [xmPm]. split.
      * intros H. apply sfind_in in H as [l Hl]. destruct (HB n l Hl) as [i [E _]]. eapply nth_error_In; eassumption.
      * intros H. apply addAll_names. now left.
    + intros Hnd i n Hi. apply (D Hnd i n Hi).
Qed.

Lemma fitsb_spec held d : fitsb held d = true <-> fits held d.
Proof. destruct held; cbn; [split; auto|]. apply Nat.eqb_eq. Qed.
Lemma ndims_clone d : dndims (dclone d) = dndims d.
Proof. apply clone_pkg. Qed.
Lemma xadd_ok s held d : xinv s held ->
  (fitsb held d = true -> exists s', xm_add s d = (s', Ok tt) /\ xinv s' (held ++ [d]) /\ xreg s' (held ++ [d]) /\ xmNorms s' = xmNorms s ++ [0]) /\
  (fitsb held d = false -> xm_add s d = (s, Throw DimensionError)).
Proof.
  intros [H1 [H2 [H3 [H4 _]]]]. unfold xm_add. cbv zeta. rewrite H1, map_length.
  destruct held as [|d0 held]; cbn [List.length Nat.eqb fitsb].
  - split; [|discriminate]. intros _. cbn [xmNDists xmPm xmDists xmNDims].
    destruct (register_ok (mkXm (pm_setC (xmPm s) 0 (vresize (xmNorms s) (S (xmNDists s)))) (S (xmNDists s)) (dndims d) (xmDists s ++ [dclone d])) [d]) as [s' [E [I [R N]]]].
    + cbn [xmDists]. rewrite H1. reflexivity.
    + cbn. now rewrite H2.
    + unfold xmNorms. cbn -[vresize]. unfold xmNorms. fold (xmNorms s). rewrite H2. rewrite vresize_grow by (rewrite H3; cbn; lia). rewrite app_length, H3. reflexivity.
    + intros d' t [= <- <-]. reflexivity.
    + exists s'. rewrite H1 in E. rewrite <- H1 in E at 1. split; [rewrite <- E; rewrite H1; reflexivity|]. split; [exact I|]. split; [exact R|]. rewrite N. unfold xmNorms at 1. cbn -[vresize]. rewrite H2.
      cbn [List.length]. rewrite vresize_grow by (rewrite H3; cbn; lia). rewrite H3. reflexivity.
  - rewrite (H4 d0 held eq_refl). destruct (Nat.eqb (dndims d) (dndims d0)); cbn [negb]; (split; [|try discriminate]); [|discriminate|reflexivity].
    intros _. cbn [xmNDists xmPm xmDists xmNDims].
    destruct (register_ok (mkXm (pm_setC (xmPm s) 0 (vresize (xmNorms s) (S (xmNDists s)))) (S (xmNDists s)) (xmNDims s) (xmDists s ++ [dclone d])) ((d0 :: held) ++ [d])) as [s' [E [I [R N]]]].
    + cbn [xmDists]. rewrite H1, map_app. reflexivity.
    + cbn [xmNDists]. rewrite H2, app_length. cbn. lia.
    + unfold xmNorms at 1. cbn -[vresize]. rewrite H2. cbn [List.length] in *. rewrite vresize_grow by (rewrite H3; cbn; lia). rewrite app_length, repeat_length, H3, app_length. cbn [List.length]. lia.
    + intros d' t [= <- <-]. cbn. apply (H4 _ _ eq_refl).
    + exists s'. split; [exact E|]. split; [exact I|]. split; [exact R|]. rewrite N. unfold xmNorms at 1. cbn -[vresize]. rewrite H2. cbn [List.length] in *.
      rewrite vresize_grow by (rewrite H3; cbn; lia). rewrite H3. replace (S (S (List.length held)) - S (List.length held))%nat with 1%nat by lia. reflexivity.
Qed.

Lemma xadds_ok l : forall s held, xinv s held ->
  let n := taking held l in
  let k := (List.length n - List.length held)%nat in
  exists s' r, iterS xm_add l s = (s', r) /\ xinv s' n /\ xmNorms s' = xmNorms s ++ repeat 0 k /\ (List.length held <= List.length n)%nat /\
    (xreg s held -> xreg s' n) /\ ((List.length held < List.length n)%nat -> xreg s' n) /\ ((r = Ok tt /\ n = held ++ l) \/ (r = Throw DimensionError /\ n <> held ++ l)).
Proof.
  induction l as [|d l IH]; intros s held I; cbn zeta; cbn [taking iterS].
  - exists s, (Ok tt). rewrite Nat.sub_diag. cbn [repeat]. rewrite !app_nil_r. split; [reflexivity|]. repeat (split; auto); intros; lia.
  - destruct (xadd_ok s held d I) as [A B]. destruct (fitsb held d) eqn:Ef.
    + destruct (A eq_refl) as [s1 [E [I1 [R1 N1]]]]. rewrite E. destruct (IH s1 (held ++ [d]) I1) as [s' [r [E' [I' [N' [L' [R' [R2 C']]]]]]]].
      exists s', r. split; [exact E'|]. split; [exact I'|]. rewrite app_length in *. cbn [List.length] in *. split; [|split; [lia|split; [auto|split; [auto|]]]].
      * rewrite N', N1, <- app_assoc. f_equal. cbn [app].
        destruct (List.length (taking (held ++ [d]) l) - List.length held)%nat as [|m] eqn:Em; [lia|]. cbn [repeat]. do 2 f_equal. lia.
      * rewrite <- app_assoc in C'. exact C'.
    + rewrite (B eq_refl). exists s, (Throw DimensionError). rewrite Nat.sub_diag. cbn [repeat]. rewrite app_nil_r. split; [reflexivity|].
      split; [exact I|]. split; [reflexivity|]. split; [lia|]. split; [auto|]. split; [intros; lia|]. right. split; [reflexivity|]. intros C. rewrite <- (app_nil_r held) in C at 1. apply app_inv_head in C. discriminate.
Qed.
Lemma same_ptrs_inv s held p : xinv s held -> pmPtrs p = pmPtrs (xmPm s) -> same_sizes (pmMem (xmPm s)) (pmMem p) ->
  xinv (xm_withPm s p) held /\ (xreg s held -> xreg (xm_withPm s p) held).
Proof.
  intros [H1 [H2 [H3 [H4 [[W L] [H6 H7]]]]]] EP ES. unfold xinv, xreg, xmNorms, unaliased, bound, xm_names, pm_names, pm_ok, bound in *. cbn [xm_withPm xmPm xmDists xmNDists xmNDims].
  rewrite EP. rewrite <- (ES 0%nat). repeat (split; auto). intros n l B. eapply loc_ok_sizes; [exact ES|]. eapply L; exact B.
Qed.
Lemma setC_sizes m l : List.length l = List.length (mCnt m 0%nat) -> same_sizes m (mem_setC m 0 l).
Proof. intros H c. cbn. destruct c; cbn; auto. Qed.
Lemma pm_set_same p n v : pmPtrs (fst (pm_set p n v)) = pmPtrs p /\ same_sizes (pmMem p) (pmMem (fst (pm_set p n v))).
Proof.
  unfold pm_set. destruct (sfind n (pmPtrs p)) as [l|]; [|split; [reflexivity|intros c; reflexivity]].
  pose proof (assign_sizes (pmMem p) l v) as A. destruct (assign (pmMem p) l v) as [m r]. cbn in *. split; [reflexivity|exact A].
Qed.
Lemma pm_setAll_same p d : pmPtrs (fst (pm_setAll p d)) = pmPtrs p /\ same_sizes (pmMem p) (pmMem (fst (pm_setAll p d))).
Proof.
  unfold pm_setAll. pose proof (setLoop_sizes (pmPtrs p) d (skeys (pmPtrs p)) (pmMem p)) as A.
  destruct (pm_setLoop (pmMem p) (pmPtrs p) d (skeys (pmPtrs p))) as [m r]. cbn in *. split; [reflexivity|exact A].
Qed.
Lemma xdo_ok s held o : xinv s held -> xinv (xdo s o) (held_by held o) /\ (~ renames o -> xreg s held -> xreg (xdo s o) (held_by held o)).
Proof.
  intros I. destruct o as [d|l|l|n v|d|o n]; cbn [xdo held_by].
  - destruct (xadd_ok s held d I) as [A B]. cbn [taking]. destruct (fitsb held d).
    + destruct (A eq_refl) as [s1 [E [I1 [R1 N1]]]]. rewrite E. cbn [fst]. auto.
    + rewrite (B eq_refl). auto.
  - destruct (xadds_ok l s held I) as [s' [r [E [I' [N' [L' [R' [R2 C']]]]]]]]. unfold xm_adds. rewrite E.
    destruct C' as [[-> _]|[-> _]]; cbn [fst]; [|split; [exact I'|auto]].
    destruct I' as [H1 [H2 [H3 [H4 _]]]]. destruct (register_ok s' _ H1 H2 H3 H4) as [s'' [E'' [I'' [R'' _]]]]. rewrite E''. auto.
  - unfold xm_setNorms. destruct (Nat.eqb_spec (List.length l) (xmNDists s)) as [El|]; cbn [negb fst]; [|auto].
    assert (G : same_sizes (pmMem (xmPm s)) (pmMem (pm_setC (xmPm s) 0 l))).
    { apply setC_sizes. destruct I as [_ [H2 [H3 _]]]. unfold xmNorms in H3. congruence. }
    destruct (same_ptrs_inv s held (pm_setC (xmPm s) 0 l) I eq_refl G) as [A B]. auto.
  - destruct (pm_set_same (xmPm s) n v) as [A B]. destruct (same_ptrs_inv s held _ I A B) as [X Y]. split; auto.
  - destruct (pm_setAll_same (xmPm s) d) as [A B]. destruct (same_ptrs_inv s held _ I A B) as [X Y]. split; auto.
  - split; [|intros C; exfalso; apply C; now cbn].
    unfold xm_rename, xm_fwd. cbn [fst]. destruct I as [H1 [H2 [H3 [H4 [H5 [H6 H7]]]]]].
    destruct (sfind o (pmPtrs (xmPm s))) as [l|] eqn:Eo.
    + destruct (shas n (pmPtrs (xmPm s))) eqn:En.
      * unfold pm_rename. rewrite Eo, En. cbn [fst]. repeat (split; auto).
      * assert (Hn : ~ In n (pm_names (xmPm s))).
        { intros C. apply sfind_in in C as [x Hx]. unfold shas in En. rewrite Hx in En. discriminate. }
        destruct (pm_rename_ok (xmPm s) o n l H5 Eo Hn) as [p' [E' [K' [Q' _]]]]. pose proof (pm_step_ok (xmPm s) (PRename o n) H5) as P'. cbn [pm_step] in P'. rewrite E' in *. cbn [fst] in *.
        unfold xinv, xmNorms. cbn [xm_withPm xmPm xmDists xmNDists xmNDims]. rewrite K'. repeat (split; auto).
        -- intros k l' B. unfold bound in B. rewrite Q' in B. destruct (String.eqb k o); [discriminate|]. destruct (String.eqb k n); [injection B as <-; eapply H6; exact Eo|eapply H6; exact B].
        -- exact (rename_unaliased _ _ _ _ _ H7 Eo Q').
    + unfold pm_rename. rewrite Eo. cbn [fst]. repeat (split; auto).
Qed.
Lemma xnew_ok : xinv xm_new [] /\ xreg xm_new [].
Proof.
  unfold xinv, xreg, xmNorms, cnames, unaliased, bound, pm_ok, bound, xm_names. cbn. repeat (split; auto); try discriminate; try constructor; try tauto.
  intros _ [|i] n; discriminate.
Qed.
Lemma xrun_gen ops : forall s held, xinv s held -> xinv (fold_left xdo ops s) (fold_left held_by ops held) /\
  (Forall (fun o => ~ renames o) ops -> xreg s held -> xreg (fold_left xdo ops s) (fold_left held_by ops held)).
Proof.
  induction ops as [|o ops IH]; intros s held I; cbn [fold_left]; [auto|].
  destruct (xdo_ok s held o I) as [A B]. destruct (IH _ _ A) as [C D]. split; [exact C|]. intros F R. inversion F; subst. auto.
Qed.
Lemma xrun_ok ops : xinv (xrun ops) (held_after ops) /\ (Forall (fun o => ~ renames o) ops -> xreg (xrun ops) (held_after ops)).
Proof. destruct (xrun_gen ops xm_new [] (proj1 xnew_ok)) as [A B]. split; [exact A|]. intros F. apply B; [exact F|apply xnew_ok]. Qed.

(** the weighted sum *)
Lemma xprob_sum s held e ps : xinv s held -> Forall2 (fun d p => dprob e d = Ok p) held ps ->
  xm_prob s e = Ok (qsum (map (fun np => fst np * snd np) (combine (xmNorms s) ps))).
Proof.
  intros [H1 [_ [H3 _]]] F. unfold xm_prob. rewrite H1. rewrite map_length.
  assert (G : forall k j acc, (j + k = List.length held)%nat ->
    foldM (fun p i => do n <- vat (xmNorms s) i; do d <- vat (map dclone held) i; do q <- dprob e d; Ok (p + n * q)) (seq j k) acc =
    Ok (acc + qsum (map (fun np => fst np * snd np) (skipn j (combine (xmNorms s) ps))))).
  { assert (Lp : List.length ps = List.length held) by (symmetry; exact (forall2_len _ _ _ F)).
    assert (Lc : List.length (combine (xmNorms s) ps) = List.length held) by (rewrite combine_length; lia).
    induction k as [|k IH]; intros j acc Hj; cbn [seq foldM].
    - rewrite skipn_all2 by lia. cbn. f_equal. ring.
    - rewrite (vat_nth _ _ 0) by lia. cbn [bind]. assert (Hj' : (j < List.length held)%nat) by lia.
      destruct held as [|d0 h0] eqn:Eh; [cbn in Hj'; lia|]. rewrite <- Eh in *. rewrite (vat_nth _ _ d0) by (rewrite map_length; exact Hj'). cbn [bind].
      rewrite (nth_map2 dclone _ _ d0) by exact Hj'. rewrite (proj1 (clone_pkg _)).
      assert (Q : dprob e (nth j held d0) = Ok (nth j ps 0)).
      { clear - F Hj'. revert j Hj'. induction F; intros j Hj; [cbn in Hj; lia|]. destruct j; cbn; [assumption|]. apply IHF. cbn in Hj. lia. }
      rewrite Q. cbn [bind]. rewrite IH by lia.
      assert (SK : skipn j (combine (xmNorms s) ps) = (nth j (xmNorms s) 0, nth j ps 0) :: skipn (S j) (combine (xmNorms s) ps)).
      { rewrite <- combine_nth by lia. clear - Lc Hj'. rewrite <- Lc in Hj'. revert j Hj'. generalize (combine (xmNorms s) ps). induction l as [|x l IH]; intros j Hj; [cbn in Hj; lia|]. destruct j; [reflexivity|]. cbn [skipn nth]. apply IH. cbn in Hj. lia. }
      rewrite SK. cbn [map qsum fst snd fold_right]. f_equal. unfold qsum. cbn [fold_right]. ring. }
  rewrite (G (List.length held) 0%nat 0) by lia. cbn [skipn]. f_equal. ring.
Qed.
Lemma bound_get s held n i : xinv s held -> bound (xmPm s) n (LElem 0 i) -> xm_get s n = Ok (nth i (xmNorms s) 0) /\ (i < List.length held)%nat.
Proof.
  intros [_ [_ [H3 [_ [[W L] _]]]]] B. pose proof (L _ _ B) as Hi. cbn in Hi. unfold xm_get. rewrite (pm_get_bound _ _ _ B) by exact Hi. cbn [deref]. fold (xmNorms s) in *.
  split; [|lia]. destruct (nth_error (xmNorms s) i) as [x|] eqn:E; [|apply nth_error_None in E; lia]. rewrite (nth_error_nth _ _ _ E). reflexivity.
Qed.

Lemma prob_pkg ops e ps : let held := held_after ops in let s := xrun ops in
  Forall2 (fun d p => dprob e d = Ok p) held ps ->
  xm_prob s e = Ok (qsum (map (fun np => fst np * snd np) (combine (xmNorms s) ps))) /\
  List.length (xmNorms s) = List.length held /\ xmNDists s = List.length held /\ (forall d t, held = d :: t -> xmNDims s = dndims d).
Proof.
  cbv zeta. intros F. destruct (xrun_ok ops) as [I _]. split; [exact (xprob_sum _ _ _ _ I F)|]. destruct I as [_ [H2 [H3 [H4 _]]]]. auto.
Qed.
Lemma keeps_cnames held : Forall keeps_name held -> cnames held = map dname held.
Proof. unfold cnames. induction 1 as [|d l K F IH]; cbn; [reflexivity|]. rewrite K, IH. reflexivity. Qed.
Lemma names_count (p : pmgr) (l : list string) : pm_ok p -> NoDup l -> (forall n, In n (pm_names p) <-> In n l) -> pm_count p = List.length l.
Proof.
  intros [W _] N H. unfold pm_count. unfold pm_names in H. replace (List.length (pmPtrs p)) with (List.length (skeys (pmPtrs p))) by (unfold skeys; apply map_length).
  apply swf_nodup in W. apply Nat.le_antisymm; apply NoDup_incl_length; auto; intros x Hx; apply H; exact Hx.
Qed.
Lemma reg_labelled s held : xinv s held -> xreg s held -> Forall keeps_name held -> labelled s held.
Proof.
  intros I [R1 R2] K. rewrite (keeps_cnames _ K) in *. split; [exact R1|]. intros N. split.
  - rewrite <- (map_length dname held). apply names_count; [apply I|exact N|exact R1].
  - intros i n Hi. eapply bound_get; [exact I|]. exact (R2 N i n Hi).
Qed.
Lemma labels_pkg ops : Forall (fun o => ~ renames o) ops -> Forall keeps_name (held_after ops) -> labelled (xrun ops) (held_after ops).
Proof. intros F K. destruct (xrun_ok ops) as [I R]. apply reg_labelled; auto. Qed.
Lemma add_pkg ops d : let held := held_after ops in let s := xrun ops in
  (fits held d -> exists s', xm_add s d = (s', Ok tt) /\ xmNorms s' = xmNorms s ++ [0] /\ (Forall keeps_name (held ++ [d]) -> labelled s' (held ++ [d]))) /\
  (~ fits held d -> xm_add s d = (s, Throw DimensionError)).
Proof.
  cbv zeta. destruct (xrun_ok ops) as [I _]. destruct (xadd_ok _ _ d I) as [A B]. split; intros F.
  - apply fitsb_spec in F. destruct (A F) as [s' [E [I' [R' N']]]]. exists s'. split; [exact E|]. split; [exact N'|]. intros K. apply reg_labelled; auto.
  - apply B. destruct (fitsb (held_after ops) d) eqn:Ef; [apply fitsb_spec in Ef; contradiction|reflexivity].
Qed.
Lemma taking_spec l : forall held, exists t, taking held l = held ++ t /\ (exists r, l = t ++ r /\ forall d r', r = d :: r' -> ~ fits (held ++ t) d).
Proof.
  induction l as [|d l IH]; intros held; cbn [taking].
  - exists []. rewrite app_nil_r. split; [reflexivity|]. exists []. split; [reflexivity|]. discriminate.
  - destruct (fitsb held d) eqn:Ef.
    + destruct (IH (held ++ [d])) as [t [E [r [El C]]]]. exists (d :: t). rewrite E, <- app_assoc. split; [reflexivity|]. exists r. split; [cbn; now rewrite El|].
      intros d' r' Er. rewrite <- app_assoc in C. apply (C d' r' Er).
    + exists []. rewrite app_nil_r. split; [reflexivity|]. exists (d :: l). split; [reflexivity|]. intros d' r' [= <- <-] C. apply fitsb_spec in C. congruence.
Qed.
(** all added up to the first that does not fit *)
Lemma adds_pkg ops l : let held := held_after ops in let s := xrun ops in
  exists s' t rest, l = t ++ rest /\ (forall d r', rest = d :: r' -> ~ fits (held ++ t) d) /\
    xm_adds s l = (s', match rest with [] => Ok tt | _ => Throw DimensionError end) /\
    xmNorms s' = xmNorms s ++ repeat 0 (List.length t) /\ (Forall keeps_name (held ++ t) -> t <> [] -> labelled s' (held ++ t)) /\ held_after (ops ++ [XAdds l]) = held ++ t.
Proof.
  cbv zeta. destruct (xrun_ok ops) as [I _]. set (held := held_after ops) in *. destruct (taking_spec l held) as [t [Et [rest [El C]]]].
  destruct (xadds_ok l _ _ I) as [s' [r [E [I' [N' [L' [R' [R2 C']]]]]]]]. rewrite Et in *. rewrite app_length in *.
  replace (List.length held + List.length t - List.length held)%nat with (List.length t) in N' by lia.
  assert (HA : held_after (ops ++ [XAdds l]) = held ++ t) by (unfold held_after; rewrite fold_left_app; exact Et).
  unfold xm_adds. rewrite E. destruct C' as [[-> Cl]|[-> Cl]].
  - apply app_inv_head in Cl. assert (rest = []) by (rewrite El in Cl; rewrite <- (app_nil_r t) in Cl at 1; apply app_inv_head in Cl; auto). subst rest.
    destruct I' as [H1 [H2 [H3 [H4 _]]]]. destruct (register_ok s' _ H1 H2 H3 H4) as [s'' [E'' [I'' [R'' N'']]]].
    exists s'', t, []. split; [exact El|]. split; [discriminate|]. split; [exact E''|]. split; [congruence|]. split; [|exact HA]. intros K _. apply reg_labelled; auto.
  - destruct rest as [|d r']; [exfalso; apply Cl; rewrite El, app_nil_r; reflexivity|].
    exists s', t, (d :: r'). split; [exact El|]. split; [exact C|]. split; [reflexivity|]. split; [exact N'|]. split; [|exact HA]. intros K Ht.
    apply reg_labelled; auto. apply R2. destruct t; [congruence|]. cbn [List.length]. lia.
Qed.
Lemma norms_pkg ops l : let held := held_after ops in let s := xrun ops in
  (List.length l <> List.length held -> xm_setNorms s l = (s, Throw DimensionError)) /\
  (List.length l = List.length held -> exists s', xm_setNorms s l = (s', Ok tt) /\ xmNorms s' = l /\ xm_names s' = xm_names s /\
     forall e ps, Forall2 (fun d p => dprob e d = Ok p) held ps -> xm_prob s' e = Ok (qsum (map (fun np => fst np * snd np) (combine l ps)))).
Proof.
  cbv zeta. destruct (xrun_ok ops) as [I _]. pose proof (xdo_ok _ _ (XNorms l) I) as [I' _]. cbn [xdo held_by] in I'. unfold xm_setNorms in *. destruct I as [H1 [H2 [H3 H4]]]. rewrite H2 in *.
  destruct (Nat.eqb_spec (List.length l) (List.length (held_after ops))) as [El|Hn]; cbn [negb] in *; (split; intros H; try congruence).
  cbn [fst] in I'. eexists. split; [reflexivity|]. split; [reflexivity|]. split; [reflexivity|]. intros e ps F. rewrite (xprob_sum _ _ _ _ I' F). reflexivity.
Qed.
(** setting one parameter *)
Lemma set1_pkg ops n v : let s := xrun ops in
  (~ In n (xm_names s) -> xm_set s n v = (s, Throw ParameterError)) /\
  (In n (xm_names s) -> exists s' i, xm_set s n v = (s', Ok tt) /\ (i < List.length (xmNorms s))%nat /\ xm_get s n = Ok (nth i (xmNorms s) 0) /\
     xmNorms s' = upd (xmNorms s) i v /\ xm_get s' n = Ok v /\ xm_names s' = xm_names s /\ forall m, m <> n -> xm_get s' m = xm_get s m).
Proof.
  cbv zeta. destruct (xrun_ok ops) as [I _]. set (s := xrun ops) in *. pose proof (xdo_ok _ _ (XSet n v) I) as [I' _]. cbn [xdo held_by] in I'. split; intros H.
  - unfold xm_set, xm_fwd, pm_set. destruct (sfind n (pmPtrs (xmPm s))) as [l|] eqn:E; [exfalso; apply H; apply sfind_in; eauto|]. cbn. destruct s; reflexivity.
  - pose proof I as [_ [_ [H3 [_ [H5 [H6 H7]]]]]]. apply sfind_in in H as [l Hl]. destruct (H6 n l Hl) as [i ->].
    destruct (bound_get s _ n i I Hl) as [G Hi]. rewrite <- H3 in Hi. unfold xm_set, xm_fwd in *. unfold pm_set in *. rewrite Hl in *. cbn [assign] in *.
    change (mCnt (pmMem (xmPm s)) 0%nat) with (xmNorms s) in *. apply Nat.ltb_lt in Hi as Hi'. rewrite Hi' in *. cbn [oor_to_param fst snd] in *.
    eexists. exists i. split; [reflexivity|]. split; [exact Hi|]. split; [exact G|]. split; [reflexivity|].
    set (s' := xm_withPm _ _) in *. assert (Hn : xmNorms s' = upd (xmNorms s) i v) by reflexivity. split; [|split; [reflexivity|]].
    + assert (B : bound (xmPm s') n (LElem 0 i)) by exact Hl. destruct (bound_get s' _ n i I' B) as [G' _]. rewrite G', Hn, nth_upd by exact Hi. rewrite Nat.eqb_refl. reflexivity.
    + intros m Hm. unfold xm_get. destruct (sfind m (pmPtrs (xmPm s))) as [l|] eqn:Em.
      * destruct (H6 m l Em) as [j ->]. assert (B : bound (xmPm s') m (LElem 0 j)) by exact Em. destruct (bound_get s' _ m j I' B) as [G' _]. destruct (bound_get s _ m j I Em) as [G2 _].
        unfold xm_get in G', G2. rewrite G', G2, Hn, nth_upd by exact Hi. destruct (Nat.eqb_spec j i) as [->|]; [|reflexivity].
        exfalso. apply Hm. exact (H7 _ _ _ Em Hl).
      * rewrite !pm_get_unbound; [reflexivity|exact Em|exact Em].
Qed.
Lemma setAll_pkg ops d : let held := held_after ops in let s := xrun ops in
  Forall (fun o => ~ renames o) ops -> Forall keeps_name held -> 
  (NoDup (map dname held) -> (forall n, In n (map dname held) -> has_key d n) ->
   exists s', xm_setAll s d = (s', Ok tt) /\ xmNorms s' = map (fun x => value_in d (dname x)) held /\ labelled s' held /\
     forall e ps, Forall2 (fun x p => dprob e x = Ok p) held ps -> xm_prob s' e = Ok (qsum (map (fun xp => value_in d (dname (fst xp)) * snd xp) (combine held ps)))) /\
  ((exists n, In n (map dname held) /\ ~ has_key d n) -> snd (xm_setAll s d) = Throw ParameterError).
Proof.
  cbv zeta. intros F K. destruct (xrun_ok ops) as [I R]. specialize (R F). set (s := xrun ops) in *. set (held := held_after ops) in *.
  pose proof (keeps_cnames _ K) as EN. pose proof (xdo_ok _ _ (XSets d) I) as [I' R']. cbn [xdo held_by] in *. specialize (R' (fun x => x) R).
  destruct I as [H1 [H2 [H3 [H4 [H5 [H6 H7]]]]]]. destruct R as [R1 R2]. rewrite EN in *. split.
  - intros N Hk. destruct (pm_setAll_ok (xmPm s) d H5 H7) as [p' [E [P [G _]]]]; [intros n Hn; apply Hk, R1, Hn|].
    unfold xm_setAll, xm_fwd in *. rewrite E in *. cbn [fst snd] in *. eexists. split; [reflexivity|]. set (s' := xm_withPm s p') in *.
    assert (EV : xmNorms s' = map (fun x => value_in d (dname x)) held).
    { assert (HL : List.length (xmNorms s') = List.length held) by apply I'. destruct held as [|d0 h0] eqn:Eh; [destruct (xmNorms s'); [reflexivity|discriminate]|]. rewrite <- Eh in *.
      apply (nth_ext _ _ 0 0); [now rewrite map_length|]. intros i Hi. rewrite HL in Hi. rewrite (nth_map2 (fun x => value_in d (dname x)) _ _ d0) by exact Hi.
      assert (Ni : nth_error (map dname held) i = Some (dname (nth i held d0))) by (apply map_nth_error; apply nth_error_nth'; exact Hi).
      destruct (bound_get s' held (dname (nth i held d0)) i I') as [Gb _]; [apply R'; [rewrite EN; exact N|rewrite EN; exact Ni]|].
      destruct (Hk (dname (nth i held d0))) as [v Hv]; [eapply nth_error_In; exact Ni|].
      assert (Q := G (dname (nth i held d0)) v). unfold xm_get in Gb. change (xmPm s') with p' in Gb. rewrite Q in Gb; [|apply R1; eapply nth_error_In; exact Ni|exact Hv].
      injection Gb as <-. unfold value_in. rewrite Hv. reflexivity. }
    split; [exact EV|]. split; [apply reg_labelled; auto|]. intros e ps Fp. rewrite (xprob_sum _ _ _ _ I' Fp), EV. do 2 f_equal.
    clear. revert ps. induction held as [|x held IH]; intros [|p ps]; cbn; auto. f_equal. apply IH.
  - intros [n [Hn Hk]]. destruct (first_missing d (pm_names (xmPm s))) as [A|[pre [k [post [E [A B]]]]]].
    + exfalso. apply Hk, A, R1, Hn.
    + destruct (pm_setAll_missing (xmPm s) d pre k post H5 E A B) as [p' [E' _]]. unfold xm_setAll, xm_fwd. rewrite E'. reflexivity.
Qed.
