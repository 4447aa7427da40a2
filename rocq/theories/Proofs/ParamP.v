From Coq Require Import ZArith DecimalString Ascii Sorted.
From Verif Require Import Base.Res Base.Num Base.SMap Model.Axis Model.Hist Model.Param Spec.AxisSpec Spec.HistSpec Spec.ParamSpec
  Proofs.AxisP Proofs.HistP Proofs.HistP4.
Local Open Scope Qc_scope.

(** invariant: sorted map, container indices in range *)
Definition loc_ok (m : pmem) (l : loc) : Prop :=
  match l with LDouble _ => True | LElem c i => (i < List.length (mCnt m c))%nat end.
Definition pm_ok (p : pmgr) : Prop := swf (pmPtrs p) /\ forall n l, bound p n l -> loc_ok (pmMem p) l.

Lemma deref_ok m l : loc_ok m l -> exists v, deref m l = Ok v.
Proof.
  destruct l as [a|c i]; cbn; intros H; [eauto|]. apply nth_error_Some in H.
  destruct (nth_error (mCnt m c) i); [eauto|congruence].
Qed.
Definition same_sizes (m m' : pmem) : Prop := forall c, List.length (mCnt m c) = List.length (mCnt m' c).
Lemma loc_ok_sizes m m' l : same_sizes m m' -> loc_ok m l -> loc_ok m' l.
Proof. intros H. destruct l; cbn; [auto|]. rewrite (H c). auto. Qed.
Lemma assign_sizes m l v : same_sizes m (fst (assign m l v)).
Proof.
  intros d. destruct l as [a|c i]; cbn [assign]; [reflexivity|]. destruct (Nat.ltb i (List.length (mCnt m c))); cbn [fst mCnt]; [|reflexivity].
  destruct (Nat.eqb_spec d c) as [->|]; [now rewrite upd_length|reflexivity].
Qed.
Lemma loc_eq_dec (l l' : loc) : {l = l'} + {l <> l'}.
Proof. decide equality; apply Nat.eq_dec. Qed.
Lemma assign_ok m l v : loc_ok m l -> exists m', assign m l v = (m', Ok tt) /\ same_sizes m m' /\
  deref m' l = Ok v /\ forall l', l' <> l -> deref m' l' = deref m l'.
Proof.
  intros H. pose proof (assign_sizes m l v) as HS. destruct l as [a|c i]; cbn [assign] in *.
  - eexists. split; [reflexivity|]. split; [exact HS|]. cbn. rewrite Nat.eqb_refl. split; [reflexivity|].
    intros [b|c i] Hne; cbn; [|reflexivity]. destruct (Nat.eqb_spec b a); [congruence|reflexivity].
  - cbn in H. apply Nat.ltb_lt in H as H'. rewrite H' in *. eexists. split; [reflexivity|]. split; [exact HS|]. cbn.
    rewrite Nat.eqb_refl. split.
    + rewrite nth_error_upd by exact H. rewrite Nat.eqb_refl. reflexivity.
    + intros [b|d j] Hne; cbn; [reflexivity|]. destruct (Nat.eqb_spec d c) as [->|]; [|reflexivity].
      rewrite nth_error_upd by exact H. destruct (Nat.eqb_spec j i) as [->|]; [congruence|reflexivity].
Qed.

Lemma pm_ok_mem p m : pm_ok p -> same_sizes (pmMem p) m -> pm_ok (mkPm m (pmPtrs p)).
Proof. intros [W L] HS. split; [exact W|]. intros n l B. eapply loc_ok_sizes; [exact HS|]. exact (L n l B). Qed.
Lemma pm_add_ok p l n : pm_ok p -> loc_ok (pmMem p) l -> pm_ok (pm_add p l n).
Proof.
  intros [W L] Hl. split; [now apply sset_wf|]. intros n' l'. unfold bound. cbn. rewrite sfind_sset.
  destruct (String.eqb n' n); [intros [= <-]; exact Hl|apply L].
Qed.
Lemma pm_addAll_gen c names : forall k p, pm_ok p -> (k + List.length names <= List.length (mCnt (pmMem p) c))%nat ->
  let p' := fold_left (fun p ni => pm_add p (LElem c (snd ni)) (fst ni)) (combine names (seq k (List.length names))) p in
  pm_ok p' /\ pmMem p' = pmMem p /\
  (forall n, ~ In n names -> sfind n (pmPtrs p') = sfind n (pmPtrs p)) /\
  (NoDup names -> forall i n, nth_error names i = Some n -> sfind n (pmPtrs p') = Some (LElem c (k + i))).
Proof.
  induction names as [|x names IH]; intros k p Hp Hk; cbn [List.length seq combine fold_left fst snd].
  - repeat split; try apply Hp; auto. intros _ [|i] n; discriminate.
  - specialize (IH (S k) (pm_add p (LElem c k) x)). cbn zeta in IH. destruct IH as [I1 [I2 [I3 I4]]].
    + apply pm_add_ok; [exact Hp|]. cbn. cbn in Hk. lia.
    + cbn in *. lia.
    + split; [exact I1|]. split; [rewrite I2; reflexivity|]. split.
      * intros n Hn. rewrite I3 by (intros C; apply Hn; now right). cbn. apply sfind_sset_neq. intros ->. apply Hn. now left.
      * intros Hnd i n Hi. inversion Hnd as [|? ? Hx Hnd']; subst. destruct i as [|i]; cbn in Hi.
        -- injection Hi as <-. rewrite I3 by exact Hx. cbn. rewrite sfind_sset_eq. do 2 f_equal. lia.
        -- rewrite (I4 Hnd' i n Hi). do 2 f_equal. lia.
Qed.

Lemma setLoop_sizes ptrs d names : forall m, same_sizes m (fst (pm_setLoop m ptrs d names)).
Proof.
  induction names as [|n t IH]; intros m; cbn [pm_setLoop]; [intros c; reflexivity|].
  destruct (sfind n ptrs) as [l|]; [|intros c; reflexivity]. destruct (sfind n d) as [v|]; [|intros c; reflexivity].
  pose proof (assign_sizes m l v) as HS. destruct (assign m l v) as [m1 [u|e| | |]]; cbn [fst] in *; try exact HS.
  intros c. rewrite (HS c). apply IH.
Qed.
Lemma pm_step_ok p op : pm_ok p -> pm_ok (fst (pm_step p op)).
Proof.
  intros H. destruct op; cbn [pm_step].
  - cbn. now apply pm_add_ok.
  - unfold pm_addContainer. destruct (Nat.eqb_spec (List.length (mCnt (pmMem p) c)) (List.length names)); [|exact H].
    cbn [fst]. unfold pm_addAll. apply pm_addAll_gen; [exact H|lia].
  - cbn [fst]. unfold pm_addContainerBase, pm_addAll. apply pm_addAll_gen; [exact H|].
    unfold base_names. rewrite map_length, seq_length. lia.
  - unfold pm_set. destruct (sfind n (pmPtrs p)) as [l|]; [|exact H].
    pose proof (assign_sizes (pmMem p) l v) as HS. destruct (assign (pmMem p) l v) as [m r]. cbn [fst] in *. now apply pm_ok_mem.
  - unfold pm_setAll. pose proof (setLoop_sizes (pmPtrs p) d (skeys (pmPtrs p)) (pmMem p)) as HS.
    destruct (pm_setLoop (pmMem p) (pmPtrs p) d (skeys (pmPtrs p))) as [m r]. cbn [fst] in *. now apply pm_ok_mem.
  - unfold pm_rename. destruct (sfind o (pmPtrs p)) as [l|] eqn:E; [|exact H]. destruct (shas n (pmPtrs p)); [exact H|].
    cbn [fst]. destruct H as [W L]. split; [now apply serase_wf, sset_wf|]. intros n' l'. unfold bound. cbn.
    rewrite sfind_serase, sfind_sset. destruct (String.eqb n' o); [discriminate|].
    destruct (String.eqb n' n); [intros [= <-]; exact (L o l E)|apply L].
  - split; [constructor|]. intros n l B. discriminate.
  - pose proof (assign_sizes (pmMem p) l v) as HS. destruct (assign (pmMem p) l v) as [m r]. cbn [fst] in *. now apply pm_ok_mem.
Qed.
Lemma pm_reach_ok p : pm_reach p -> pm_ok p.
Proof. induction 1; [split; [constructor|intros n l B; discriminate]|now apply pm_step_ok]. Qed.

Lemma pm_get_bound p n l : bound p n l -> loc_ok (pmMem p) l -> pm_get p n = deref (pmMem p) l.
Proof. unfold bound, pm_get, sat. intros -> H. cbn. destruct (deref_ok _ _ H) as [v ->]. reflexivity. Qed.
Lemma pm_get_unbound p n : sfind n (pmPtrs p) = None -> pm_get p n = Throw ParameterError.
Proof. unfold pm_get, sat. intros ->. reflexivity. Qed.
Lemma pm_get_in p n : pm_ok p -> (In n (pm_names p) <-> exists v, pm_get p n = Ok v).
Proof.
  intros [W L]. unfold pm_names. rewrite sfind_in. split.
  - intros [l E]. rewrite (pm_get_bound p n l E (L n l E)). apply deref_ok, (L n l E).
  - intros [v E]. destruct (sfind n (pmPtrs p)) as [l|] eqn:B; [eauto|]. rewrite (pm_get_unbound _ _ B) in E. discriminate.
Qed.

Lemma getAll_gen m (ptrs : smap loc) : (forall n l, In (n, l) ptrs -> loc_ok m l) ->
  exists d, mapM (fun nl : string * loc => bind (deref m (snd nl)) (fun v => Ok (fst nl, v))) ptrs = Ok d /\ skeys d = skeys ptrs /\ forall n, match sfind n ptrs with Some l => exists v, deref m l = Ok v /\ sfind n d = Some v | None => sfind n d = None end.
Proof.
  unfold mapM. induction ptrs as [|[n l] t IH]; intros H; cbn [map seqM fst snd].
  - exists []. repeat split.
  - destruct (deref_ok m l) as [v Ev]; [apply (H n); now left|]. rewrite Ev. cbn [bind].
    destruct IH as [d [E [K F]]]; [intros; eapply H; right; eauto|]. rewrite E. cbn [bind].
    eexists. split; [reflexivity|]. split; [cbn; f_equal; exact K|]. intros n'. cbn [sfind].
    destruct (String.eqb n' n); [exists v; auto|apply F].
Qed.
Lemma pm_getAll_ok p : pm_ok p -> exists d, pm_getAll p = Ok d /\ swf d /\ skeys d = pm_names p /\ forall n v, sfind n d = Some v <-> pm_get p n = Ok v.
Proof.
  intros [W L]. destruct (getAll_gen (pmMem p) (pmPtrs p)) as [d [E [K F]]].
  { intros n l Hin. apply (L n). unfold bound. now apply sfind_In. }
  exists d. split; [exact E|]. split; [unfold swf in *; rewrite K; exact W|]. split; [exact K|].
  intros n v. specialize (F n). destruct (sfind n (pmPtrs p)) as [l|] eqn:B.
  - rewrite (pm_get_bound p n l B (L n l B)). destruct F as [w [D ->]]. rewrite D. split; intros [= ->]; reflexivity.
  - rewrite F, (pm_get_unbound _ _ B). split; discriminate.
Qed.

Lemma pm_set_ok p n v : pm_ok p -> unaliased p -> In n (pm_names p) ->
  exists p', pm_set p n v = (p', Ok tt) /\ pmPtrs p' = pmPtrs p /\
    (forall m, pm_get p' m = if String.eqb m n then Ok v else pm_get p m) /\
    (forall l, deref (pmMem p') l = deref (pmMem p) l \/ (bound p n l /\ deref (pmMem p') l = Ok v)).
Proof.
  intros Hp Hu Hn. apply sfind_in in Hn as [l B]. destruct Hp as [W L].
  destruct (assign_ok (pmMem p) l v (L n l B)) as [m [E [HS [HD HO]]]].
  unfold pm_set. rewrite B, E. eexists. split; [reflexivity|]. split; [reflexivity|].
  assert (Hp' : pm_ok (mkPm m (pmPtrs p))) by (apply pm_ok_mem; [split; assumption|exact HS]).
  split.
  - intros k. destruct (String.eqb_spec k n) as [->|Hne].
    + rewrite (pm_get_bound (mkPm m (pmPtrs p)) n l B); [exact HD|]. eapply loc_ok_sizes; [exact HS|exact (L n l B)].
    + destruct (sfind k (pmPtrs p)) as [lk|] eqn:Bk.
      * rewrite (pm_get_bound (mkPm m (pmPtrs p)) k lk Bk); [|eapply loc_ok_sizes; [exact HS|exact (L k lk Bk)]].
        rewrite (pm_get_bound p k lk Bk (L k lk Bk)). cbn. apply HO. intros ->. apply Hne. exact (Hu k n l Bk B).
      * rewrite !pm_get_unbound; auto.
  - intros l'. cbn. destruct (loc_eq_dec l' l) as [->|Hne]; [right; split; [exact B|exact HD]|left; now apply HO].
Qed.

Lemma setLoop_ok ptrs d names : forall m,
  (forall n, In n names -> exists l v, sfind n ptrs = Some l /\ sfind n d = Some v /\ loc_ok m l) ->
  exists m', pm_setLoop m ptrs d names = (m', Ok tt) /\ same_sizes m m' /\
    (forall l, (forall n, In n names -> sfind n ptrs <> Some l) -> deref m' l = deref m l) /\
    ((forall n n' l, sfind n ptrs = Some l -> sfind n' ptrs = Some l -> n = n') ->
     forall n l v, In n names -> sfind n ptrs = Some l -> sfind n d = Some v -> deref m' l = Ok v).
Proof.
  induction names as [|x t IH]; intros m H; cbn [pm_setLoop].
  - exists m. repeat split; auto. intros _ n l v [].
  - destruct (H x) as [l [v [E1 [E2 Hl]]]]; [now left|]. rewrite E1, E2.
    destruct (assign_ok m l v Hl) as [m1 [E [HS [HD HO]]]]. rewrite E.
    destruct (IH m1) as [m2 [I1 [I2 [I3 I4]]]].
    { intros n Hn. destruct (H n) as [l' [v' [F1 [F2 F3]]]]; [now right|]. exists l', v'. repeat split; auto. eapply loc_ok_sizes; eauto. }
    exists m2. split; [exact I1|]. split; [intros c; rewrite (HS c); apply I2|]. split.
    + intros l' Hl'. rewrite I3 by (intros n Hn; apply Hl'; now right). apply HO. intros ->. exact (Hl' x (or_introl eq_refl) E1).
    + intros Hu n l' v' Hn F1 F2. destruct (in_dec string_dec n t) as [Ht|Ht]; [eapply I4; eauto|].
      destruct Hn as [<-|Hn]; [|contradiction]. assert (l' = l) as -> by congruence. assert (v' = v) as -> by congruence.
      rewrite I3; [exact HD|]. intros n Hin F. apply Ht. rewrite (Hu x n l E1 F). exact Hin.
Qed.
Lemma setLoop_app ptrs d n1 n2 m : pm_setLoop m ptrs d (n1 ++ n2) =
  match pm_setLoop m ptrs d n1 with (m', Ok _) => pm_setLoop m' ptrs d n2 | r => r end.
Proof.
  revert m. induction n1 as [|x t IH]; intros m; cbn [app pm_setLoop]; [reflexivity|].
  destruct (sfind x ptrs) as [l|]; [|reflexivity]. destruct (sfind x d) as [v|]; [|reflexivity].
  destruct (assign m l v) as [m1 [u|e| | |]]; auto.
Qed.

Lemma pm_setAll_ok p d : pm_ok p -> unaliased p -> (forall n, In n (pm_names p) -> has_key d n) ->
  exists p', pm_setAll p d = (p', Ok tt) /\ pmPtrs p' = pmPtrs p /\
    (forall n v, In n (pm_names p) -> sfind n d = Some v -> pm_get p' n = Ok v) /\
    (forall l, (forall n, ~ bound p n l) -> deref (pmMem p') l = deref (pmMem p) l).
Proof.
  intros [W L] Hu Hd. destruct (setLoop_ok (pmPtrs p) d (skeys (pmPtrs p)) (pmMem p)) as [m [E [HS [H1 H2]]]].
  { intros n Hn. destruct (Hd n Hn) as [v Ev]. apply sfind_in in Hn as [l B]. exists l, v. split; [exact B|]. split; [exact Ev|exact (L n l B)]. }
  unfold pm_setAll. rewrite E. eexists. split; [reflexivity|]. split; [reflexivity|]. split.
  - intros n v Hn Ev. apply sfind_in in Hn as Hb. destruct Hb as [l B].
    rewrite (pm_get_bound (mkPm m (pmPtrs p)) n l B); [|eapply loc_ok_sizes; [exact HS|exact (L n l B)]].
    apply (H2 Hu n l v); auto.
  - intros l Hl. apply H1. intros n _. apply Hl.
Qed.
Lemma pm_setAll_missing p d pre k post : pm_ok p -> pm_names p = pre ++ k :: post ->
  (forall n, In n pre -> has_key d n) -> sfind k d = None ->
  exists p', pm_setAll p d = (p', Throw ParameterError) /\ pmPtrs p' = pmPtrs p /\
    (unaliased p -> (forall n v, In n pre -> sfind n d = Some v -> pm_get p' n = Ok v) /\
      (forall n, ~ In n pre -> pm_get p' n = pm_get p n)) /\
    (forall l, (forall n, In n pre -> ~ bound p n l) -> deref (pmMem p') l = deref (pmMem p) l).
Proof.
  intros [W L] Hn Hd Hk. unfold pm_names in Hn.
  assert (Hpre : forall n, In n pre -> In n (skeys (pmPtrs p))) by (intros n Hi; rewrite Hn; apply in_or_app; now left).
  destruct (setLoop_ok (pmPtrs p) d pre (pmMem p)) as [m [E [HS [H1 H2]]]].
  { intros n Hi. destruct (Hd n Hi) as [v Ev]. apply Hpre, sfind_in in Hi as [l B]. exists l, v. split; [exact B|]. split; [exact Ev|exact (L n l B)]. }
  unfold pm_setAll. rewrite Hn, setLoop_app, E. cbn [pm_setLoop]. rewrite Hk.
  assert (exists lk, sfind k (pmPtrs p) = Some lk) as [lk Bk].
  { apply sfind_in. rewrite Hn. apply in_or_app. right. now left. }
  rewrite Bk. eexists. split; [reflexivity|]. split; [reflexivity|]. split.
  - intros Hu. split.
    + intros n v Hi Ev. pose proof (Hpre n Hi) as Hb. apply sfind_in in Hb as [l B].
      rewrite (pm_get_bound (mkPm m (pmPtrs p)) n l B); [|eapply loc_ok_sizes; [exact HS|exact (L n l B)]].
      apply (H2 Hu n l v); auto.
    + intros n Hi. destruct (sfind n (pmPtrs p)) as [l|] eqn:B.
      * rewrite (pm_get_bound (mkPm m (pmPtrs p)) n l B); [|eapply loc_ok_sizes; [exact HS|exact (L n l B)]].
        rewrite (pm_get_bound p n l B (L n l B)). cbn. apply H1. intros n' Hi' C. apply Hi. now rewrite (Hu n n' l B C).
      * rewrite !pm_get_unbound; auto.
  - intros l Hl. apply H1. intros n Hi. exact (Hl n Hi).
Qed.
(** first missing name in key order *)
Lemma first_missing (d : smap Qc) names : (forall n, In n names -> has_key d n) \/
  exists pre k post, names = pre ++ k :: post /\ (forall n, In n pre -> has_key d n) /\ sfind k d = None.
Proof.
  induction names as [|x t IH].
  - left. intros n [].
  - destruct (sfind x d) as [v|] eqn:E.
    + destruct IH as [A|[pre [k [post [-> [A B]]]]]].
      * left. intros n [<-|Hn]; [exists v; exact E|auto].
      * right. exists (x :: pre), k, post. split; [reflexivity|]. split; [|exact B]. intros n [<-|Hn]; [exists v; exact E|auto].
    + right. exists [], x, t. split; [reflexivity|]. split; [intros n []|exact E].
Qed.

Lemma filter_all {A} (f : A -> bool) l : (forall x, In x l -> f x = true) -> filter f l = l.
Proof. induction l as [|x l IH]; intros H; cbn; [reflexivity|]. rewrite H by now left. f_equal. apply IH. intros; apply H; now right. Qed.
Lemma pm_rename_ok p o n l : pm_ok p -> bound p o l -> ~ In n (pm_names p) ->
  exists p', pm_rename p o n = (p', Ok tt) /\ pmMem p' = pmMem p /\
    (forall k, sfind k (pmPtrs p') = if String.eqb k o then None else if String.eqb k n then Some l else sfind k (pmPtrs p)) /\
    pm_count p' = pm_count p.
Proof.
  intros [W L] B Hn. unfold pm_rename. rewrite B. unfold shas. destruct (sfind n (pmPtrs p)) eqn:En.
  { exfalso. apply Hn. apply sfind_in. eauto. }
  eexists. split; [reflexivity|]. split; [reflexivity|]. split.
  - intros k. cbn. rewrite sfind_serase, sfind_sset. reflexivity.
  - unfold pm_count. cbn [pmPtrs].
    assert (HL : forall (m : smap loc) k, swf m -> shas k m = true -> S (List.length (serase k m)) = List.length m).
    { clear. intros m k W H. apply swf_nodup in W. induction m as [|[k' v] t IH]; [discriminate|].
      cbn [serase filter fst]. inversion W as [|? ? Hx Ht]; subst. destruct (String.eqb_spec k k') as [->|Hne]; cbn [negb List.length].
      - f_equal. f_equal. apply filter_all. intros [k2 v2] Hin. cbn.
        destruct (String.eqb_spec k' k2) as [->|]; [|reflexivity]. exfalso. apply Hx. apply in_map_iff. exists (k2, v2). auto.
      - f_equal. apply IH; [exact Ht|]. unfold shas in *. cbn [sfind] in H. destruct (String.eqb_spec k k'); [congruence|exact H]. }
    assert (Q := HL (sset n l (pmPtrs p)) o (sset_wf _ _ _ W)). rewrite sset_length in Q by exact W.
    unfold shas in Q at 2. rewrite En in Q. apply eq_add_S. apply Q. unfold shas. rewrite sfind_sset.
    destruct (String.eqb o n); [reflexivity|]. now rewrite B.
Qed.
