From Coq Require Import Reals ZArith.
From Verif Require Import Base.Res Base.Num Base.RNum Base.SMap Model.Axis Model.Hist Model.Constraint Model.Sum Spec.SumSpec Proofs.SumP Proofs.SumP2.
From Coq Require Import Lra Psatz.
Local Open Scope nat_scope.

Lemma worth_evaluates T (o : tsops T) h vals pars p v : worth o h vals pars p v -> evaluates o h p v.
Proof.
  intros [t [w [U [P [K ->]]]]]. exists (depth t). intros fuel F. destruct (sum_evaluate_pkg T o h p t vals pars w U P K fuel F) as [h' [E _]].
  rewrite E. reflexivity.
Qed.
(** a new object elsewhere changes nothing *)
Lemma unfolds_fresh {T} (h : theap T) s ob : h s = None -> forall t p, unfolds h p t -> unfolds (tput h s ob) p t.
Proof.
  intros Hs. induction t as [q|ts c IH] using tree_rect2; intros p U; inversion U as [p0 x HP|p0 l c0 ts0 HP HT]; subst.
  - econstructor. unfold tput. destruct (Nat.eqb_spec q s); [congruence|exact HP].
  - econstructor; [unfold tput; destruct (Nat.eqb_spec p s); [congruence|exact HP]|].
    clear -HT IH. induction HT; constructor; inversion IH; subst; auto.
Qed.
Lemma part_fresh {T} (o : tsops T) h s ob vals pars q : h s = None -> part o h vals pars q -> part o (tput h s ob) vals pars q.
Proof. intros Hs [x [Hx Sx]]. exists x. split; [|exact Sx]. unfold tput. destruct (Nat.eqb_spec q s); [congruence|exact Hx]. Qed.
Lemma merged_exists pars l : Forall (fun q => swf (pars q)) l -> exists d, merged pars l d.
Proof.
  induction 1 as [|q l W _ [d [Wd Md]]].
  - exists []. split; [constructor|]. intros n. reflexivity.
  - exists (dmerge (pars q) d). split; [apply dmerge_wf, W|]. intros n. rewrite dmerge_find. unfold first_of. cbn. rewrite Md. reflexivity.
Qed.
Lemma part_swf {T} (o : tsops T) h vals pars q : part o h vals pars q -> swf (pars q).
Proof. intros [x [_ [W _]]]. exact W. Qed.
Lemma eval_new d : cman_eval cman_new d = Ok (Q2Qc 0). Proof. reflexivity. Qed.

Lemma worth_list T (o : tsops T) h vals pars s ob l vs : h s = None -> Forall2 (worth o h vals pars) l vs ->
  exists ts ws, Forall2 (unfolds (tput h s ob)) l ts /\ (forall q, In q (List.concat (map ends ts)) -> part o (tput h s ob) vals pars q) /\
     Forall2 (constraints pars) ts ws /\ rsum vs = (rsum (map vals (List.concat (map ends ts))) + rsum ws)%R.
Proof.
  intros Hs F. induction F as [|p v l vs [t [w [U [P [K E]]]]] F [ts [ws [U2 [P2 [K2 E2]]]]]].
  - exists [], []. split; [constructor|]. split; [intros q []|]. split; [constructor|]. cbn. lra.
  - exists (t :: ts), (w :: ws). split; [constructor; [apply unfolds_fresh; assumption|assumption]|]. split.
    + cbn. intros q Hq. apply in_app_or in Hq. destruct Hq as [Hq|Hq]; [apply part_fresh; auto|auto].
    + split; [constructor; assumption|]. cbn. rewrite map_app, rsum_app. rewrite E2, E. lra.
Qed.
Lemma worth_sum T (o : tsops T) h vals pars s l vs : h s = None -> Forall2 (worth o h vals pars) l vs ->
  worth o (tput h s (TSum l cman_new)) vals pars s (rsum vs).
Proof.
  intros Hs F. destruct (worth_list T o h vals pars s (TSum l cman_new) l vs Hs F) as [ts [ws [U [P [K E]]]]].
  destruct (merged_exists pars (ends (Node ts cman_new))) as [d M].
  { rewrite Forall_forall. intros q Hq. eapply part_swf. apply P. exact Hq. }
  exists (Node ts cman_new), (rsum ws + qr (Q2Qc 0))%R.
  split; [eapply U_node; [unfold tput; rewrite Nat.eqb_refl; reflexivity|exact U]|]. split; [exact P|].
  split; [econstructor; [exact M|reflexivity|exact K]|]. cbn [ends]. rewrite E, qr_0. lra.
Qed.
Lemma op_sum_list T l : op_sum l = @TSum T l cman_new.
Proof.
  unfold op_sum. assert (G : forall m c, fold_left sum_add l (@TSum T m c) = TSum (m ++ l) c).
  { induction l as [|x l IH]; intros m c; cbn; [rewrite app_nil_r; reflexivity|]. rewrite IH. rewrite <- app_assoc. reflexivity. }
  rewrite G. reflexivity.
Qed.

(** more parameters do not change constraints that have their own already *)
Lemma at_mono d d' n v : extends d' d -> at_ d n = Ok v -> at_ d' n = Ok v.
Proof. intros X. unfold at_. destruct (sfind n d) eqn:E; [|discriminate]. rewrite (X _ _ E). auto. Qed.
Definition leads (a b : res Qc) : Prop := forall v, a = Ok v -> b = Ok v.
Lemma bind_leads {A} (a b : res A) (f g : A -> res Qc) : (forall v, a = Ok v -> b = Ok v) -> (forall x, leads (f x) (g x)) -> leads (bind a f) (bind b g).
Proof. intros H G v. destruct a as [x| | | |]; cbn; try discriminate. rewrite (H x eq_refl). cbn. apply G. Qed.
Lemma leads_refl a : leads a a. Proof. intros v H; exact H. Qed.
Lemma mapM_find_mono d d' (l : list string) : extends d' d -> forall xs,
  mapM (fun n => match sfind n d with Some v => Ok v | None => Throw NotFoundError end) l = Ok xs ->
  mapM (fun n => match sfind n d' with Some v => Ok v | None => Throw NotFoundError end) l = Ok xs.
Proof.
  intros X. unfold mapM. induction l as [|n l IH]; cbn; intros xs; [auto|]. destruct (sfind n d) as [v|] eqn:E; cbn; [|discriminate].
  rewrite (X _ _ E). cbn. destruct (seqM _) as [r| | | |] eqn:E2; cbn; try discriminate. intros [= <-]. rewrite (IH r eq_refl). reflexivity.
Qed.
Lemma sum_leads l : forall l' acc acc', leads acc acc' -> Forall2 leads l l' -> leads (sum_terms acc l) (sum_terms acc' l').
Proof.
  assert (N : forall l v, sum_terms NonFinite l <> Ok v).
  { clear. induction l as [|t l IH]; cbn; [discriminate|]. intros v. destruct t; cbn; try discriminate; apply IH. }
  assert (N2 : forall l (a : res Qc), (forall v, a <> Ok v) -> forall v, sum_terms a l <> Ok v).
  { clear. induction l as [|t l IH]; cbn; intros a Ha v; [apply Ha|]. destruct t; try discriminate; [|apply IH; discriminate].
    apply IH. intros u. destruct a; cbn; try discriminate. exfalso. eapply Ha. reflexivity. }
  induction l as [|t l IH]; intros l' acc acc' La F; inversion F as [|? t' ? l2 L1 L2]; subst; cbn; [exact La|].
  intros v. destruct t as [x| | | |]; try discriminate.
  - rewrite (L1 x eq_refl). apply IH; [|assumption]. unfold rmap. apply bind_leads; [exact La|]. intros; apply leads_refl.
  - intros C. destruct (N _ _ C).
Qed.
Lemma f2_map {A} (f g : A -> res Qc) l : (forall x, In x l -> leads (f x) (g x)) -> Forall2 leads (map f l) (map g l).
Proof. induction l as [|x l IH]; cbn; intros H; constructor; [apply H; auto|apply IH; auto]. Qed.
Lemma cman_mono c d d' : extends d' d -> (forall k f m s, In (k, (f, m, s)) (cShape c) -> f d' = f d) -> leads (cman_eval c d) (cman_eval c d').
Proof.
  intros X Hs. unfold cman_eval. apply sum_leads; [apply leads_refl|]. unfold cman_terms.
  assert (A2 : forall (n1 n2 : string) (g : Qc -> Qc -> res Qc),
     leads (bind (at_ d n1) (fun v => bind (at_ d n2) (g v))) (bind (at_ d' n1) (fun v => bind (at_ d' n2) (g v)))).
  { intros. apply bind_leads; [intros v; apply at_mono, X|]. intros v. apply bind_leads; [intros w; apply at_mono, X|]. intros; apply leads_refl. }
  repeat apply Forall2_app; apply f2_map; intros kc Hk; try apply A2.
  - apply bind_leads; [intros v; apply at_mono, X|]. intros; apply leads_refl.
  - unfold interp_eval. apply bind_leads; [|intros; apply leads_refl]. intros xs. apply mapM_find_mono, X.
  - destruct kc as [k [[f m] s]]. cbn [snd]. unfold shape_eval. rewrite (Hs k f m s Hk). apply leads_refl.
Qed.
Lemma worth_add T (o : tsops T) h vals pars s p l c q v v' : h s = None -> h p = Some (TSum l c) ->
  worth o h vals pars p v -> worth o h vals pars q v' ->
  (forall k f m sg, In (k, (f, m, sg)) (cShape c) -> forall d d', extends d' d -> f d' = f d) ->
  worth o (tput h s (op_plus_sum (TSum l c) q)) vals pars s (v + v').
Proof.
  intros Hs Hp [t [w [U [P [K E]]]]] [t' [w' [U' [P' [K' E']]]]] Sh. unfold op_plus_sum. cbn [sum_add].
  inversion U as [p0 x HP|p0 l0 c0 ts HP HT]; subst; rewrite Hp in HP; [discriminate|]. injection HP as <- <-.
  inversion K as [|ts0 c0 d x ws HM HC HW]; subst. cbn [ends] in *.
  destruct (merged_exists pars (ends (Node (ts ++ [t']) c))) as [d' M'].
  { rewrite Forall_forall. intros r Hr. cbn [ends] in Hr. rewrite map_app, concat_app in Hr. cbn in Hr. rewrite app_nil_r in Hr.
    apply in_app_or in Hr. destruct Hr as [Hr|Hr]; eapply part_swf; [apply P, Hr|apply P', Hr]. }
  assert (X : extends d' d).
  { intros n y Hy. destruct HM as [_ HM]. destruct M' as [_ M']. rewrite M'. cbn [ends]. rewrite map_app, concat_app, first_of_app.
    rewrite HM in Hy. rewrite Hy. reflexivity. }
  exists (Node (ts ++ [t']) c), (rsum (ws ++ [w']) + qr x)%R. split.
  - eapply U_node; [unfold tput; rewrite Nat.eqb_refl; reflexivity|]. apply Forall2_app.
    + clear -HT Hs. generalize (@TSum T (l ++ [q]) c). intros ob. induction HT; constructor; [apply unfolds_fresh; assumption|assumption].
    + constructor; [apply unfolds_fresh; assumption|constructor].
  - split.
    + intros r Hr. cbn [ends] in Hr. rewrite map_app, concat_app in Hr. cbn in Hr. rewrite app_nil_r in Hr.
      apply part_fresh; [exact Hs|]. apply in_app_or in Hr. destruct Hr; auto.
    + split.
      * econstructor; [exact M'| |apply Forall2_app; [exact HW|constructor; [exact K'|constructor]]].
        apply (cman_mono c d d' X); [|exact HC]. intros k f m sg Hk. eapply Sh; [exact Hk|exact X].
      * cbn [ends]. rewrite map_app, concat_app. cbn. rewrite app_nil_r, map_app, !rsum_app. cbn. lra.
Qed.
Lemma operators_pkg T (o : tsops T) h vals pars s : h s = None ->
  (forall p q v v', worth o h vals pars p v -> worth o h vals pars q v' -> evaluates o (tput h s (op_plus p q)) s (v + v')) /\
  (forall p l c q v v', h p = Some (TSum l c) -> worth o h vals pars p v -> worth o h vals pars q v' ->
    (forall k f m sg, In (k, (f, m, sg)) (cShape c) -> forall d d', extends d' d -> f d' = f d) ->
    evaluates o (tput h s (op_plus_sum (TSum l c) q)) s (v + v')) /\
  (forall l vs, Forall2 (worth o h vals pars) l vs -> evaluates o (tput h s (op_sum l)) s (rsum vs)).
Proof.
  intros Hs. split; [|split].
  - intros p q v v' A B. apply (worth_evaluates T o _ vals pars). unfold op_plus, sum_two.
    replace (v + v')%R with (rsum [v; v']) by (cbn; lra). apply worth_sum; [exact Hs|]. repeat constructor; assumption.
  - intros p l c q v v' Hp A B Sh. apply (worth_evaluates T o _ vals pars). eapply worth_add; eassumption.
  - intros l vs F. apply (worth_evaluates T o _ vals pars). rewrite op_sum_list. apply worth_sum; assumption.
Qed.

(** a sum that contains itself *)
Lemma loop_nf {T} (ev : theap T -> nat -> theap T * res R) l : forall h r, (forall v, r <> Ok v) -> forall v, snd (ts_loop ev l h r) <> Ok (Ok v).
Proof.
  induction l as [|q l IH]; intros h r Hr v; cbn; [intros [= C]; eapply Hr; exact C|].
  destruct (ev h q) as [h' x]. destruct x; cbn; try discriminate; apply IH; [|discriminate]. intros u. destruct r; cbn; try discriminate. exfalso; eapply Hr; reflexivity.
Qed.
Lemma eval_keeps_sum {T} (o : tsops T) : forall fuel h q p l c, h p = Some (TSum l c) -> fst (ts_eval o fuel h q) p = Some (TSum l c).
Proof.
  induction fuel as [|f IH]; intros h q p l c Hp; cbn [ts_eval]; [exact Hp|]. destruct (h q) as [[x|m c']|] eqn:Hq; [| |exact Hp].
  - destruct (lEval o x) as [x' r]. cbn. unfold tput. destruct (Nat.eqb_spec p q); [subst; congruence|exact Hp].
  - assert (G : forall m h r, h p = Some (TSum l c) -> fst (ts_loop (ts_eval o f) m h r) p = Some (TSum l c)).
    { clear -IH. induction m as [|q m IHm]; intros h r Hp; cbn; [exact Hp|]. pose proof (IH h q p l c Hp) as H.
      destruct (ts_eval o f h q) as [h' x]. cbn in H. destruct x; cbn; auto. }
    specialize (G m h (Ok 0%R) Hp). destruct (ts_loop (ts_eval o f) m h (Ok 0%R)) as [h' [a| | | |]]; exact G.
Qed.
Lemma self_sum_pkg T (o : tsops T) p l c : In p l -> forall fuel h v, h p = Some (TSum l c) -> snd (ts_eval o fuel h p) <> Ok v.
Proof.
  intros Hin. induction fuel as [|f IH]; intros h v Hp; [discriminate|]. cbn [ts_eval]. rewrite Hp.
  assert (G : forall m, In p m -> forall h r x, h p = Some (TSum l c) -> snd (ts_loop (ts_eval o f) m h r) <> Ok (Ok x)).
  { clear -IH. induction m as [|q m IHm]; intros H h r x Hp; [destruct H|]. cbn [ts_loop].
    pose proof (eval_keeps_sum o f h q p l c Hp) as Hk. destruct H as [->|H].
    - pose proof (fun v => IH h v Hp) as N. destruct (ts_eval o f h p) as [h' y]. cbn in N. destruct y; cbn; try discriminate; [exfalso; eapply N; reflexivity|].
      apply loop_nf. discriminate.
    - destruct (ts_eval o f h q) as [h' y]. cbn in Hk. destruct y; cbn; try discriminate; apply IHm; assumption. }
  specialize (G l Hin h (Ok 0%R)). destruct (ts_loop (ts_eval o f) l h (Ok 0%R)) as [h' [a| | | |]]; cbn [snd] in *; try discriminate.
  unfold ts_constr. destruct (ts_get o (S f) h' p) as [d| | | |]; cbn [bind]; try discriminate. destruct (cman_eval c d) as [y| | | |]; try discriminate.
  destruct a as [b| | | |]; cbn [tplus]; try discriminate. intros _. exact (G b Hp eq_refl).
Qed.
