From Coq Require Import Reals.
From Verif Require Import Base.Res Base.Num Base.RNum Base.SMap Model.Constraint Model.Sum Spec.SumSpec.
From Coq Require Import Lra Psatz.
Local Open Scope nat_scope.

Lemma tree_rect2 (P : tree -> Prop) : (forall p, P (End p)) -> (forall ts c, Forall P ts -> P (Node ts c)) -> forall t, P t.
Proof.
  intros HE HN. fix IH 1. destruct t as [p|ts c]; [apply HE|]. apply HN. induction ts; constructor; [apply IH|assumption].
Qed.
Lemma f2_len {A B} (P : A -> B -> Prop) l m : Forall2 P l m -> List.length l = List.length m.
Proof. induction 1; cbn; congruence. Qed.
Lemma depth_in t ts : In t ts -> depth t <= list_max (map depth ts).
Proof.
  intros H. pose proof (list_max_le (map depth ts) (list_max (map depth ts))) as [A _].
  specialize (A (le_n _)). rewrite Forall_forall in A. apply A. apply in_map. exact H.
Qed.

#[local] Arguments first_of : simpl never.
(** merging *)
Lemma sfind_sinsert n k (v : Qc) m : sfind n (sinsert k v m) = match sfind n m with Some x => Some x | None => if String.eqb n k then Some v else None end.
Proof.
  unfold sinsert. destruct (sfind k m) eqn:E.
  - destruct (sfind n m) eqn:F; [reflexivity|]. destruct (String.eqb_spec n k); [subst; congruence|reflexivity].
  - rewrite sfind_sset. destruct (String.eqb_spec n k); [subst; rewrite E; reflexivity|destruct (sfind n m); reflexivity].
Qed.
Lemma sinsert_wf k (v : Qc) m : swf m -> swf (sinsert k v m).
Proof. intros H. unfold sinsert. destruct (sfind k m); [exact H|apply sset_wf; exact H]. Qed.
Lemma dmerge_wf d : forall acc, swf acc -> swf (dmerge acc d).
Proof. induction d as [|[k v] t IH]; intros acc H; cbn; [exact H|]. apply IH. apply sinsert_wf. exact H. Qed.
Lemma dmerge_find d : forall acc n, sfind n (dmerge acc d) = match sfind n acc with Some x => Some x | None => sfind n d end.
Proof.
  induction d as [|[k v] t IH]; intros acc n; cbn.
  - destruct (sfind n acc); reflexivity.
  - unfold dmerge in IH. rewrite IH. rewrite sfind_sinsert. destruct (sfind n acc); [reflexivity|]. cbn.
    destruct (String.eqb n k); reflexivity.
Qed.
Lemma first_of_app pars l m n : first_of pars (l ++ m) n = match first_of pars l n with Some v => Some v | None => first_of pars m n end.
Proof. unfold first_of. induction l as [|p t IH]; cbn; [reflexivity|]. destruct (sfind n (pars p)); [reflexivity|exact IH]. Qed.

(** what evaluating and setting leave of the heap *)
Definition kept {T} (h h' : theap T) : Prop :=
  (forall p ls c, h p = Some (TSum ls c) <-> h' p = Some (TSum ls c)) /\
  (forall p x, h p = Some (TLeaf x) -> exists x', h' p = Some (TLeaf x')).
Lemma kept_refl {T} (h : theap T) : kept h h. Proof. split; [tauto|eauto]. Qed.
Lemma kept_trans {T} (a b c : theap T) : kept a b -> kept b c -> kept a c.
Proof.
  intros [A1 A2] [B1 B2]. split; [intros; rewrite A1; apply B1|]. intros p x H. destruct (A2 _ _ H) as [x' H']. exact (B2 _ _ H').
Qed.
Lemma kept_put {T} (h : theap T) p x y : h p = Some (TLeaf x) -> kept h (tput h p (TLeaf y)).
Proof.
  intros H. split.
  - intros q ls c. unfold tput. destruct (Nat.eqb_spec q p); [subst; rewrite H; split; discriminate|tauto].
  - intros q z E. unfold tput. destruct (Nat.eqb_spec q p); [subst; eauto|eauto].
Qed.
Lemma kept_unfolds {T} (h h' : theap T) : kept h h' -> forall t p, unfolds h p t -> unfolds h' p t.
Proof.
  intros [K1 K2]. induction t as [q|ts c IH] using tree_rect2; intros p U; inversion U; subst.
  - destruct (K2 _ _ H1) as [x' Hx]. econstructor. exact Hx.
  - econstructor; [apply K1; eassumption|]. clear -H3 IH. induction H3; constructor; inversion IH; subst; auto.
Qed.

(** GetParameters *)
Lemma get_merged {T} (o : tsops T) pars : forall t h p fuel, unfolds h p t ->
  (forall q, In q (ends t) -> exists x, h q = Some (TLeaf x) /\ lGet o x = Ok (pars q) /\ swf (pars q)) -> depth t <= fuel ->
  exists d, ts_get o fuel h p = Ok d /\ merged pars (ends t) d.
Proof.
  induction t as [q|ts c IH] using tree_rect2; intros h p fuel U P F; destruct fuel as [|f]; cbn [depth] in F; try lia;
    inversion U as [p0 x HP|p0 l c0 ts0 HP HT]; subst; cbn [ts_get].
  - destruct (P q) as [x0 [Hx [G W]]]; [cbn; tauto|]. rewrite Hx. exists (pars q). split; [exact G|]. split; [exact W|].
    intros n. unfold first_of. cbn. destruct (sfind n (pars q)); reflexivity.
  - rewrite HP. cbn [ends] in P.
    assert (D : forall t, In t ts -> depth t <= f) by (intros t Ht; pose proof (depth_in _ _ Ht); lia).
    assert (W0 : swf (@sempty Qc)) by constructor.
    assert (G : forall acc, swf acc -> exists d,
      foldM (fun acc q => bind (ts_get o f h q) (fun d => Ok (dmerge acc d))) l acc = Ok d /\ swf d /\
      forall n, sfind n d = match sfind n acc with Some v => Some v | None => first_of pars (List.concat (map ends ts)) n end).
    { clear -HT IH P D. induction HT as [|q t l ts U1 U2 IHl]; intros acc W; cbn.
      - exists acc. split; [reflexivity|]. split; [exact W|]. intros n. unfold first_of. cbn. destruct (sfind n acc); reflexivity.
      - inversion IH as [|? ? IH1 IH2]; subst. destruct (IH1 h q f U1) as [d [E [Wd Md]]].
        + intros r Hr. apply P. cbn. apply in_or_app. tauto.
        + apply D. cbn. tauto.
        + rewrite E. cbn. destruct (IHl IH2) with (acc := dmerge acc d) as [d' [E' [W' M']]].
          * intros r Hr. apply P. cbn. apply in_or_app. tauto.
          * intros u Hu. apply D. cbn. tauto.
          * apply dmerge_wf. exact W.
          * exists d'. split; [exact E'|]. split; [exact W'|]. intros n. rewrite M', dmerge_find, first_of_app, Md.
            destruct (sfind n acc); reflexivity. }
    destruct (G sempty W0) as [d [E [W M]]]. exists d. split; [exact E|]. split; [exact W|]. intros n. rewrite M. reflexivity.
Qed.
Lemma merged_unique pars l d d' : merged pars l d -> merged pars l d' -> d = d'.
Proof. intros [W M] [W' M']. apply swf_ext; [exact W|exact W'|]. intros k. rewrite M, M'. reflexivity. Qed.

(** SetParameters, RegisterFitComponents *)
Lemma iterS_app {A B} (f : B -> A -> B * res unit) l m : forall s, iterS f (l ++ m) s = match iterS f l s with (s', Ok _) => iterS f m s' | (s', e) => (s', e) end.
Proof.
  induction l as [|x t IH]; intros s; cbn; [reflexivity|]. destruct (f s x) as [s' [u|e| | | ]]; try reflexivity. apply IH.
Qed.
Lemma on_part_kept {T} (f : T -> T * res unit) h p : kept h (fst (on_part f h p)).
Proof. unfold on_part. destruct (h p) as [[x|]|] eqn:E; cbn; try apply kept_refl. eapply kept_put. exact E. Qed.
Lemma iter_part_kept {T} (f : T -> T * res unit) l : forall h, kept h (fst (iterS (on_part f) l h)).
Proof.
  induction l as [|q t IH]; intros h; cbn; [apply kept_refl|]. pose proof (on_part_kept f h q) as K.
  destruct (on_part f h q) as [h' r]. cbn in K. destruct r; cbn; try exact K. eapply kept_trans; [exact K|apply IH].
Qed.
Lemma each_flat {T} (f : T -> T * res unit) : forall t h p fuel, unfolds h p t -> depth t <= fuel ->
  ts_each f fuel h p = iterS (on_part f) (ends t) h.
Proof.
  induction t as [q|ts c IH] using tree_rect2; intros h p fuel U F; destruct fuel as [|g]; cbn [depth] in F; try lia;
    inversion U as [p0 x HP|p0 l c0 ts0 HP HT]; subst; cbn [ts_each].
  - rewrite HP. cbn. unfold on_part. rewrite HP. destruct (f x) as [x' r]. cbn. destruct r as [[]| | | |]; reflexivity.
  - rewrite HP. cbn [ends].
    assert (D : forall t, In t ts -> depth t <= g) by (intros t Ht; pose proof (depth_in _ _ Ht); lia).
    clear -HT IH D. revert h HT. revert l. induction ts as [|t ts IHl]; intros l h U; inversion U as [|x ? l0 ? U1 U2]; subst; cbn; [reflexivity|].
    inversion IH as [|? ? IH1 IH2]; subst. rewrite iterS_app. rewrite (IH1 h x g); [|assumption|apply D; cbn; tauto].
    pose proof (iter_part_kept f (ends t) h) as K. destruct (iterS (on_part f) (ends t) h) as [h' r]. cbn in K.
    destruct r; try reflexivity. apply IHl; [assumption|intros u Hu; apply D; cbn; tauto|].
    clear -U2 K. induction U2; constructor; [eapply kept_unfolds; eassumption|assumption].
Qed.

(** Evaluate *)
Definition parts_kept {T} (o : tsops T) (h h' : theap T) : Prop := forall vals pars q, part o h vals pars q -> part o h' vals pars q.
Lemma evaluated_fst {T} (o : tsops T) x : forall k, evaluated o k (fst (lEval o x)) = evaluated o (S k) x.
Proof. unfold evaluated. induction k as [|k IH]; [reflexivity|]. cbn [Nat.iter nat_rect] in *. change (fst (lEval o (Nat.iter k (fun y => fst (lEval o y)) (fst (lEval o x)))) = fst (lEval o (Nat.iter (S k) (fun y => fst (lEval o y)) x))). f_equal. f_equal. exact IH. Qed.
Lemma steady_eval {T} (o : tsops T) x v d : steady o x v d -> steady o (fst (lEval o x)) v d.
Proof. intros [W H]. split; [exact W|]. intros k. rewrite evaluated_fst. apply H. Qed.
Lemma rsum_app l m : rsum (l ++ m) = (rsum l + rsum m)%R.
Proof. induction l as [|x t IH]; cbn; [lra|]. rewrite IH. lra. Qed.

Lemma eval_tree {T} (o : tsops T) vals pars : forall t h p w fuel, unfolds h p t ->
  (forall q, In q (ends t) -> part o h vals pars q) -> constraints pars t w -> depth t <= fuel ->
  exists h', ts_eval o fuel h p = (h', Ok (rsum (map vals (ends t)) + w)%R) /\ kept h h' /\ parts_kept o h h' /\
    (forall q, ~ In q (ends t) -> h' q = h q).
Proof.
  induction t as [q|ts c IH] using tree_rect2; intros h p w fuel U P K F; destruct fuel as [|g]; cbn [depth] in F; try lia;
    inversion U as [p0 x HP|p0 l c0 ts0 HP HT]; subst; inversion K as [|ts0 c0 d v ws HM HC HW]; subst; cbn [ts_eval].
  - rewrite HP. destruct (P q) as [x' [Hx S0]]; [cbn; tauto|]. rewrite HP in Hx. injection Hx as <-.
    pose proof S0 as [_ S1]. specialize (S1 0). cbn in S1. destruct S1 as [E _]. pose proof (steady_eval _ _ _ _ S0) as S2.
    destruct (lEval o x) as [y r]. cbn in E, S2. subst r. eexists. split; [cbn; do 2 f_equal; lra|]. split; [eapply kept_put; exact HP|].
    split.
    + intros vals' pars' r [z [Hz Sz]]. unfold part, tput. destruct (Nat.eqb_spec r q); [|exists z; auto]. subst r.
      rewrite HP in Hz. injection Hz as <-. exists y. split; [reflexivity|].
      pose proof Sz as [_ S1]. specialize (S1 0). cbn in S1.
      pose proof (steady_eval _ _ _ _ Sz) as S3. destruct S2 as [_ S2]. 
      destruct S0 as [_ S0]. assert (EE := evaluated_fst o x).
      destruct S3 as [W3 S3]. split; [exact W3|]. intros k. specialize (S0 (Datatypes.S k)). specialize (S2 k). specialize (S3 k).
      rewrite EE in S3. destruct S3 as [S3a S3b]. destruct S0 as [S0a S0b]. destruct S2 as [S2a S2b].
      assert (V : vals' q = vals q) by congruence. assert (D : pars' q = pars q) by congruence. rewrite V, D. split; assumption.
    + intros r Hr. unfold tput. destruct (Nat.eqb_spec r q); [subst; cbn in Hr; tauto|reflexivity].
  - assert (D : forall t, In t ts -> depth t <= g) by (intros t Ht; pose proof (depth_in _ _ Ht); lia).
    rewrite HP.
    assert (L : forall acc, exists h', ts_loop (ts_eval o g) l h (Ok acc) = (h', Ok (Ok (acc + (rsum (map vals (List.concat (map ends ts))) + rsum ws)))%R) /\
      kept h h' /\ parts_kept o h h' /\ forall q, ~ In q (List.concat (map ends ts)) -> h' q = h q).
    { clear -HT IH P D HW. cbn [ends] in P. revert l h ws HT P HW. induction ts as [|t ts IHl]; intros l h ws U P K acc; inversion U as [|x ? l0 ? U1 U2]; subst; inversion K as [|? y ? l' K1' K2']; subst; cbn.
      - exists h. split; [do 3 f_equal; lra|]. split; [apply kept_refl|]. split; [intros ? ? ? ?; assumption|reflexivity].
      - inversion IH as [|? ? IH1 IH2]; subst. cbn in P. destruct (IH1 h x y g) as [h1 [E1 [K1 [P1 O1]]]]; [assumption| |assumption|apply D; cbn; tauto|].
        { intros r Hr. apply P. apply in_or_app. tauto. }
        rewrite E1. cbn. destruct (IHl IH2) with (l := l0) (h := h1) (ws := l') (acc := (acc + (rsum (map vals (ends t)) + y))%R) as [h2 [E2 [K2 [P2 O2]]]].
        + intros u Hu. apply D. cbn. tauto.
        + clear -U2 K1. induction U2; constructor; [eapply kept_unfolds; eassumption|assumption].
        + intros r Hr. apply P1. apply P. apply in_or_app. tauto.
        + assumption.
        + exists h2. rewrite E2. split; [do 3 f_equal; rewrite map_app, rsum_app; lra|]. split; [eapply kept_trans; eassumption|].
          split; [intros a b r Hr; apply P2, P1, Hr|]. intros r Hr. rewrite O2, O1; [reflexivity| |]; intros C; apply Hr; apply in_or_app; tauto. }
    destruct (L 0%R) as [h' [E [K1 [P1 O1]]]]. rewrite E. exists h'. split; [|split; [exact K1|split; [exact P1|exact O1]]].
    f_equal. destruct (get_merged o pars (Node ts c) h' p (S g)) as [d' [G M]].
    + eapply kept_unfolds; [exact K1|exact U].
    + intros q Hq. destruct (P1 vals pars q (P q Hq)) as [x [Hx [W S1]]]. exists x. destruct (S1 0) as [_ S2]. auto.
    + cbn [depth]. lia.
    + rewrite G. unfold ts_constr. cbn. rewrite (merged_unique _ _ _ _ M HM). rewrite HC. cbn. f_equal. lra.
Qed.
