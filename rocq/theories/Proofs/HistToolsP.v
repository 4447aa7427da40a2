(** C61: the histogram helpers, part 1: MakeAllHists, pairs, FillAllHists, projections. *)
From Verif Require Import Base.Res Base.Num Base.SMap Model.Axis Model.Hist Model.HistTools Spec.AxisSpec Spec.HistSpec
  Spec.HistToolsSpec Proofs.AxisP Proofs.AxisP2 Proofs.HistP Proofs.HistP2 Proofs.HistP3 Proofs.HistP4.
From Coq Require Import Lia Permutation Ascii.
Local Open Scope nat_scope.
Local Open Scope res_scope.

(** pair sets *)
Lemma pcompare_eq p q : pcompare p q = Eq -> p = q.
Proof.
  destruct p as [a b], q as [c d]. unfold pcompare. cbn [fst snd]. destruct (String.compare a c) eqn:E; try discriminate.
  intros E2. apply compare_eq in E, E2. subst. reflexivity.
Qed.
Lemma pcompare_refl p : pcompare p p = Eq.
Proof. unfold pcompare. rewrite (proj2 (compare_eq (fst p) (fst p)) eq_refl). apply compare_eq. reflexivity. Qed.
Lemma pset_add_in p s q : In q (pset_add p s) <-> q = p \/ In q s.
Proof.
  induction s as [|r t IH]; cbn [pset_add].
  - cbn [In]. intuition congruence.
  - destruct (pcompare p r) eqn:E; cbn [In].
    + apply pcompare_eq in E. subst. intuition congruence.
    + intuition congruence.
    + rewrite IH. intuition congruence.
Qed.
Definition plt (p q : string * string) : Prop := pcompare p q = Lt.
Lemma pcompare_gt p q : pcompare p q = Gt -> plt q p.
Proof.
  unfold plt, pcompare. destruct (String.compare (fst p) (fst q)) eqn:E; try discriminate; intros E2.
  - apply compare_eq in E. rewrite E. rewrite (proj2 (compare_eq _ _) eq_refl). apply compare_gt in E2. exact E2.
  - apply compare_gt in E. unfold slt in E. rewrite E. reflexivity.
Qed.
Lemma plt_trans p q r : plt p q -> plt q r -> plt p r.
Proof.
  unfold plt, pcompare.
  destruct (String.compare (fst p) (fst q)) eqn:E1; try discriminate;
  destruct (String.compare (fst q) (fst r)) eqn:E2; try discriminate; intros H1 H2.
  - apply compare_eq in E1, E2. rewrite E1, E2, (proj2 (compare_eq _ _) eq_refl).
    exact (RelationClasses.StrictOrder_Transitive (R := slt) _ _ _ H1 H2).
  - apply compare_eq in E1. rewrite E1, E2. reflexivity.
  - apply compare_eq in E2. rewrite <- E2, E1. reflexivity.
  - pose proof (RelationClasses.StrictOrder_Transitive (R := slt) _ _ _ E1 E2) as T. unfold slt in T. rewrite T. reflexivity.
Qed.
Lemma pset_add_sorted p s : Sorted.StronglySorted plt s -> Sorted.StronglySorted plt (pset_add p s).
Proof.
  intros H. induction s as [|r t IH]; cbn [pset_add].
  - repeat constructor.
  - inversion H as [|? ? Ht Hr]; subst. destruct (pcompare p r) eqn:E.
    + exact H.
    + constructor; [exact H|]. constructor; [exact E|]. eapply Forall_impl; [|exact Hr]. intros q Hq. exact (plt_trans _ _ _ E Hq).
    + constructor; [exact (IH Ht)|]. apply Forall_forall. intros q Hq. apply pset_add_in in Hq. destruct Hq as [->|Hq].
      * apply pcompare_gt. exact E.
      * rewrite Forall_forall in Hr. exact (Hr q Hq).
Qed.
Lemma plt_irrefl p : ~ plt p p.
Proof. unfold plt. rewrite pcompare_refl. discriminate. Qed.
Lemma psorted_nodup s : Sorted.StronglySorted plt s -> NoDup s.
Proof.
  intros H. induction H as [|p s Hs IH Hp]; constructor; [|exact IH]. intros C. rewrite Forall_forall in Hp.
  exact (plt_irrefl p (Hp p C)).
Qed.
Lemma pset_add_length p s : ~ In p s -> List.length (pset_add p s) = S (List.length s).
Proof.
  induction s as [|r t IH]; intros H; cbn [pset_add]; [reflexivity|]. destruct (pcompare p r) eqn:E; cbn [List.length].
  - apply pcompare_eq in E. exfalso. apply H. left. congruence.
  - reflexivity.
  - rewrite IH; [reflexivity|]. intros C. apply H. now right.
Qed.

Lemma inner_in x before : forall s q, In q (fold_left (fun acc y => pset_add (x, y) acc) before s) <->
  In q s \/ (fst q = x /\ In (snd q) before).
Proof.
  induction before as [|y b IH]; intros s q; cbn [fold_left].
  - cbn [In]. tauto.
  - rewrite IH, pset_add_in. cbn [In]. destruct q as [q1 q2]. cbn [fst snd]. split.
    + intros [[E|H]|[H1 H2]]; [injection E as -> ->|..]; tauto.
    + intros [H|[-> [->|H]]]; tauto.
Qed.
Lemma inner_sorted x before : forall s, Sorted.StronglySorted plt s ->
  Sorted.StronglySorted plt (fold_left (fun acc y => pset_add (x, y) acc) before s).
Proof. induction before as [|y b IH]; intros s H; cbn [fold_left]; [exact H|]. apply IH, pset_add_sorted, H. Qed.
Lemma inner_length x before : forall s, NoDup before -> (forall y, In y before -> ~ In (x, y) s) ->
  List.length (fold_left (fun acc y => pset_add (x, y) acc) before s) = List.length before + List.length s.
Proof.
  induction before as [|y b IH]; intros s Hnd H; cbn [fold_left List.length]; [reflexivity|].
  inversion Hnd as [|? ? Hy Hb]; subst. rewrite IH; [|exact Hb|].
  - rewrite pset_add_length; [lia|]. apply H. now left.
  - intros z Hz C. apply pset_add_in in C. destruct C as [E|C].
    + injection E as ->. contradiction.
    + exact (H z (or_intror Hz) C).
Qed.

(** x after y in the list *)
Definition later (l : list string) (x y : string) : Prop := exists a b c, l = a ++ y :: b ++ x :: c.
Lemma combs_loop_in after : forall before s q,
  In q (combs_loop before after s) <-> In q s \/ exists a c, after = a ++ fst q :: c /\ In (snd q) (before ++ a).
Proof.
  induction after as [|x t IH]; intros before s q; cbn [combs_loop].
  - split; [tauto|]. intros [H|[a [c [E _]]]]; [exact H|]. destruct a; discriminate.
  - rewrite IH, inner_in. split.
    + intros [[H|[E H]]|[a [c [E H]]]].
      * now left.
      * right. exists [], t. rewrite app_nil_r, E. auto.
      * right. exists (x :: a), c. rewrite <- app_assoc in H. cbn [app]. rewrite E. auto.
    + intros [H|[[|y a] [c [E H]]]].
      * tauto.
      * cbn [app] in E. injection E as -> _. rewrite app_nil_r in H. tauto.
      * cbn [app] in E. injection E as -> E. right. exists a, c. split; [exact E|]. rewrite <- app_assoc. exact H.
Qed.
Lemma combs_loop_sorted after : forall before s, Sorted.StronglySorted plt s ->
  Sorted.StronglySorted plt (combs_loop before after s).
Proof. induction after as [|x t IH]; intros before s H; cbn [combs_loop]; [exact H|]. apply IH, inner_sorted, H. Qed.
Lemma combs_loop_length after : forall before s, NoDup (before ++ after) ->
  (forall q, In q s -> In (fst q) before) ->
  2 * List.length (combs_loop before after s) + List.length before * (List.length before - 1) =
  2 * List.length s + List.length (before ++ after) * (List.length (before ++ after) - 1).
Proof.
  induction after as [|x t IH]; intros before s Hnd Hs; cbn [combs_loop].
  - rewrite app_nil_r. lia.
  - pose proof (IH (before ++ [x]) (fold_left (fun acc y => pset_add (x, y) acc) before s)) as IHx.
    rewrite <- app_assoc in IHx. cbn [app] in IHx. specialize (IHx Hnd).
    assert (Hx : ~ In x before).
    { apply NoDup_remove_2 in Hnd. intros C. apply Hnd. apply in_or_app. now left. }
    assert (Hb : NoDup before). { clear -Hnd. induction before as [|y b IHb]; [constructor|]. cbn [app] in Hnd.
      inversion Hnd as [|? ? H1 H2]; subst. constructor; [|exact (IHb H2)]. intros C. apply H1. apply in_or_app. now left. }
    rewrite inner_length in IHx; [|exact Hb|intros y _ C; exact (Hx (Hs _ C))].
    rewrite (app_length before [x]) in IHx. cbn [List.length] in IHx.
    assert (H : forall q, In q (fold_left (fun acc y => pset_add (x, y) acc) before s) -> In (fst q) (before ++ [x])).
    { intros q Hq. apply inner_in in Hq. apply in_or_app. destruct Hq as [Hq|[-> _]]; [left; exact (Hs q Hq)|right; now left]. }
    specialize (IHx H). destruct (List.length before) as [|n]; nia.
Qed.

Lemma pairs_pkg names : NoDup names ->
  covers_pairs names (allCombsNoDiag names) /\
  2 * List.length (allCombsNoDiag names) = List.length names * (List.length names - 1).
Proof.
  intros Hnd. unfold allCombsNoDiag.
  assert (Hin : forall q, In q (combs_loop [] names []) <-> exists a c, names = a ++ fst q :: c /\ In (snd q) a).
  { intros q. rewrite combs_loop_in. cbn [In app]. split; [intros [[]|H]; exact H|now right]. }
  assert (Hneq : forall q, In q (combs_loop [] names []) -> fst q <> snd q).
  { intros q Hq E. apply Hin in Hq. destruct Hq as [a [c [En H]]]. rewrite En in Hnd. apply NoDup_remove_2 in Hnd.
    apply Hnd. apply in_or_app. left. rewrite E. exact H. }
  split; [split; [|split]|].
  - apply psorted_nodup, combs_loop_sorted. constructor.
  - intros p Hp. pose proof (Hneq p Hp) as Hne. apply Hin in Hp. destruct Hp as [a [c [E H]]]. unfold distinct_pair. rewrite E.
    repeat split; [apply in_or_app; right; now left|apply in_or_app; now left|exact Hne].
  - intros x y Hx Hy Hxy.
    assert (Hord : forall u v, In u names -> In v names -> u <> v -> ~ (In (u, v) (combs_loop [] names []) /\ In (v, u) (combs_loop [] names []))).
    { intros u v _ _ Huv [H1 H2]. apply Hin in H1, H2. cbn [fst snd] in H1, H2.
      destruct H1 as [a [c [E1 H1]]]. destruct H2 as [a' [c' [E2 H2]]].
      apply in_split in H1. destruct H1 as [a1 [a2 ->]]. rewrite E1 in E2. rewrite <- app_assoc in E2. cbn [app] in E2.
      assert (Ea : a1 = a').
      { rewrite E1 in Hnd. rewrite <- app_assoc in Hnd. cbn [app] in Hnd.
        clear -E2 Hnd. revert a' E2 Hnd. induction a1 as [|z a1 IH]; intros [|w a'] E2 Hnd; cbn [app] in *.
        - reflexivity.
        - injection E2 as -> E2. exfalso. inversion Hnd as [|? ? H1 H2]; subst. apply H1. rewrite E2. apply in_or_app. right. now left.
        - injection E2 as -> E2. exfalso. inversion Hnd as [|? ? H1 H2]; subst. apply H1. apply in_or_app. right. now left.
        - injection E2 as -> E2. f_equal. inversion Hnd as [|? ? H1 H2]; subst. exact (IH a' E2 H2). }
      subst a'. rewrite E1 in Hnd. apply NoDup_remove_2 in Hnd. apply Hnd. apply in_or_app. left. apply in_or_app. now left. }
    assert (Hone : In (x, y) (combs_loop [] names []) \/ In (y, x) (combs_loop [] names [])).
    { apply in_split in Hx. destruct Hx as [a [c E]]. rewrite E in Hy. apply in_app_or in Hy. destruct Hy as [Hy|[Hy|Hy]].
      - left. apply Hin. exists a, c. auto.
      - congruence.
      - right. apply Hin. apply in_split in Hy. destruct Hy as [c1 [c2 ->]]. cbn [fst snd].
        exists (a ++ x :: c1), c2. split; [rewrite E, <- app_assoc; reflexivity|]. apply in_or_app. right. now left. }
    apply in_split in Hx as Hx'. pose proof (Hord x y Hx Hy Hxy). tauto.
  - pose proof (combs_loop_length names [] [] Hnd) as H. cbn [app List.length] in H. specialize (H (fun q (F : In q []) => match F with end)). nia.
Qed.

(** MakeAllHists *)
Lemma one_axis ac n : ac_reach ac -> In n (map aName (acAxes ac)) ->
  exists a axes, getAxisByName ac n = Ok a /\ In a (acAxes ac) /\ aName a = n /\ addAxis ac_empty a = Ok axes /\
    ac_reach axes /\ acAxes axes = [a].
Proof.
  intros Hac Hn. pose proof (ac_reach_ok _ Hac) as Hok.
  destruct (named_facts ac n Hok Hn) as [E1 [_ [_ [E4 [E5 [_ E7]]]]]].
  exists (ax_named ac n). destruct (addAxis_new ac_empty (ax_named ac n)) as [axes E]; [intros []|].
  exists axes. destruct (addAxis_ok _ _ _ ac_empty_ok E7 E) as [_ [Hax _]].
  split; [exact E1|]. split; [eapply nth_error_In; exact E4|]. split; [exact E5|]. split; [exact E|].
  split; [exact (ar_add _ _ _ ar_empty E7 E)|exact Hax].
Qed.
Lemma getAxisByName_unknown ac n : ac_reach ac -> ~ In n (map aName (acAxes ac)) -> getAxisByName ac n = Throw NotFoundError.
Proof. intros Hac Hn. unfold getAxisByName. rewrite (getAxisIndex_notin _ _ (ac_reach_ok _ Hac) Hn). reflexivity. Qed.

Definition mk1 (ac : axcol) (hs : smap hist) (n : string) : res (smap hist) :=
  do a <- getAxisByName ac n; do axes <- addAxis ac_empty a; Ok (sset n (mk_hist axes) hs).
Definition good (ac : axcol) (names : list string) (h : hist) : Prop := h_reach h /\ axes_named ac names h /\ all_zero h.
Lemma good1 ac a axes : In a (acAxes ac) -> ac_reach axes -> acAxes axes = [a] -> good ac [aName a] (mk_hist axes).
Proof.
  intros Ha Hr Hx. split; [apply hr_new; [exact Hr|rewrite Hx; discriminate]|]. split.
  - unfold axes_named. cbn [mk_hist setAxes hAxes]. rewrite Hx. repeat constructor. exact Ha.
  - intros i. apply mk_hist_cont.
Qed.
Lemma makeHists1_gen ac names : ac_reach ac -> incl names (map aName (acAxes ac)) -> forall hs0, swf hs0 ->
  exists hs, foldM (mk1 ac) names hs0 = Ok hs /\ swf hs /\
    (forall n, In n names -> exists h, sfind n hs = Some h /\ good ac [n] h) /\
    (forall n, ~ In n names -> sfind n hs = sfind n hs0).
Proof.
  intros Hac. induction names as [|n names IH]; intros Hin hs0 Hw; cbn [foldM].
  - exists hs0. repeat split; auto. intros n [].
  - destruct (one_axis ac n Hac (Hin n (or_introl eq_refl))) as [a [axes [E1 [Ha [En [E2 [Hr Hx]]]]]]].
    unfold mk1 at 1. rewrite E1. cbn [bind]. rewrite E2. cbn [bind].
    destruct (IH (fun x Hx0 => Hin x (or_intror Hx0)) (sset n (mk_hist axes) hs0) (sset_wf _ _ _ Hw)) as [hs [E [Hs [H1 H2]]]].
    exists hs. split; [exact E|]. split; [exact Hs|]. split.
    + intros m [<-|Hm]; [|exact (H1 m Hm)]. destruct (in_dec string_dec n names) as [Hi|Hi]; [exact (H1 n Hi)|].
      exists (mk_hist axes). split; [rewrite (H2 n Hi); apply sfind_sset_eq|]. rewrite <- En. now apply good1.
    + intros m Hm. rewrite H2 by (intros C; apply Hm; now right). apply sfind_sset_neq. intros ->. apply Hm. now left.
Qed.
Lemma makeHists1_bad ac names : ac_reach ac -> ~ incl names (map aName (acAxes ac)) -> forall hs0,
  foldM (mk1 ac) names hs0 = Throw NotFoundError.
Proof.
  intros Hac. induction names as [|n names IH]; intros Hin hs0; cbn [foldM].
  - exfalso. apply Hin. intros x [].
  - destruct (in_dec string_dec n (map aName (acAxes ac))) as [Hn|Hn].
    + destruct (one_axis ac n Hac Hn) as [a [axes [E1 [Ha [En [E2 [Hr Hx]]]]]]].
      unfold mk1 at 1. rewrite E1. cbn [bind]. rewrite E2. cbn [bind]. apply IH.
      intros C. apply Hin. intros x [<-|Hx0]; auto.
    + unfold mk1 at 1. rewrite (getAxisByName_unknown _ _ Hac Hn). reflexivity.
Qed.
Lemma makeHists1_pkg ac names : ac_reach ac ->
  (incl names (map aName (acAxes ac)) ->
   exists hs, makeHists1 ac names = Ok hs /\ swf hs /\ (forall n, In n (skeys hs) <-> In n names) /\
     forall n h, sfind n hs = Some h -> h_reach h /\ axes_named ac [n] h /\ all_zero h) /\
  (~ incl names (map aName (acAxes ac)) -> makeHists1 ac names = Throw NotFoundError).
Proof.
  intros Hac. split; intros Hin.
  - destruct (makeHists1_gen ac names Hac Hin [] sempty_wf) as [hs [E [Hs [H1 H2]]]].
    assert (Hk : forall n, In n (skeys hs) <-> In n names).
    { intros n. split.
      - intros H. destruct (in_dec string_dec n names) as [Hi|Hi]; [exact Hi|]. exfalso.
        pose proof (H2 n Hi) as E0. cbn [sfind] in E0. apply sfind_not_in in E0. contradiction.
      - intros H. destruct (H1 n H) as [h [E0 _]]. apply sfind_in. eauto. }
    exists hs. split; [exact E|]. split; [exact Hs|]. split; [exact Hk|].
    intros n h E0. assert (Hn : In n names) by (apply Hk, sfind_in; eauto).
    destruct (H1 n Hn) as [h' [E1 G]]. rewrite E0 in E1. injection E1 as <-. exact G.
  - exact (makeHists1_bad ac names Hac Hin []).
Qed.

Definition mk2 (ac : axcol) (hs : smap hist) (p : string * string) : res (smap hist) :=
  do a <- getAxisByName ac (fst p); do axes <- addAxis ac_empty a;
  do b <- getAxisByName ac (snd p); do axes2 <- addAxis axes b; Ok (sset (pairKey p) (mk_hist axes2) hs).
Lemma mk2_ok ac hs p : ac_reach ac -> distinct_pair (map aName (acAxes ac)) p ->
  exists h, mk2 ac hs p = Ok (sset (pairKey p) h hs) /\ good ac [fst p; snd p] h.
Proof.
  intros Hac [H1 [H2 H3]]. destruct (one_axis ac _ Hac H1) as [a [axes [E1 [Ha [En [E2 [Hr Hx]]]]]]].
  destruct (one_axis ac _ Hac H2) as [b [axb [F1 [Hb [Fn [F2 [Hrb Hxb]]]]]]].
  assert (Hbb : built b). { pose proof (ac_reach_ok _ Hac) as [_ [_ [_ [_ [_ HB]]]]]. rewrite Forall_forall in HB. exact (HB b Hb). }
  destruct (addAxis_new axes b) as [axes2 E3].
  { rewrite Hx. cbn [map In]. intros [C|[]]. congruence. }
  destruct (addAxis_ok _ _ _ (ac_reach_ok _ Hr) Hbb E3) as [_ [Hax2 _]]. rewrite Hx in Hax2. cbn [app] in Hax2.
  exists (mk_hist axes2). split.
  - unfold mk2. rewrite E1. cbn [bind]. rewrite E2. cbn [bind]. rewrite F1. cbn [bind]. rewrite E3. reflexivity.
  - split; [apply hr_new; [exact (ar_add _ _ _ Hr Hbb E3)|rewrite Hax2; discriminate]|]. split.
    + unfold axes_named. cbn [mk_hist setAxes hAxes]. rewrite Hax2. repeat constructor; auto.
    + intros i. apply mk_hist_cont.
Qed.
Lemma makeHists2_gen ac pairs : ac_reach ac -> (forall p, In p pairs -> distinct_pair (map aName (acAxes ac)) p) ->
  forall hs0, swf hs0 ->
  exists hs, foldM (mk2 ac) pairs hs0 = Ok hs /\ swf hs /\
    (forall p, In p pairs -> exists q h, In q pairs /\ pairKey q = pairKey p /\ sfind (pairKey p) hs = Some h /\
       good ac [fst q; snd q] h) /\
    (forall k, ~ In k (map pairKey pairs) -> sfind k hs = sfind k hs0).
Proof.
  intros Hac. induction pairs as [|p pairs IH]; intros Hin hs0 Hw; cbn [foldM].
  - exists hs0. repeat split; auto. intros p [].
  - destruct (mk2_ok ac hs0 p Hac (Hin p (or_introl eq_refl))) as [h [E0 G0]]. rewrite E0. cbn [bind].
    destruct (IH (fun x Hx0 => Hin x (or_intror Hx0)) (sset (pairKey p) h hs0) (sset_wf _ _ _ Hw)) as [hs [E [Hs [H1 H2]]]].
    exists hs. split; [exact E|]. split; [exact Hs|]. split.
    + intros q [<-|Hq].
      * destruct (in_dec string_dec (pairKey p) (map pairKey pairs)) as [Hi|Hi].
        -- apply in_map_iff in Hi. destruct Hi as [q [Eq Hq]]. destruct (H1 q Hq) as [q' [h' [A1 [A2 [A3 A4]]]]].
           exists q', h'. rewrite Eq in *. split; [now right|]. auto.
        -- exists p, h. split; [now left|]. split; [reflexivity|]. split; [|exact G0].
           rewrite (H2 _ Hi). apply sfind_sset_eq.
      * destruct (H1 q Hq) as [q' [h' [A1 A2]]]. exists q', h'. split; [now right|exact A2].
    + intros k Hk. cbn [map In] in Hk. rewrite H2 by tauto. apply sfind_sset_neq. intros ->. tauto.
Qed.
Lemma makeHists2_pkg ac pairs : ac_reach ac -> (forall p, In p pairs -> distinct_pair (map aName (acAxes ac)) p) ->
  (forall p q, In p pairs -> In q pairs -> pairKey p = pairKey q -> p = q) ->
  exists hs, makeHists2 ac pairs = Ok hs /\ swf hs /\
    (forall k, In k (skeys hs) <-> exists p, In p pairs /\ k = (fst p ++ "_" ++ snd p)%string) /\
    (NoDup pairs -> List.length hs = List.length pairs) /\
    forall p, In p pairs -> exists h, sfind (fst p ++ "_" ++ snd p)%string hs = Some h /\
      h_reach h /\ axes_named ac [fst p; snd p] h /\ all_zero h.
Proof.
  intros Hac Hp Hinj. destruct (makeHists2_gen ac pairs Hac Hp [] sempty_wf) as [hs [E [Hs [H1 H2]]]].
  assert (Hk : forall k, In k (skeys hs) <-> In k (map pairKey pairs)).
  { intros k. split.
    - intros H. destruct (in_dec string_dec k (map pairKey pairs)) as [Hi|Hi]; [exact Hi|]. exfalso.
      pose proof (H2 k Hi) as E0. cbn [sfind] in E0. apply sfind_not_in in E0. contradiction.
    - intros H. apply in_map_iff in H. destruct H as [p [<- Hpp]]. destruct (H1 p Hpp) as [q [h [_ [_ [E0 _]]]]]. apply sfind_in. eauto. }
  exists hs. split; [exact E|]. split; [exact Hs|]. split; [|split].
  - intros k. rewrite Hk, in_map_iff. split; intros [p [A B]]; exists p; auto.
  - intros Hnd. transitivity (List.length (skeys hs)); [symmetry; apply map_length|].
    transitivity (List.length (map pairKey pairs)); [|apply map_length].
    apply Permutation_length, NoDup_Permutation; [exact (swf_nodup _ Hs)| |exact Hk].
    apply NoDup_map_inj; [exact Hinj|exact Hnd].
  - intros p Hpp. destruct (H1 p Hpp) as [q [h [Hq [Ek [E0 G]]]]]. rewrite (Hinj q p Hq Hpp Ek) in G. exists h. auto.
Qed.

(** names without an underscore give different keys *)
Lemma no_us_split a : forall b c d, no_us a -> no_us b ->
  (a ++ String "_"%char c)%string = (b ++ String "_"%char d)%string -> a = b /\ c = d.
Proof.
  induction a as [|x a IH]; intros [|y b] c d Ha Hb E; cbn [String.append] in E.
  - injection E as ->. auto.
  - injection E as E _. exfalso. destruct Hb as [H _]. congruence.
  - injection E as E _. exfalso. destruct Ha as [H _]. congruence.
  - injection E as -> E. destruct (IH b c d (proj2 Ha) (proj2 Hb) E) as [-> ->]. auto.
Qed.
Lemma key_inj p q : no_us (fst p) -> no_us (fst q) -> pairKey p = pairKey q -> p = q.
Proof.
  destruct p as [a b], q as [c d]. unfold pairKey. cbn [fst snd]. intros Ha Hc E. cbn [String.append] in E.
  destruct (no_us_split a c b d Ha Hc E) as [-> ->]. reflexivity.
Qed.
