From Coq Require Import ZArith DecimalString DecimalNat Ascii Sorted.
From Verif Require Import Base.Res Base.Num Base.SMap Model.Axis Model.Hist Model.Param Spec.AxisSpec Spec.HistSpec Spec.ParamSpec
  Proofs.AxisP Proofs.HistP Proofs.HistP4 Proofs.ParamP.
Local Open Scope Qc_scope.

Lemma registry_pkg p : pm_reach p ->
  NoDup (pm_names p) /\ pm_count p = List.length (pm_names p) /\
  (forall n, In n (pm_names p) -> exists l v, bound p n l /\ deref (pmMem p) l = Ok v /\ pm_get p n = Ok v) /\
  (forall n v, ~ In n (pm_names p) -> pm_get p n = Throw ParameterError /\ pm_set p n v = (p, Throw ParameterError)) /\
  (exists d, pm_getAll p = Ok d /\ swf d /\ skeys d = pm_names p /\ forall n v, sfind n d = Some v <-> pm_get p n = Ok v).
Proof.
  intros H. apply pm_reach_ok in H as Hp. split; [apply swf_nodup, Hp|]. split; [unfold pm_count, pm_names, skeys; now rewrite map_length|].
  split; [|split].
  - intros n Hn. apply sfind_in in Hn as [l B]. pose proof (proj2 Hp n l B) as L. destruct (deref_ok _ _ L) as [v D].
    exists l, v. split; [exact B|]. split; [exact D|]. now rewrite (pm_get_bound p n l B L).
  - intros n v Hn. apply sfind_not_in in Hn. split; [now apply pm_get_unbound|]. unfold pm_set. now rewrite Hn.
  - apply pm_getAll_ok, Hp.
Qed.

Lemma to_uint_nonnil i : Nat.to_uint i <> Decimal.Nil.
Proof.
  intros C. assert (Z : i = 0%nat).
  { rewrite <- (DecimalNat.Unsigned.of_to i), C. reflexivity. }
  subst. discriminate.
Qed.
Lemma dec_inj i j : dec i = dec j -> i = j.
Proof.
  unfold dec. intros H. apply (f_equal NilZero.uint_of_string) in H. rewrite !NilZero.usu in H by apply to_uint_nonnil.
  apply DecimalNat.Unsigned.to_uint_inj. congruence.
Qed.
Lemma append_inj a b c : (a ++ b = a ++ c)%string -> b = c.
Proof. induction a as [|x a IH]; cbn; [auto|]. intros [= H]. auto. Qed.
Lemma NoDup_map_inj {A B} (f : A -> B) l : (forall x y, f x = f y -> x = y) -> NoDup l -> NoDup (map f l).
Proof.
  intros Hf. induction 1 as [|x l Hx Hl IH]; cbn; constructor; [|exact IH].
  intros C. apply in_map_iff in C as [y [E Hy]]. apply Hf in E as ->. contradiction.
Qed.
Lemma base_names_nodup b k : NoDup (base_names b k).
Proof.
  apply NoDup_map_inj; [|apply seq_NoDup]. intros x y H. apply append_inj in H. now injection H as H%dec_inj.
Qed.

Lemma add_pkg p : pm_reach p ->
  (forall a n, let p' := pm_addDouble p a n in pmMem p' = pmMem p /\
     (forall m, In m (pm_names p') <-> m = n \/ In m (pm_names p)) /\
     pm_get p' n = Ok (mDbl (pmMem p) a) /\ (forall m, m <> n -> pm_get p' m = pm_get p m)) /\
  (forall c names, List.length names <> List.length (mCnt (pmMem p) c) -> pm_addContainer p c names = (p, Throw DimensionError)) /\
  (forall c names, List.length names = List.length (mCnt (pmMem p) c) -> NoDup names ->
     exists p', pm_addContainer p c names = (p', Ok tt) /\ pmMem p' = pmMem p /\
     (forall i n, nth_error names i = Some n -> pm_get p' n = Ok (nth i (mCnt (pmMem p) c) 0)) /\
     (forall m, ~ In m names -> pm_get p' m = pm_get p m)) /\
  (forall c base, let p' := pm_addContainerBase p c base in pmMem p' = pmMem p /\
     (forall i, (i < List.length (mCnt (pmMem p) c))%nat -> pm_get p' (base ++ "_" ++ dec i) = Ok (nth i (mCnt (pmMem p) c) 0)) /\
     (forall m, (forall i, m <> (base ++ "_" ++ dec i)%string) -> pm_get p' m = pm_get p m)).
Proof.
  intros H%pm_reach_ok.
  assert (ADD : forall c names, List.length names = List.length (mCnt (pmMem p) c) -> NoDup names ->
     pmMem (pm_addAll p c names) = pmMem p /\
     (forall i n, nth_error names i = Some n -> pm_get (pm_addAll p c names) n = Ok (nth i (mCnt (pmMem p) c) 0)) /\
     (forall m, ~ In m names -> pm_get (pm_addAll p c names) m = pm_get p m)).
  { intros c names Hl Hnd. destruct (pm_addAll_gen c names 0 p H) as [I1 [I2 [I3 I4]]]; [lia|]. fold (pm_addAll p c names) in *.
    split; [exact I2|]. split.
    - intros i n Hi. specialize (I4 Hnd i n Hi). cbn [Nat.add] in I4.
      assert (Hil : (i < List.length (mCnt (pmMem p) c))%nat) by (rewrite <- Hl; apply nth_error_Some; congruence).
      rewrite (pm_get_bound _ n _ I4); rewrite I2; cbn [deref loc_ok]; [|exact Hil].
      rewrite (nth_error_nth' _ 0 Hil). reflexivity.
    - intros m Hm. specialize (I3 m Hm). unfold pm_get, sat. rewrite I3, I2. reflexivity. }
  split; [|split; [|split]].
  - intros a n p'. split; [reflexivity|]. split; [intros m; apply skeys_sset_in|]. split.
    + unfold pm_get, sat, p'. cbn. rewrite sfind_sset_eq. reflexivity.
    + intros m Hm. unfold pm_get, sat, p'. cbn. rewrite sfind_sset_neq by exact Hm. reflexivity.
  - intros c names Hl. unfold pm_addContainer. destruct (Nat.eqb_spec (List.length (mCnt (pmMem p) c)) (List.length names)); [congruence|reflexivity].
  - intros c names Hl Hnd. unfold pm_addContainer. rewrite Hl, Nat.eqb_refl. eexists. split; [reflexivity|]. now apply ADD.
  - intros c base p'. destruct (ADD c (base_names base (List.length (mCnt (pmMem p) c)))) as [A1 [A2 A3]].
    { unfold base_names. now rewrite map_length, seq_length. } { apply base_names_nodup. }
    split; [exact A1|]. split.
    + intros i Hi. apply A2. unfold base_names. rewrite nth_error_map.
      rewrite (nth_error_nth' _ 0%nat) by now rewrite seq_length. rewrite seq_nth by exact Hi. reflexivity.
    + intros m Hm. apply A3. unfold base_names. intros C. apply in_map_iff in C as [i [E _]]. exact (Hm i (eq_sym E)).
Qed.

Lemma set_pkg p n v : pm_reach p -> unaliased p -> In n (pm_names p) ->
  exists p', pm_set p n v = (p', Ok tt) /\ pm_names p' = pm_names p /\ unaliased p' /\
    (forall m, pm_get p' m = if String.eqb m n then Ok v else pm_get p m) /\
    (forall l, bound p n l -> deref (pmMem p') l = Ok v) /\
    (forall l, ~ bound p n l -> deref (pmMem p') l = deref (pmMem p) l).
Proof.
  intros H%pm_reach_ok Hu Hn. destruct (pm_set_ok p n v H Hu Hn) as [p' [E [P [G V]]]].
  exists p'. split; [exact E|]. split; [unfold pm_names; now rewrite P|]. split; [intros a b l; unfold bound; rewrite P; apply Hu|].
  split; [exact G|]. split.
  - intros l B. specialize (G n). rewrite String.eqb_refl in G.
    assert (B' : bound p' n l) by (unfold bound; now rewrite P). unfold pm_get, sat in G. unfold bound in B'. rewrite B' in G.
    cbn in G. destruct (deref (pmMem p') l) as [w|[]| | |]; cbn in G; congruence.
  - intros l Hb. destruct (V l) as [?|[C _]]; [assumption|contradiction].
Qed.

Lemma setAll_pkg p d : pm_reach p -> unaliased p ->
  ((forall n, In n (pm_names p) -> has_key d n) ->
   exists p', pm_setAll p d = (p', Ok tt) /\ pm_names p' = pm_names p /\ unaliased p' /\
    (forall n v, In n (pm_names p) -> sfind n d = Some v -> pm_get p' n = Ok v) /\
    (forall l, (forall n, ~ bound p n l) -> deref (pmMem p') l = deref (pmMem p) l)) /\
  ((exists n, In n (pm_names p) /\ ~ has_key d n) -> snd (pm_setAll p d) = Throw ParameterError).
Proof.
  intros H%pm_reach_ok Hu. split.
  - intros Hd. destruct (pm_setAll_ok p d H Hu Hd) as [p' [E [P [G V]]]]. exists p'. split; [exact E|].
    split; [unfold pm_names; now rewrite P|]. split; [intros a b l; unfold bound; rewrite P; apply Hu|]. auto.
  - intros [n [Hn Hk]]. destruct (first_missing d (pm_names p)) as [A|[pre [k [post [E [A B]]]]]].
    + exfalso. exact (Hk (A n Hn)).
    + destruct (pm_setAll_missing p d pre k post H E A B) as [p' [-> _]]. reflexivity.
Qed.

Lemma rejected_pkg p d pre k post : pm_reach p -> unaliased p -> pm_names p = pre ++ k :: post ->
  (forall n, In n pre -> has_key d n) -> ~ has_key d k ->
  exists p', pm_setAll p d = (p', Throw ParameterError) /\ pm_names p' = pm_names p /\
    (forall n v, In n pre -> sfind n d = Some v -> pm_get p' n = Ok v) /\
    (forall n, ~ In n pre -> pm_get p' n = pm_get p n).
Proof.
  intros H%pm_reach_ok Hu E Hd Hk. destruct (pm_setAll_missing p d pre k post H E Hd) as [p' [E' [P [G _]]]].
  { destruct (sfind k d) eqn:F; [exfalso; apply Hk; eexists; exact F|reflexivity]. }
  exists p'. split; [exact E'|]. split; [unfold pm_names; now rewrite P|]. exact (G Hu).
Qed.

(** refinement *)
Lemma rename_unaliased p p' o n l : unaliased p -> bound p o l ->
  (forall k, sfind k (pmPtrs p') = if String.eqb k o then None else if String.eqb k n then Some l else sfind k (pmPtrs p)) -> unaliased p'.
Proof.
  intros Hu B F a b l'. unfold bound. rewrite !F. 
  destruct (String.eqb_spec a o); [discriminate|]. destruct (String.eqb_spec b o); [discriminate|].
  destruct (String.eqb_spec a n), (String.eqb_spec b n); try congruence.
  - intros [= <-] C. exfalso. apply n1. exact (Hu b o l C B).
  - intros C [= <-]. exfalso. apply n0. exact (Hu a o l C B).
  - apply Hu.
Qed.
Lemma refine_step p op V : pm_reach p -> unaliased p -> pm_getAll p = Ok V -> is_value_op op ->
  match map_step op V with
  | Some V' => exists p', pm_step p op = (p', Ok tt) /\ pm_getAll p' = Ok V' /\ unaliased p'
  | None => snd (pm_step p op) = Throw ParameterError
  end.
Proof.
  intros HR Hu HV Hop. pose proof (pm_reach_ok p HR) as Hp. pose proof (pm_step_ok p op Hp) as Hp1.
  destruct (pm_getAll_ok p Hp) as [V0 [E0 [W0 [K0 F0]]]]. rewrite HV in E0. injection E0 as <-.
  assert (HAS : forall n, sfind n V = None <-> ~ In n (pm_names p)).
  { intros n. rewrite sfind_not_in, K0. reflexivity. }
  destruct op; cbn [map_step] in *; try contradiction.
  - unfold shas. destruct (sfind n V) as [w|] eqn:En.
    + assert (Hn : In n (pm_names p)) by (rewrite <- K0; apply sfind_in; eauto).
      destruct (set_pkg p n v HR Hu Hn) as [p' [E [N [U [G _]]]]]. cbn [pm_step] in *. rewrite E in Hp1. cbn [fst] in Hp1.
      exists p'. split; [exact E|]. split; [|exact U]. destruct (pm_getAll_ok p' Hp1) as [V' [E' [W' [K' F']]]].
      rewrite E'. f_equal. apply swf_ext; [exact W'|now apply sset_wf|]. intros k. rewrite sfind_sset.
      destruct (String.eqb k n) eqn:Ek.
      * apply F'. rewrite G, Ek. reflexivity.
      * destruct (sfind k V) as [x|] eqn:Ex; [apply F'; rewrite G, Ek; now apply F0|].
        destruct (sfind k V') as [x|] eqn:Ex'; [|reflexivity]. apply F' in Ex'. rewrite G, Ek in Ex'. apply F0 in Ex'. congruence.
    + cbn [pm_step]. apply HAS in En. apply sfind_not_in in En. unfold pm_set. now rewrite En.
  - destruct (forallb (fun n => shas n d) (skeys V)) eqn:EA.
    + rewrite forallb_forall in EA. rewrite K0 in EA.
      destruct (proj1 (setAll_pkg p d HR Hu)) as [p' [E [N [U [G _]]]]].
      { intros n Hn. specialize (EA n Hn). unfold shas in EA. destruct (sfind n d) as [w|] eqn:Ew; [exists w; exact Ew|discriminate]. }
      cbn [pm_step] in *. rewrite E in Hp1. cbn [fst] in Hp1.
      exists p'. split; [exact E|]. split; [|exact U]. destruct (pm_getAll_ok p' Hp1) as [V' [E' [W' [K' F']]]].
      rewrite E'. f_equal. 
      assert (WM : forall f : string * Qc -> Qc, skeys (map (fun nv => (fst nv, f nv)) V) = skeys V).
      { intros f. unfold skeys. rewrite map_map. reflexivity. }
      apply swf_ext; [exact W'|unfold swf; rewrite WM; exact W0|]. intros k.
      assert (FM : forall m : smap Qc, sfind k (map (fun nv => (fst nv, match sfind (fst nv) d with Some v => v | None => snd nv end)) m) =
        match sfind k m with Some x => Some (match sfind k d with Some v => v | None => x end) | None => None end).
      { clear. induction m as [|[k' v'] t IH]; cbn [map sfind fst snd]; [reflexivity|].
        destruct (String.eqb_spec k k') as [->|]; [reflexivity|exact IH]. }
      rewrite FM. destruct (sfind k V) as [x|] eqn:Ex.
      * assert (Hn : In k (pm_names p)) by (rewrite <- K0; apply sfind_in; eauto). specialize (EA k Hn). unfold shas in EA.
        destruct (sfind k d) as [w|] eqn:Ew; [|discriminate]. apply F'. now apply G.
      * apply HAS in Ex. rewrite <- N, <- K' in Ex. now apply sfind_not_in.
    + cbn [pm_step]. apply (proj2 (setAll_pkg p d HR Hu)).
      assert (C : ~ (forall x, In x (skeys V) -> shas x d = true)) by (intros C; apply forallb_forall in C; congruence).
      rewrite K0 in C. destruct (first_missing d (pm_names p)) as [A|[pre [k [post [E [A B]]]]]].
      * exfalso. apply C. intros x Hx. unfold shas. destruct (A x Hx) as [w ->]. reflexivity.
      * exists k. split; [rewrite E; apply in_or_app; right; now left|]. intros [w Ew]. congruence.
  - destruct (sfind o V) as [x|] eqn:Eo.
    + assert (Ho : In o (pm_names p)) by (rewrite <- K0; apply sfind_in; eauto). apply sfind_in in Ho as Hb. destruct Hb as [l B].
      unfold shas. destruct (sfind n V) as [y|] eqn:En.
      * cbn [pm_step]. assert (Hn : In n (pm_names p)) by (rewrite <- K0; apply sfind_in; eauto). apply sfind_in in Hn as [ln Bn].
        unfold pm_rename, shas. now rewrite B, Bn.
      * apply HAS in En as Hn. destruct (pm_rename_ok p o n l Hp B Hn) as [p' [E [M [F C]]]].
        cbn [pm_step] in *. rewrite E in Hp1. cbn [fst] in Hp1. exists p'. split; [exact E|].
        split; [|eapply rename_unaliased; eauto]. destruct (pm_getAll_ok p' Hp1) as [V' [E' [W' [K' F']]]].
        rewrite E'. f_equal. apply swf_ext; [exact W'|now apply serase_wf, sset_wf|]. intros k. rewrite sfind_serase, sfind_sset.
        assert (GG : forall z, pm_get p' k = Ok z <-> (if String.eqb k o then None else if String.eqb k n then Some x else sfind k V) = Some z).
        { intros z. unfold pm_get, sat. rewrite F, M. destruct (String.eqb k o); [split; discriminate|].
          destruct (String.eqb k n).
          - apply F0 in Eo. unfold pm_get, sat in Eo. unfold bound in B. rewrite B in Eo. cbn [bind] in *. rewrite Eo. split; intros [= ->]; reflexivity.
          - rewrite F0. reflexivity. }
        match goal with |- _ = ?r => destruct r as [z|] eqn:Er end.
        -- apply F', GG. reflexivity.
        -- destruct (sfind k V') as [z|] eqn:Ez; [|reflexivity]. apply F', GG in Ez. congruence.
    + cbn [pm_step]. apply HAS, sfind_not_in in Eo. unfold pm_rename. now rewrite Eo.
Qed.
Lemma refine_pkg ops : forall p V, pm_reach p -> unaliased p -> pm_getAll p = Ok V -> Forall is_value_op ops ->
  match map_run ops V with
  | Some V' => exists p', pm_run ops p = Some p' /\ pm_getAll p' = Ok V' /\ forall n v, sfind n V' = Some v <-> pm_get p' n = Ok v
  | None => pm_run ops p = None
  end.
Proof.
  induction ops as [|op ops IH]; intros p V HR Hu HV HO; cbn [map_run pm_run].
  - exists p. split; [reflexivity|]. split; [exact HV|]. destruct (pm_getAll_ok p (pm_reach_ok p HR)) as [V0 [E0 [_ [_ F]]]].
    rewrite HV in E0. injection E0 as <-. exact F.
  - inversion HO as [|? ? H1 H2]; subst. pose proof (refine_step p op V HR Hu HV H1) as St.
    pose proof (pr_step p op HR) as HR'.
    destruct (map_step op V) as [V'|].
    + destruct St as [p' [E [HV' Hu']]]. rewrite E in *. cbn [fst] in HR'. now apply IH.
    + destruct (pm_step p op) as [p' r]. cbn in St. now rewrite St.
Qed.
