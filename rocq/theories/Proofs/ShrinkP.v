From Coq Require Import ZArith.
From Verif Require Import Base.Res Base.Num Base.SMap Model.Axis Model.Event Model.Hist Model.ED Model.Shrink
  Spec.AxisSpec Spec.HistSpec Spec.ShrinkSpec Proofs.AxisP Proofs.HistP Proofs.HistP2.
Local Open Scope Qc_scope.
Local Open Scope res_scope.

Lemma s32_id z : (- 2 ^ 31 <= z < 2 ^ 31)%Z -> s32 z = z.
Proof. intros H. unfold s32. rewrite Z.mod_small by lia. lia. Qed.
Lemma u32_id z : (0 <= z < 2 ^ 32)%Z -> u32 z = z.
Proof. intros H. unfold u32. apply Z.mod_small. exact H. Qed.

(** ** configuration *)
Definition bufZ (m : smap (Z * Z)) (n : string) : Z * Z := match sfind n m with Some p => p | None => (0, 0)%Z end.

Lemma conf_facts ops : forall s, unsigned_sizes ops ->
  let s' := fold_left sh_do ops s in
  shBin s' = shBin s /\ shUse s' = shUse s /\ shAxes s' = shAxes s /\ shOver s' = over_wanted ops (shOver s) /\
  (forall n, bufZ (shBuf s') n = wanted ops n (bufZ (shBuf s) n)) /\
  (shBuf s' = [] <-> shBuf s = [] /\ ~ some_buffer ops).
Proof.
  induction ops as [|o ops IH]; intros s Hu; cbn [fold_left wanted over_wanted].
  - cbn. repeat split; auto; try tauto. intros [n [lo [up []]]].
  - destruct (IH (sh_do s o)) as [A [B [C [D [F G]]]]]; [intros n lo up Hi; apply (Hu n lo up); now right|].
    cbv zeta. rewrite A, B, C, D. destruct o as [n lo up|b]; cbn [sh_do sh_setBuffer sh_setOver shBin shUse shAxes shOver] in *.
    + do 4 (split; [reflexivity|]). split.
      * intros m. rewrite F. f_equal. unfold bufZ, sh_setBuffer; cbn [shBuf]. rewrite sfind_sset.
        rewrite String.eqb_sym. destruct (String.eqb n m); [|reflexivity].
        destruct (Hu n lo up) as [Hl Hp]; [now left|]. rewrite !u32_id by assumption. reflexivity.
      * split; [|intros [_ E]; exfalso; apply E; exists n, lo, up; now left].
        intros E. apply G in E as [E _]. exfalso. unfold sh_setBuffer in E; cbn [shBuf] in E.
        destruct (shBuf s) as [|[k v] t]; cbn in E; [discriminate|]. destruct (String.compare n k); discriminate.
    + do 4 (split; [reflexivity|]). split; [exact F|]. rewrite G. cbn [sh_setOver shBuf].
      split; intros [E1 E2]; (split; [exact E1|]); intros [n [lo [up Hi]]]; apply E2.
      * destruct Hi as [Hi|Hi]; [discriminate|]. exists n, lo, up. exact Hi.
      * exists n, lo, up. now right.
Qed.

Lemma wanted_range ops n : forall cur, unsigned_sizes ops ->
  (0 <= fst cur < 2 ^ 32 /\ 0 <= snd cur < 2 ^ 32)%Z ->
  (0 <= fst (wanted ops n cur) < 2 ^ 32 /\ 0 <= snd (wanted ops n cur) < 2 ^ 32)%Z.
Proof.
  induction ops as [|[m lo up|b] ops IH]; intros cur Hu Hc; cbn [wanted]; [exact Hc| |].
  - apply IH; [intros k l u Hi; apply (Hu k l u); now right|].
    destruct (String.eqb m n); [|exact Hc]. apply (Hu m lo up). now left.
  - apply IH; [intros k l u Hi; apply (Hu k l u); now right|exact Hc].
Qed.

(** ** one axis *)
Lemma mk_var_built name lo hi latex : List.length hi = List.length lo -> (0 < List.length lo)%nat ->
  (forall i, (S i < List.length lo)%nat -> nth i lo 0 <= nth (S i) lo 0) ->
  (forall i, (i < List.length lo)%nat -> nth i lo 0 <= nth i hi 0) ->
  exists a, mk_var name lo hi latex = Ok a /\ built a /\ aName a = name /\ aNBins a = List.length lo /\
    aLow a = lo /\ aHigh a = hi.
Proof.
  intros Hl Hp H1 H2. unfold mk_var. rewrite Hl, Nat.eqb_refl.
  destruct (Nat.eqb_spec (List.length lo) 0); [lia|]. cbn [negb orb].
  assert (E : edges_ok None lo hi = true) by (apply edges_ok_spec; auto).
  rewrite E. cbn [negb]. eexists. split; [reflexivity|]. split; [|repeat split].
  apply (built_var _ name lo hi latex). unfold mk_var. rewrite Hl, Nat.eqb_refl.
  destruct (Nat.eqb_spec (List.length lo) 0); [lia|]. rewrite E. reflexivity.
Qed.

Lemma sh_axis_ok a (l u : Z) : built a -> (0 <= l)%Z -> (0 <= u)%Z -> (l + u < Z.of_nat (aNBins a))%Z ->
  (Z.of_nat (aNBins a) < 2 ^ 31)%Z ->
  exists a', sh_axis a l u = Ok a' /\ built a' /\ trimmed (Z.to_nat l) (Z.to_nat u) a a'.
Proof.
  intros Hb Hl Hu Hs Hn. destruct (built_facts a Hb) as [Hp [Ll [Lh [_ [_ [Hlo [Hlh _]]]]]]].
  unfold sh_axis. destruct ((l =? 0)%Z && (u =? 0)%Z)%bool eqn:E0.
  - apply andb_prop in E0 as [E1 E2]. apply Z.eqb_eq in E1, E2. subst. exists a. split; [reflexivity|]. split; [exact Hb|].
    repeat split; try reflexivity; cbn; lia || (intros; reflexivity).
  - rewrite u32_id by lia. destruct (Z.leb_spec (Z.of_nat (aNBins a)) (l + u)); [lia|].
    destruct (Z.ltb_spec (Z.of_nat (aNBins a)) (l + u)); [lia|].
    set (n := Z.to_nat (Z.of_nat (aNBins a) - u - l)).
    assert (En : (aNBins a = Z.to_nat l + n + Z.to_nat u)%nat) by lia.
    rewrite (seqM_ok (fun i => binLow a (Z.to_nat l + i)) (fun i => lo_of a (Z.to_nat l + i))).
    2:{ intros i Hi. apply in_seq in Hi. apply binLow_ok; [exact Hb|lia]. }
    cbn [bind].
    rewrite (seqM_ok (fun i => binHigh a (Z.to_nat l + i)) (fun i => hi_of a (Z.to_nat l + i))).
    2:{ intros i Hi. apply in_seq in Hi. apply binHigh_ok; [exact Hb|lia]. }
    cbn [bind].
    destruct (mk_var_built (aName a) (map (fun i => lo_of a (Z.to_nat l + i)) (seq 0 n))
                (map (fun i => hi_of a (Z.to_nat l + i)) (seq 0 n)) (aLatex a)) as [a' [E [Hb' [F1 [F2 [F3 F4]]]]]].
    + rewrite !map_length. reflexivity.
    + rewrite map_length, seq_length. lia.
    + rewrite map_length, seq_length. intros i Hi. rewrite !nth_map_seq by lia.
      rewrite Nat.add_succ_r. apply Hlo. lia.
    + rewrite map_length, seq_length. intros i Hi. rewrite !nth_map_seq by lia. apply Hlh. lia.
    + exists a'. split; [exact E|]. split; [exact Hb'|]. rewrite map_length, seq_length in F2.
      unfold trimmed. rewrite F1, F2. split; [reflexivity|]. split; [exact En|]. split; [lia|].
      intros i Hi. unfold lo_of at 1, hi_of at 1. rewrite F3, F4, !nth_map_seq by lia. split; reflexivity.
Qed.
Lemma sh_axis_big a (l u : Z) : built a -> (0 <= l)%Z -> (0 <= u)%Z -> (Z.of_nat (aNBins a) <= l + u < 2 ^ 32)%Z ->
  sh_axis a l u = Throw ValueError.
Proof.
  intros Hb Hl Hu Hs. destruct (built_facts a Hb) as [Hp _]. unfold sh_axis.
  destruct ((l =? 0)%Z && (u =? 0)%Z)%bool eqn:E0.
  - apply andb_prop in E0 as [E1 E2]. apply Z.eqb_eq in E1, E2. lia.
  - rewrite u32_id by lia. destruct (Z.leb_spec (Z.of_nat (aNBins a)) (l + u)); [reflexivity|lia].
Qed.

(** ** the axes *)
Definition bl (m : smap (Z * Z)) (a : axis) : nat := Z.to_nat (fst (bufZ m (aName a))).
Definition bu (m : smap (Z * Z)) (a : axis) : nat := Z.to_nat (snd (bufZ m (aName a))).
Definition buf_ok (m : smap (Z * Z)) (a : axis) : Prop :=
  built a /\ (0 <= fst (bufZ m (aName a)))%Z /\ (0 <= snd (bufZ m (aName a)))%Z /\
  (fst (bufZ m (aName a)) + snd (bufZ m (aName a)) < Z.of_nat (aNBins a))%Z /\ (Z.of_nat (aNBins a) < 2 ^ 31)%Z.

Definition withAxes (s : shrinker) (ac : axcol) : shrinker := mkShr (shBuf s) (shBin s) (shUse s) (shOver s) ac.

Lemma addAxis_step s a : sh_addAxis s a =
  obind s (sh_axis a (fst (bufZ (shBuf s) (aName a))) (snd (bufZ (shBuf s) (aName a)))) (fun a' =>
  obind s (addAxis (shAxes s) a') (fun ac => (withAxes s ac, Ok tt))).
Proof. unfold sh_addAxis, bufZ. destruct (sfind (aName a) (shBuf s)) as [p|]; reflexivity. Qed.

Lemma addAxes_loop axs : forall s, ac_ok (shAxes s) -> Forall (buf_ok (shBuf s)) axs ->
  NoDup (map aName (acAxes (shAxes s)) ++ map aName axs) ->
  exists nac axs', iterS sh_addAxis axs s = (withAxes s nac, Ok tt) /\ ac_ok nac /\
    acAxes nac = acAxes (shAxes s) ++ axs' /\
    Forall2 (fun a a' => trimmed (bl (shBuf s) a) (bu (shBuf s) a) a a') axs axs'.
Proof.
  induction axs as [|a axs IH]; intros s Hac Hb Hnd; cbn [iterS].
  - exists (shAxes s), []. rewrite app_nil_r. destruct s; repeat split; auto; try apply Hac; try constructor.
  - inversion Hb as [|? ? Ha Hb']; subst. pose proof Ha as [B1 [B2 [B3 [B4 B5]]]].
    destruct (sh_axis_ok a _ _ B1 B2 B3 B4 B5) as [a' [Ea [Ba Ta]]].
    rewrite addAxis_step, Ea. cbn [obind].
    assert (Nn : aName a' = aName a) by apply Ta.
    destruct (addAxis_new (shAxes s) a') as [ac1 E1].
    { rewrite Nn. cbn [map] in Hnd. apply NoDup_remove_2 in Hnd. intros C. apply Hnd. apply in_or_app. now left. }
    rewrite E1. cbn [obind]. destruct (addAxis_ok _ _ _ Hac Ba E1) as [O1 [A1 _]].
    destruct (IH (withAxes s ac1)) as [nac [axs' [F1 [F2 [F3 F4]]]]].
    + exact O1.
    + exact Hb'.
    + cbn [withAxes shAxes]. rewrite A1, map_app. cbn [map]. rewrite Nn, <- app_assoc. exact Hnd.
    + exists nac, (a' :: axs'). split; [exact F1|]. split; [exact F2|]. split.
      * rewrite F3. cbn [withAxes shAxes]. rewrite A1, <- app_assoc. reflexivity.
      * constructor; [exact Ta|exact F4].
Qed.

Lemma addAxes_big axs : forall s, ac_ok (shAxes s) -> Forall (fun a => built a /\ (Z.of_nat (aNBins a) < 2 ^ 31)%Z /\
     (0 <= fst (bufZ (shBuf s) (aName a)))%Z /\ (0 <= snd (bufZ (shBuf s) (aName a)))%Z /\
     (fst (bufZ (shBuf s) (aName a)) + snd (bufZ (shBuf s) (aName a)) < 2 ^ 32)%Z) axs ->
  NoDup (map aName (acAxes (shAxes s)) ++ map aName axs) ->
  Exists (fun a => (Z.of_nat (aNBins a) <= fst (bufZ (shBuf s) (aName a)) + snd (bufZ (shBuf s) (aName a)))%Z) axs ->
  snd (iterS sh_addAxis axs s) = Throw ValueError.
Proof.
  induction axs as [|a axs IH]; intros s Hac Hb Hnd Hex; cbn [iterS]; [inversion Hex|].
  inversion Hb as [|? ? [B1 [B2 [B3 [B4 B5]]]] Hb']; subst.
  rewrite addAxis_step.
  destruct (Z.le_gt_cases (Z.of_nat (aNBins a)) (fst (bufZ (shBuf s) (aName a)) + snd (bufZ (shBuf s) (aName a)))) as [C|C].
  - rewrite sh_axis_big by (auto; lia). reflexivity.
  - inversion Hex as [? ? C'|? ? Hex']; subst; [lia|].
    destruct (sh_axis_ok a _ _ B1 B3 B4 C B2) as [a' [Ea [Ba Ta]]]. rewrite Ea. cbn [obind].
    assert (Nn : aName a' = aName a) by apply Ta.
    destruct (addAxis_new (shAxes s) a') as [ac1 E1].
    { rewrite Nn. cbn [map] in Hnd. apply NoDup_remove_2 in Hnd. intros C2. apply Hnd. apply in_or_app. now left. }
    rewrite E1. cbn [obind]. destruct (addAxis_ok _ _ _ Hac Ba E1) as [O1 [A1 _]].
    apply (IH (withAxes s ac1)); auto.
    cbn [withAxes shAxes]. rewrite A1, map_app. cbn [map]. rewrite Nn, <- app_assoc. exact Hnd.
Qed.
