From Coq Require Import ZArith Permutation Lia.
From Verif Require Import Base.Res Base.Perm Base.Num Base.SMap Model.Axis Model.Event Model.Cut Model.Hist Model.Shrink Model.Data Model.Rand Model.Gen Spec.GenSpec Proofs.GenP.
From Coq Require Import Lia.
Local Open Scope Z_scope.

Definition state (N : nat) (sl : slot) (L : list nat) : Prop := (fst sl = [] /\ L = seq 0 N) \/ exists G, used N sl L G.
Lemma start_used N sl L : state N sl L -> exists G, used N (g_start N sl) L G.
Proof.
  assert (Z0 : used N (seq 0 N, w64 (Z.of_nat N - 1)) (seq 0 N) []).
  { split; [cbn; rewrite app_nil_r; reflexivity|]. split; [rewrite app_nil_r; reflexivity|]. cbn. rewrite seq_length. reflexivity. }
  intros [[E ->]|[G U]]; unfold g_start.
  - rewrite E. exists []. exact Z0.
  - destruct (fst sl) eqn:E; [|exists G; exact U]. pose proof U as [U1 [U2 _]]. rewrite E in U1. symmetry in U1. apply app_eq_nil in U1. destruct U1 as [-> ->].
    cbn in U2. apply Permutation_nil in U2. rewrite U2 in Z0. exists []. rewrite U2. exact Z0.
Qed.
Lemma state_len N sl L : state N sl L -> (List.length L <= N)%nat.
Proof. intros [[_ ->]|[G U]]; [rewrite seq_length; lia|apply used_len in U; lia]. Qed.

Lemma draw_norep_ok cs s n u sl out L : let N := List.length (sEvs s) in Z.of_nat N <= 2 ^ 31 -> (forall j, (0 <= u j)%Qc /\ (u j < 1)%Qc) -> state N sl L ->
  0 <= n <= Z.of_nat (List.length L) ->
  exists L' G' es sl' r, draw_norep cs s n u sl out = (sl', r) /\ used N sl' L' G' /\
    Permutation (es ++ L') L /\ Z.of_nat (List.length es) <= n /\ Forall (fun e => (e < N)%nat) es /\
    ((exists o, r = Ok o /\ Z.of_nat (List.length es) = n /\ events_of o = events_of out ++ keeps cs s (map (ev s) es)) \/ (exists x, r = Throw x)) /\
    (cs = [] -> forall m, (0 < m)%nat -> Forall (fun x => List.length x = m) (sEvs s) -> fits m out -> exists o, r = Ok o /\ fits m o).
Proof.
  intros N B Hu St Hn. destruct (start_used _ _ _ St) as [G U]. pose proof (state_len _ _ _ St) as HL. unfold draw_norep. fold N.
  destruct (Z.ltb_spec (Z.of_nat N) n); [lia|].
  destruct (rounds_norep cs s u N eq_refl B Hu (Z.to_nat n) 0 (g_start N sl) out L G U ltac:(lia)) as [L' [G' [es [sl' [r [E [U2 [P [Hl [F [R C]]]]]]]]]]].
  exists L', G', es, sl', r. split; [exact E|]. split; [exact U2|]. split; [exact P|]. split; [lia|]. split; [exact F|]. split; [|exact C].
  destruct R as [[o [-> [Hl' Ho]]]|[x ->]]; [left; exists o; split; [reflexivity|]; split; [lia|exact Ho]|right; eauto].
Qed.

Inductive slots_st : list src -> list slot -> list (list nat) -> Prop :=
| SS_nil : slots_st [] [] []
| SS_cons s sets sl slots L Ls : state (List.length (sEvs s)) sl L -> slots_st sets slots Ls -> slots_st (s :: sets) (sl :: slots) (L :: Ls).
Inductive slots_used : list src -> list slot -> list (list nat) -> Prop :=
| SU_nil : slots_used [] [] []
| SU_cons s sets sl slots L Ls G : used (List.length (sEvs s)) sl L G -> slots_used sets slots Ls -> slots_used (s :: sets) (sl :: slots) (L :: Ls).
Lemma used_st sets slots Ls : slots_used sets slots Ls -> slots_st sets slots Ls.
Proof. induction 1; constructor; [right; eauto|assumption]. Qed.
Fixpoint stockL (sets : list src) (Ls : list (list nat)) : list (list Qc) :=
  match sets, Ls with s :: sets', L :: Ls' => map (ev s) L ++ stockL sets' Ls' | _, _ => [] end.

Lemma filter_perm {A} (f : A -> bool) l : Permutation (filter f l ++ filter (fun x => negb (f x)) l) l.
Proof.
  induction l as [|x l IH]; cbn; [constructor|]. destruct (f x); cbn; [constructor; exact IH|].
  rewrite <- Permutation_middle. constructor. exact IH.
Qed.
Lemma keeps_nil s l : keeps [] s l = l.
Proof. unfold keeps. induction l as [|x l IH]; cbn; [reflexivity|]. rewrite IH. reflexivity. Qed.

Lemma flag_at (l : list bool) i : Forall (fun b => b = false) l -> (i < List.length l)%nat -> vat l i = Ok false /\ l <> [].
Proof.
  intros F H. unfold vat. destruct (nth_error l i) as [b|] eqn:E; [|apply nth_error_None in E; lia].
  rewrite Forall_forall in F. rewrite (F b (nth_error_In _ _ E)). split; [reflexivity|destruct l; [cbn in H; lia|discriminate]].
Qed.

Lemma loop_norep g count u : Forall (fun b => b = false) (gBoot g) -> Forall (fun b => b = false) (gSeq g) -> uniform u ->
  forall sets slots Ls i out taken, slots_st sets slots Ls -> sized sets ->
  (i + List.length sets <= List.length (gBoot g))%nat -> (i + List.length sets <= List.length (gSeq g))%nat ->
  (forall k L, nth_error Ls k = Some L -> exists n, count (i + k)%nat = Ok n /\ 0 <= n <= Z.of_nat (List.length L)) ->
  exists slots' Ls' lost r, g_loop g count u i sets slots out taken = (slots', r) /\ slots_st sets slots' Ls' /\
    (forall k L L' n, nth_error Ls k = Some L -> nth_error Ls' k = Some L' -> count (i + k)%nat = Ok n -> Z.of_nat (List.length L) - n <= Z.of_nat (List.length L')) /\
    ((exists o tk new, r = Ok (o, tk) /\ events_of o = events_of out ++ new /\ Permutation (new ++ lost ++ stockL sets Ls') (stockL sets Ls) /\ slots_used sets slots' Ls' /\
       (forall k L L' n, nth_error Ls k = Some L -> nth_error Ls' k = Some L' -> count (i + k)%nat = Ok n -> Z.of_nat (List.length L) - n = Z.of_nat (List.length L'))) \/
     (exists x, r = Throw x /\ Permutation (lost ++ stockL sets Ls') (stockL sets Ls))) /\
    (slots_used sets slots Ls -> slots_used sets slots' Ls') /\
    (gCuts g = [] -> forall m, regular m sets -> fits m out -> lost = [] /\ exists o, r = Ok o).
Proof.
  intros FB FS Hu. induction sets as [|s sets IH]; intros slots Ls i out taken St Sz HB HS HC; inversion St as [|? ? sl slots1 L Ls1 S1 S2]; subst; cbn [g_loop].
  - exists [], [], [], (Ok (out, taken)). split; [reflexivity|]. split; [constructor|].
    split; [intros k L L' n E; destruct k; discriminate|].
    split; [left; exists out, taken, []; rewrite app_nil_r; cbn; repeat split; try constructor; intros k L L' n E; destruct k; discriminate|].
    split; [auto|]. intros _ m _ _. split; [reflexivity|eauto].
  - cbn [List.length] in HB, HS. inversion Sz as [|? ? Sz1 Sz2]; subst.
    destruct (HC 0%nat L eq_refl) as [n [En Hn]]. rewrite Nat.add_0_r in En. rewrite En.
    destruct (flag_at (gBoot g) i FB ltac:(lia)) as [Bi Bn]. destruct (flag_at (gSeq g) i FS ltac:(lia)) as [Si Sn].
    assert (ED : g_draw g i s n (u i) sl out = draw_norep (gCuts g) s n (u i) sl out).
    { unfold g_draw. rewrite Bi, Si. destruct (gBoot g); [congruence|]. destruct (gSeq g); [congruence|]. reflexivity. }
    rewrite ED. destruct (draw_norep_ok (gCuts g) s n (u i) sl out L Sz1 (Hu i) S1 Hn) as [L' [G' [es [sl' [r [E [U2 [P [Hl [F [R C]]]]]]]]]]].
    rewrite E.
    assert (PM : Permutation (map (ev s) es ++ map (ev s) L') (map (ev s) L)) by (rewrite <- map_app; apply Permutation_map; exact P).
    assert (Lge : Z.of_nat (List.length L) - n <= Z.of_nat (List.length L')) by (apply Permutation_length in P; rewrite app_length in P; lia).
    destruct R as [[o [-> [Hl' Ho]]]|[x ->]].
    + destruct (IH slots1 Ls1 (S i) o (taken ++ [s32 n]) S2 Sz2 ltac:(lia) ltac:(lia)) as [slots' [Ls' [lost [r [E2 [St2 [Le [R2 [Uk C2]]]]]]]]].
      { intros k L0 H. specialize (HC (S k) L0 H). replace (i + S k)%nat with (S i + k)%nat in HC by lia. exact HC. }
      rewrite E2. set (kept := keeps (gCuts g) s (map (ev s) es)). set (rej := filter (fun x => negb (passed (gCuts g) s x)) (map (ev s) es)).
      assert (PK : Permutation (kept ++ rej) (map (ev s) es)) by apply filter_perm.
      assert (HL : forall k A A' n0, nth_error (L :: Ls1) k = Some A -> nth_error (L' :: Ls') k = Some A' -> count (i + k)%nat = Ok n0 -> Z.of_nat (List.length A) - n0 <= Z.of_nat (List.length A')).
      { intros k A A' n0 H1 H2 H3. destruct k as [|k]; cbn in H1, H2.
        - injection H1 as <-. injection H2 as <-. rewrite Nat.add_0_r in H3. rewrite En in H3. injection H3 as <-. exact Lge.
        - apply (Le k A A' n0 H1 H2). rewrite <- H3. f_equal. lia. }
      assert (HSt : slots_st (s :: sets) (sl' :: slots') (L' :: Ls')) by (constructor; [right; eauto|exact St2]).
      assert (HU : slots_used (s :: sets) (sl :: slots1) (L :: Ls1) -> slots_used (s :: sets) (sl' :: slots') (L' :: Ls')).
      { intros HU. inversion HU; subst. econstructor; [exact U2|auto]. }
      assert (HR : gCuts g = [] -> forall m, regular m (s :: sets) -> fits m out -> rej = [] /\ regular m sets /\ fits m o).
      { intros HC0 m [Hm Fm] Fo. unfold stock in Fm. cbn in Fm. apply Forall_app in Fm. destruct Fm as [Fm1 Fm2].
        destruct (C HC0 m Hm Fm1 Fo) as [o3 [[= <-] Fo3]]. split; [|split; [split; assumption|exact Fo3]].
        unfold rej. rewrite HC0. clear. induction (map (ev s) es) as [|y l IHl]; cbn; [reflexivity|exact IHl]. }
      destruct R2 as [[o2 [tk [new [-> [Ho2 [P2 [Us Leq]]]]]]]|[x [-> P2]]].
      * exists (sl' :: slots'), (L' :: Ls'), (rej ++ lost), (Ok (o2, tk)). split; [reflexivity|]. split; [exact HSt|]. split; [exact HL|]. split.
        -- left. exists o2, tk, (kept ++ new). split; [reflexivity|]. split; [rewrite Ho2, Ho, <- app_assoc; reflexivity|].
           split; [|split; [econstructor; eassumption|]].
           ++ cbn [stockL]. rewrite <- PM, <- PK, <- P2. perm_solve.
           ++ intros k A A' n0 H1 H2 H3. destruct k as [|k]; cbn in H1, H2.
              ** injection H1 as <-. injection H2 as <-. rewrite Nat.add_0_r in H3. rewrite En in H3. injection H3 as <-.
                 apply Permutation_length in P; rewrite app_length in P; lia.
              ** apply (Leq k A A' n0 H1 H2). rewrite <- H3. f_equal. lia.
        -- split; [exact HU|]. intros HC0 m Rm Fo. destruct (HR HC0 m Rm Fo) as [-> [Rm2 Fo2]]. destruct (C2 HC0 m Rm2 Fo2) as [-> _]. split; [reflexivity|eauto].
      * exists (sl' :: slots'), (L' :: Ls'), (kept ++ rej ++ lost), (Throw x). split; [reflexivity|]. split; [exact HSt|]. split; [exact HL|]. split.
        -- right. exists x. split; [reflexivity|]. cbn [stockL]. rewrite <- PM, <- PK, <- P2. perm_solve.
        -- split; [exact HU|]. intros HC0 m Rm Fo. destruct (HR HC0 m Rm Fo) as [_ [Rm2 Fo2]]. destruct (C2 HC0 m Rm2 Fo2) as [_ [o3 H]]. discriminate.
    + exists (sl' :: slots1), (L' :: Ls1), (map (ev s) es), (Throw x). split; [reflexivity|]. split; [constructor; [right; eauto|exact S2]|].
      split.
      { intros k A A' n0 H1 H2 H3. destruct k as [|k]; cbn in H1, H2.
        - injection H1 as <-. injection H2 as <-. rewrite Nat.add_0_r in H3. rewrite En in H3. injection H3 as <-. exact Lge.
        - rewrite H1 in H2. injection H2 as <-. destruct (HC (S k) A H1) as [n1 [En1 Hn1]]. rewrite En1 in H3. injection H3 as <-. lia. }
      split; [right; exists x; split; [reflexivity|]; cbn [stockL]; rewrite <- PM; perm_solve|].
      split; [intros HU; inversion HU; subst; econstructor; [exact U2|assumption]|].
      intros HC0 m [Hm Fm] Fo. unfold stock in Fm. cbn in Fm. apply Forall_app in Fm. destruct Fm as [Fm1 Fm2].
      destruct (C HC0 m Hm Fm1 Fo) as [o3 [H _]]. discriminate.
Qed.

(** histories *)
Definition ginv (sets : list src) (tot : nat -> Z) (cl : Prop) (st : gen * list dset) : Prop :=
  let (g, outs) := st in
  gSets g = sets /\ random_noreplace g /\ exists Ls lost, slots_st sets (gSlots g) Ls /\
    Permutation (given outs ++ lost ++ stockL sets Ls) (stock sets) /\
    (forall k L s, nth_error Ls k = Some L -> nth_error sets k = Some s -> Z.of_nat (List.length (sEvs s)) - tot k <= Z.of_nat (List.length L)) /\
    (outs <> [] -> slots_used sets (gSlots g) Ls) /\
    (cl -> lost = [] /\ forall k L s, nth_error Ls k = Some L -> nth_error sets k = Some s -> Z.of_nat (List.length (sEvs s)) - tot k = Z.of_nat (List.length L)).
Lemma slots_at sets slots Ls : slots_st sets slots Ls -> forall k L, nth_error Ls k = Some L -> exists s, nth_error sets k = Some s.
Proof. induction 1; intros [|k] L0 E; cbn in *; try discriminate; eauto. Qed.
Lemma slots_len sets slots Ls : slots_st sets slots Ls -> List.length Ls = List.length sets /\ List.length slots = List.length sets.
Proof. induction 1; cbn; [auto|]. lia. Qed.
Lemma map_ev_seq s : map (ev s) (seq 0 (List.length (sEvs s))) = sEvs s.
Proof.
  unfold ev. apply nth_ext with (d := []) (d' := []); [rewrite map_length, seq_length; reflexivity|].
  intros n H. rewrite map_length, seq_length in H. rewrite (nth_indep _ [] (nth (List.length (sEvs s)) (sEvs s) [])) by (rewrite map_length, seq_length; exact H).
  rewrite (map_nth (fun i => nth i (sEvs s) []) (seq 0 (List.length (sEvs s))) (List.length (sEvs s)) n). rewrite seq_nth by exact H. reflexivity.
Qed.
Definition allL (sets : list src) := map (fun s => seq 0 (List.length (sEvs s))) sets.
Lemma stock_all sets : stockL sets (allL sets) = stock sets.
Proof. unfold stock, allL. induction sets as [|s sets IH]; cbn; [reflexivity|]. rewrite map_ev_seq, IH. reflexivity. Qed.
Lemma fresh_st sets slots : List.length slots = List.length sets -> Forall (fun sl : slot => fst sl = []) slots -> slots_st sets slots (allL sets).
Proof.
  revert slots. induction sets as [|s sets IH]; intros [|sl slots] H F; cbn in H; try lia; [constructor|]. inversion F; subst. constructor; [left; auto|apply IH; [lia|assumption]].
Qed.
Lemma allL_len sets k L s : nth_error (allL sets) k = Some L -> nth_error sets k = Some s -> List.length L = List.length (sEvs s).
Proof. intros H1 H2. unfold allL in H1. rewrite nth_error_map, H2 in H1. injection H1 as <-. apply seq_length. Qed.
Lemma fresh_inv g cl : fresh g -> random_noreplace g -> ginv (gSets g) (fun _ => 0) cl (g, []).
Proof.
  intros [H F] R. split; [reflexivity|]. split; [exact R|]. exists (allL (gSets g)), []. split; [apply fresh_st; assumption|].
  split; [cbn; rewrite stock_all; reflexivity|]. split; [intros k L s H1 H2; rewrite (allL_len _ _ _ _ H1 H2); lia|].
  split; [congruence|]. intros _. split; [reflexivity|]. intros k L s H1 H2. rewrite (allL_len _ _ _ _ H1 H2). lia.
Qed.
Lemma generate_inv sets tot cl g outs count u (a : nat -> Z) m : ginv sets tot cl (g, outs) -> sized sets -> uniform u ->
  (forall i s, nth_error sets i = Some s -> 0 <= a i /\ tot i + a i <= Z.of_nat (List.length (sEvs s))) ->
  (List.length (gRates g) = List.length sets -> forall i s, nth_error sets i = Some s -> count i = Ok (a i)) ->
  (cl -> List.length (gRates g) = List.length sets /\ gCuts g = [] /\ regular m sets) ->
  ginv sets (fun i => tot i + a i) cl (collect outs (g_generate g count u)) /\
  gRates (fst (collect outs (g_generate g count u))) = gRates g /\ gCuts (fst (collect outs (g_generate g count u))) = gCuts g /\
  (List.length (gRates g) = List.length sets -> sets <> [] -> (exists p, snd (g_generate g count u) = Ok p) \/ (exists x, snd (g_generate g count u) = Throw x)) /\
  (cl -> sets <> [] -> exists p, snd (g_generate g count u) = Ok p).
Proof.
  intros [HS [R [Ls [lost [St [P [Le [Us Cl]]]]]]]] Sz Hu Ha Hc HCl. unfold g_generate. rewrite HS.
  assert (Weak : (cl -> sets = []) -> ginv sets (fun i => tot i + a i) cl (g, outs)).
  { intros W. split; [exact HS|]. split; [exact R|]. exists Ls, lost. split; [exact St|]. split; [exact P|].
    split; [intros k L s H1 H2; specialize (Le k L s H1 H2); destruct (Ha k s H2); lia|]. split; [exact Us|].
    intros c. split; [apply Cl, c|]. intros k L s H1 H2. rewrite (W c) in H2. destruct k; discriminate. }
  destruct (Nat.eqb_spec (List.length (gRates g)) (List.length sets)) as [Hr|Hr]; cbn [negb].
  2:{ cbn [collect fst snd]. split; [apply Weak; intros c; destruct (HCl c); congruence|]. split; [reflexivity|]. split; [reflexivity|]. split; [congruence|]. intros c; destruct (HCl c); congruence. }
  destruct sets as [|s0 sets0] eqn:Es.
  { cbn [collect fst snd]. split; [apply Weak; auto|]. repeat split; congruence. }
  rewrite <- Es in *. clear Weak.
  destruct R as [R1 [R2 [R3 R4]]]. rewrite HS in R1, R3.
  destruct (loop_norep g count u R2 R4 Hu sets (gSlots g) Ls 0%nat (ds_setNames ds_new (sNames s0)) [] St Sz R1 R3) as [slots' [Ls' [lost' [r [E [St' [Le' [RR [Uk C']]]]]]]]].
  { intros k L H. destruct (slots_at _ _ _ St k L H) as [s Hs]. exists (a k). cbn. rewrite (Hc Hr k s Hs). split; [reflexivity|].
    destruct (Ha k s Hs). specialize (Le k L s H Hs). lia. }
  rewrite E.
  assert (Lx : forall k L' s, nth_error Ls' k = Some L' -> nth_error sets k = Some s -> exists L, nth_error Ls k = Some L).
  { intros k L' s H1 H2. destruct (slots_len _ _ _ St) as [Q _]. destruct (nth_error Ls k) eqn:E0; [eauto|]. apply nth_error_None in E0.
    assert (k < List.length sets)%nat by (apply nth_error_Some; congruence). lia. }
  assert (Fin : forall outs' lost2, Permutation (given outs' ++ lost2 ++ stockL sets Ls') (stock sets) -> (outs' <> [] -> slots_used sets slots' Ls') ->
     (cl -> lost2 = [] /\ forall k L L' n, nth_error Ls k = Some L -> nth_error Ls' k = Some L' -> count (0 + k)%nat = Ok n -> Z.of_nat (List.length L) - n = Z.of_nat (List.length L')) ->
     ginv sets (fun i => tot i + a i) cl (g_withSlots g slots', outs')).
  { intros outs' lost2 P2 U2 C2. split; [exact HS|]. split; [split; [cbn; rewrite HS; exact R1|split; [exact R2|split; [cbn; rewrite HS; exact R3|exact R4]]]|].
    exists Ls', lost2. split; [exact St'|]. split; [exact P2|]. split.
    - intros k L' s H1 H2. destruct (Lx k L' s H1 H2) as [L H3]. specialize (Le k L s H3 H2). specialize (Le' k L L' (a k) H3 H1). cbn in Le'. rewrite (Hc Hr k s H2) in Le'. specialize (Le' eq_refl). lia.
    - split; [exact U2|]. intros c. destruct (C2 c) as [E2 Q]. split; [exact E2|]. intros k L' s H1 H2. destruct (Lx k L' s H1 H2) as [L H3].
      destruct (Cl c) as [_ Cq]. specialize (Cq k L s H3 H2). specialize (Q k L L' (a k) H3 H1). cbn in Q. rewrite (Hc Hr k s H2) in Q. specialize (Q eq_refl). lia. }
  assert (CC : cl -> lost' = [] /\ exists o, r = Ok o).
  { intros c. destruct (HCl c) as [_ [c1 c2]]. apply (C' c1 m c2). left. reflexivity. }
  destruct RR as [[o [tk [new [-> [Ho [P2 [Us2 Leq]]]]]]]|[x [-> P2]]]; cbn [collect fst snd].
  - split; [|split; [reflexivity|split; [reflexivity|split; intros; [left|]; eauto]]]. apply (Fin (outs ++ [o]) (lost ++ lost')).
    + unfold given. rewrite map_app, concat_app. cbn. rewrite app_nil_r. rewrite Ho. cbn [ds_setNames ds_new events_of dData map app].
      rewrite <- P. fold (given outs). rewrite <- P2. perm_solve.
    + intros _. exact Us2.
    + intros c. destruct (CC c) as [-> _]. destruct (Cl c) as [-> _]. split; [reflexivity|exact Leq].
  - split; [|split; [reflexivity|split; [reflexivity|split; [intros; right; eauto|intros c; destruct (CC c) as [_ [? ?]]; discriminate]]]]. apply (Fin outs (lost ++ lost')).
    + rewrite <- P, <- P2. perm_solve.
    + intros H. apply Uk. apply Us. exact H.
    + intros c. destruct (CC c) as [_ [o H]]. discriminate.
Qed.
