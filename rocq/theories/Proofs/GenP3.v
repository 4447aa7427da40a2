From Coq Require Import ZArith Permutation Lia.
From Verif Require Import Base.Res Base.Perm Base.Num Base.SMap Model.Axis Model.Event Model.Cut Model.Hist Model.Shrink Model.Data Model.Rand Model.Gen Spec.GenSpec Proofs.GenP Proofs.GenP2.
From Coq Require Import Lia.
Local Open Scope Z_scope.

Definition rates_after (rates : list Qc) (o : gop) := match o with GRates l => l | _ => rates end.
Definition tot_after (rates : list Qc) (tot : nat -> Z) (o : gop) := fun i => match o with GReset => 0 | _ => tot i + ask rates o i end.
Lemma ginv_ext sets t t' cl st : (forall i, t i = t' i) -> ginv sets t cl st -> ginv sets t' cl st.
Proof.
  intros E. destruct st as [g outs]. intros [HS [R [Ls [lost [St [P [Le [Us Cl]]]]]]]]. split; [exact HS|]. split; [exact R|].
  exists Ls, lost. split; [exact St|]. split; [exact P|]. split; [intros; rewrite <- E; eauto|]. split; [exact Us|].
  intros c. destruct (Cl c) as [A B]. split; [exact A|]. intros; rewrite <- E; eauto.
Qed.
Definition cleanliness (sets : list src) (m : nat) (g : gen) : Prop := List.length (gRates g) = List.length sets /\ gCuts g = [] /\ regular m sets.
Definition op_clean (sets : list src) (o : gop) : Prop := match o with GRates l => List.length l = List.length sets | GCuts cs => cs = [] | _ => True end.

Lemma exp_count sets rates tot i s u : sized sets -> nth_error sets i = Some s -> List.length rates = List.length sets ->
  0 <= ask rates (GExp u) i /\ tot i + ask rates (GExp u) i <= Z.of_nat (List.length (sEvs s)) -> 0 <= tot i ->
  bind (vat rates i) g_round = Ok (ask rates (GExp u) i).
Proof.
  intros Sz Hs Hr [A B] C. unfold sized in Sz. rewrite Forall_forall in Sz. pose proof (Sz s (nth_error_In _ _ Hs)) as S1. cbn in S1. cbn [ask] in *. unfold vat.
  destruct (nth_error rates i) as [r|] eqn:E.
  - cbn [bind]. unfold g_round. destruct (Z.ltb_spec (qround r) 0); [lia|]. destruct (Z.leb_spec (2 ^ 32) (qround r)); [lia|]. reflexivity.
  - apply nth_error_None in E. assert (i < List.length sets)%nat by (apply nth_error_Some; congruence). lia.
Qed.
Lemma step_inv sets cl m g outs tot o : ginv sets tot cl (g, outs) -> sized sets -> op_uniform o -> (forall i s, nth_error sets i = Some s -> 0 <= tot i) ->
  (forall i s, nth_error sets i = Some s -> 0 <= ask (gRates g) o i /\ tot_after (gRates g) tot o i <= Z.of_nat (List.length (sEvs s))) ->
  (cl -> cleanliness sets m g /\ op_clean sets o) ->
  ginv sets (tot_after (gRates g) tot o) cl (gdo (g, outs) o) /\ gRates (fst (gdo (g, outs) o)) = rates_after (gRates g) o /\
  (cl -> cleanliness sets m (fst (gdo (g, outs) o))).
Proof.
  intros I Sz Hu Ht Ha HCl. unfold cleanliness in *. destruct o as [u|p u| |l|cs]; cbn [gdo].
  - unfold g_expected. destruct (generate_inv sets tot cl g outs (fun i => bind (vat (gRates g) i) (fun r => g_round r)) u (ask (gRates g) (GExp u)) m I Sz Hu Ha) as [A [B [C _]]].
    + intros Hr i s Hs. eapply exp_count; eauto.
    + intros c. apply (HCl c).
    + split; [exact A|]. split; [exact B|]. rewrite B, C. intros c. apply (HCl c).
  - unfold g_poisson. destruct (generate_inv sets tot cl g outs (fun i => bind (vat (gRates g) i) (fun _ => Ok (Z.of_nat (p i)))) u (ask (gRates g) (GPois p u)) m I Sz Hu Ha) as [A [B [C _]]].
    + intros Hr i s Hs. unfold vat. destruct (nth_error (gRates g) i) eqn:E; [reflexivity|]. apply nth_error_None in E.
      assert (i < List.length sets)%nat by (apply nth_error_Some; congruence). lia.
    + intros c. apply (HCl c).
    + split; [exact A|]. split; [exact B|]. rewrite B, C. intros c. apply (HCl c).
  - destruct I as [HS [R _]]. split; [|split; [reflexivity|intros c; apply (HCl c)]]. subst sets.
    apply (ginv_ext (gSets (g_reset g)) (fun _ => 0)); [reflexivity|]. apply fresh_inv; [|exact R].
    split; [cbn; apply repeat_length|]. cbn. apply Forall_forall. intros sl H. apply repeat_spec in H. subst. reflexivity.
  - split; [|split; [reflexivity|intros c; destruct (HCl c) as [[_ [c2 c3]] c1]; cbn; auto]].
    apply (ginv_ext sets tot); [intros i; cbn; lia|]. exact I.
  - split; [|split; [reflexivity|intros c; destruct (HCl c) as [[c1 [c2 c3]] c4]; cbn; auto]].
    apply (ginv_ext sets tot); [intros i; cbn; lia|]. exact I.
Qed.
Definition tstep (i : nat) (a : list Qc * Z) (o : gop) : list Qc * Z :=
  (match o with GRates l => l | _ => fst a end, match o with GReset => 0 | _ => snd a + ask (fst a) o i end).
Lemma run_inv sets cl m : sized sets -> forall ops g outs tot, ginv sets tot cl (g, outs) -> Forall op_uniform ops -> (forall i s, nth_error sets i = Some s -> 0 <= tot i) ->
  enough sets (gRates g) tot ops -> (cl -> cleanliness sets m g /\ Forall (op_clean sets) ops) ->
  let st := fold_left gdo ops (g, outs) in
  ginv sets (fun i => snd (fold_left (tstep i) ops (gRates g, tot i))) cl st /\ (cl -> cleanliness sets m (fst st)) /\
  (forall i s, nth_error sets i = Some s -> 0 <= snd (fold_left (tstep i) ops (gRates g, tot i))) /\
  forall i, gRates (fst st) = fst (fold_left (tstep i) ops (gRates g, tot i)).
Proof.
  intros Sz. induction ops as [|o ops IH]; intros g outs tot I Fu Ht En HCl; cbn [fold_left].
  - cbn. split; [exact I|]. split; [intros c; apply (HCl c)|]. split; [exact Ht|reflexivity].
  - inversion Fu as [|? ? F1 F2]; subst. destruct En as [E1 E2]. fold (tot_after (gRates g) tot o) in E2. fold (rates_after (gRates g) o) in E2.
    assert (HCl' : cl -> cleanliness sets m g /\ op_clean sets o).
    { intros c. destruct (HCl c) as [c1 c2]. inversion c2; subst. auto. }
    destruct (step_inv sets cl m g outs tot o I Sz F1 Ht E1 HCl') as [A [B C]].
    destruct (gdo (g, outs) o) as [g1 outs1] eqn:Eg. cbn [fst] in *.
    assert (T0 : forall i s, nth_error sets i = Some s -> 0 <= tot_after (gRates g) tot o i).
    { intros i s Es. destruct (E1 i s Es). specialize (Ht i s Es). unfold tot_after. destruct o; lia. }
    rewrite <- B in E2.
    destruct (IH g1 outs1 (tot_after (gRates g) tot o) A F2 T0 E2) as [R1 [R2 [R3 R4]]].
    { intros c. split; [apply C, c|]. destruct (HCl c) as [_ c2]. inversion c2; assumption. }
    assert (TS : forall i, tstep i (gRates g, tot i) o = (gRates g1, tot_after (gRates g) tot o i)).
    { intros i. rewrite B. destruct o; reflexivity. }
    split; [|split; [exact R2|split]].
    + eapply ginv_ext; [|exact R1]. intros i. rewrite TS. reflexivity.
    + intros i s Es. rewrite TS. eapply R3, Es.
    + intros i. rewrite TS. apply R4.
Qed.

(** packages *)
Lemma grun_inv g ops (cl : Prop) m : fresh g -> random_noreplace g -> sized (gSets g) -> Forall op_uniform ops -> enough (gSets g) (gRates g) (fun _ => 0) ops ->
  (cl -> nocuts g ops /\ rated g ops /\ regular m (gSets g)) ->
  ginv (gSets g) (fun i => total (gRates g) ops i) cl (grun g ops) /\ (cl -> cleanliness (gSets g) m (fst (grun g ops))) /\
  (forall i s, nth_error (gSets g) i = Some s -> 0 <= total (gRates g) ops i) /\ (forall i, gRates (fst (grun g ops)) = fst (fold_left (tstep i) ops (gRates g, 0))).
Proof.
  intros Fr R Sz Fu En HCl. apply (run_inv (gSets g) cl m Sz ops g [] (fun _ => 0)); [apply fresh_inv; assumption|assumption|intros; lia|assumption|].
  intros c. destruct (HCl c) as [[C1 C2] [[D1 D2] Rg]]. split; [split; [exact D1|split; [exact C1|exact Rg]]|].
  apply Forall_forall. intros o Ho. rewrite Forall_forall in C2, D2. specialize (C2 o Ho). specialize (D2 o Ho). destruct o; cbn; auto.
Qed.
Lemma NoDup_app_l {A} (a b : list A) : NoDup (a ++ b) -> NoDup a.
Proof. induction a as [|x a IH]; cbn; intros H; constructor; inversion H; subst; [intros C; apply H2; apply in_or_app; auto|auto]. Qed.
Lemma distinct_pkg g ops : fresh g -> random_noreplace g -> sized (gSets g) -> Forall op_uniform ops -> enough (gSets g) (gRates g) (fun _ => 0) ops ->
  let outs := snd (grun g ops) in
  (exists rest, Permutation (given outs ++ rest) (stock (gSets g))) /\ (NoDup (stock (gSets g)) -> NoDup (given outs)).
Proof.
  intros Fr R Sz Fu En. destruct (grun_inv g ops False 0 Fr R Sz Fu En ltac:(tauto)) as [I _]. destruct (grun g ops) as [g1 outs]. cbn [snd].
  destruct I as [_ [_ [Ls [lost [_ [P _]]]]]]. split; [eexists; exact P|]. intros N. apply (NoDup_app_l _ (lost ++ stockL (gSets g) Ls)).
  eapply Permutation_NoDup; [symmetry; exact P|exact N].
Qed.
Lemma regular_evs m sets k s : regular m sets -> nth_error sets k = Some s -> (0 < m)%nat /\ Forall (fun x => List.length x = m) (sEvs s).
Proof.
  intros [Hm F] H. split; [exact Hm|]. unfold stock in F. rewrite Forall_forall in *. intros x Hx. apply F. apply in_concat. exists (sEvs s). split; [|exact Hx].
  apply in_map. eapply nth_error_In. exact H.
Qed.
Lemma addTo_fits out e m : (0 < m)%nat -> List.length e = m -> fits m out -> exists o, g_addTo out e = Ok o /\ events_of o = events_of out ++ [e] /\ fits m o.
Proof. intros Hm He F. destruct (ds_add_fits 0 out e m Hm He F) as [o [E [Ev Fo]]]. exists o. unfold g_addTo. rewrite E. auto. Qed.
Lemma rem_loop_ok s m : (0 < m)%nat -> Forall (fun x => List.length x = m) (sEvs s) -> forall L G j out, Forall (fun e => (e < List.length (sEvs s))%nat) L -> fits m out ->
  exists o, rem_loop s (L ++ G) j (j + Z.of_nat (List.length L) - 1) out = Ok o /\ events_of o = events_of out ++ map (ev s) L.
Proof.
  intros Hm Fm. induction L as [|e L IH]; intros G j out Fe Fo; cbn [app].
  - exists out. split; [|cbn; rewrite app_nil_r; reflexivity]. cbn. destruct (Z.ltb_spec (j + 0 - 1) j); [|lia]. destruct G; cbn; destruct (Z.ltb_spec (j + 0 - 1) j); reflexivity || lia.
  - inversion Fe as [|? ? He Fe2]; subst. cbn [rem_loop List.length]. rewrite Nat2Z.inj_succ. destruct (Z.ltb_spec (j + Z.succ (Z.of_nat (List.length L)) - 1) j); [lia|].
    unfold s_get. destruct (nth_error (sEvs s) e) as [x|] eqn:E; [|apply nth_error_None in E; lia]. cbn [bind].
    rewrite Forall_forall in Fm. destruct (addTo_fits out x m Hm (Fm x (nth_error_In _ _ E)) Fo) as [o [E1 [Ev Fo1]]]. rewrite E1. cbn [bind].
    destruct (IH G (j + 1) o Fe2 Fo1) as [o2 [E2 Ev2]]. exists o2. replace (j + Z.succ (Z.of_nat (List.length L)) - 1) with (j + 1 + Z.of_nat (List.length L) - 1) by lia.
    split; [exact E2|]. rewrite Ev2, Ev, <- app_assoc. cbn. unfold ev at 2. rewrite (nth_error_nth _ _ [] E). reflexivity.
Qed.
Lemma slots_used_at sets slots Ls : slots_used sets slots Ls -> forall i s, nth_error sets i = Some s ->
  exists sl L G, nth_error slots i = Some sl /\ nth_error Ls i = Some L /\ used (List.length (sEvs s)) sl L G.
Proof. induction 1; intros [|k] s0 E; cbn in *; try discriminate; [injection E as <-; eauto 8|eauto]. Qed.
Lemma remaining_one g sets Ls m i s : gSets g = sets -> slots_used sets (gSlots g) Ls -> sized sets -> regular m sets -> nth_error sets i = Some s ->
  exists L d, nth_error Ls i = Some L /\ g_remaining g i = (Ok d, Z.max 0 (Z.of_nat (List.length L) - 1)) /\ events_of d = map (ev s) L.
Proof.
  intros HS Us Sz Rg Hs. destruct (slots_used_at _ _ _ Us i s Hs) as [sl [L [G [Hsl [HL U]]]]]. exists L.
  unfold sized in Sz. rewrite Forall_forall in Sz. pose proof (Sz s (nth_error_In _ _ Hs)) as S1. cbn in S1. pose proof (used_len _ _ _ _ U) as Hlen.
  destruct (regular_evs m sets i s Rg Hs) as [Hm Fm].
  unfold g_remaining. rewrite HS. unfold vat. rewrite Hs, Hsl. destruct sl as [idx mx]. pose proof U as [U1 [_ U3]]. cbn [fst snd] in U1, U3. subst idx mx.
  destruct L as [|e L].
  - cbn [List.length]. change (w64 (Z.of_nat 0 - 1)) with (w64 (-1)). destruct (Z.eqb_spec (w64 (-1)) m999) as [C|_]; [rewrite w64_m1, m999_val in C; lia|].
    rewrite Z.eqb_refl. eexists. split; [exact HL|]. split; [reflexivity|]. reflexivity.
  - set (L0 := e :: L) in *. assert (Hp : (0 < List.length L0)%nat) by (cbn; lia). rewrite (w64_id (Z.of_nat (List.length L0) - 1)) by lia.
    destruct (Z.eqb_spec (Z.of_nat (List.length L0) - 1) m999) as [C|_]; [rewrite m999_val in C; lia|].
    destruct (Z.eqb_spec (Z.of_nat (List.length L0) - 1) (w64 (-1))) as [C|_]; [rewrite w64_m1 in C; lia|].
    destruct (rem_loop_ok s m Hm Fm L0 G 0 (ds_setNames ds_new (sNames s))) as [o [E Ev]].
    { apply Forall_forall. intros x Hx. eapply used_in; [exact U|]. apply in_or_app. auto. }
    { left. reflexivity. }
    replace (0 + Z.of_nat (List.length L0) - 1) with (Z.of_nat (List.length L0) - 1) in E by lia. rewrite E.
    exists o. split; [exact HL|]. split; [|rewrite Ev; reflexivity]. f_equal. rewrite s32_id by lia. lia.
Qed.
Lemma remaining_list g sets m : gSets g = sets -> sized sets -> regular m sets -> forall n Ls, slots_used sets (gSlots g) Ls -> (n <= List.length sets)%nat ->
  exists l, List.length l = n /\ (forall i d, nth_error l i = Some d -> fst (g_remaining g i) = Ok d /\ snd (g_remaining g i) = Z.max 0 (Z.of_nat (List.length (dData d)) - 1)) /\
    given l = stockL (firstn n sets) (firstn n Ls).
Proof.
  intros HS Sz Rg n Ls Us. induction n as [|n IH]; intros Hn.
  - exists []. split; [reflexivity|]. split; [intros [|i] d; discriminate|]. reflexivity.
  - destruct (IH ltac:(lia)) as [l [Hl [Hd Hg]]].
    destruct (nth_error sets n) as [s|] eqn:Es; [|apply nth_error_None in Es; lia].
    destruct (remaining_one g sets Ls m n s HS Us Sz Rg Es) as [L [d [HL [E Ev]]]].
    exists (l ++ [d]). split; [rewrite app_length; cbn; lia|]. split.
    + intros i d0 H. destruct (Nat.lt_ge_cases i n) as [Hi|Hi].
      * rewrite nth_error_app1 in H by lia. apply Hd. exact H.
      * rewrite nth_error_app2 in H by lia. destruct (i - List.length l)%nat as [|k] eqn:Ek; [|destruct k; discriminate]. cbn in H. injection H as <-.
        assert (i = n) by lia. subst i. rewrite E. cbn. split; [reflexivity|]. do 3 f_equal.
        apply (f_equal (@List.length _)) in Ev. unfold events_of in Ev. rewrite !map_length in Ev. congruence.
    + unfold given in *. rewrite map_app, concat_app, Hg. cbn [map List.concat]. rewrite app_nil_r, Ev.
      assert (F1 : firstn (S n) sets = firstn n sets ++ [s]).
      { clear -Es. revert sets Es. induction n; intros [|x t] E; cbn in *; try discriminate; [injection E as ->; reflexivity|]. rewrite <- IHn by exact E. reflexivity. }
      assert (F2 : firstn (S n) Ls = firstn n Ls ++ [L]).
      { clear -HL. revert Ls HL. induction n; intros [|x t] E; cbn in *; try discriminate; [injection E as ->; reflexivity|]. rewrite <- IHn by exact E. reflexivity. }
      rewrite F1, F2. assert (FL : List.length (firstn n sets) = List.length (firstn n Ls)).
      { rewrite !firstn_length. destruct (slots_len _ _ _ (used_st _ _ _ Us)). lia. }
      clear -FL. revert FL. generalize (firstn n sets) as a. generalize (firstn n Ls) as b. induction b as [|y b IHb]; intros [|x a] FL; cbn in *; try lia; [rewrite app_nil_r; reflexivity|].
      rewrite <- app_assoc. f_equal. apply IHb. lia.
Qed.
Lemma remaining_pkg g ops m : fresh g -> random_noreplace g -> sized (gSets g) -> Forall op_uniform ops -> enough (gSets g) (gRates g) (fun _ => 0) ops ->
  regular m (gSets g) -> let (g1, outs) := grun g ops in outs <> [] ->
  exists l lost, remaining g1 l /\ Permutation (given outs ++ lost ++ given l) (stock (gSets g)) /\
    (nocuts g ops -> rated g ops -> lost = [] /\ forall i s d, nth_error (gSets g) i = Some s -> nth_error l i = Some d ->
       Z.of_nat (List.length (events_of d)) = Z.of_nat (List.length (sEvs s)) - total (gRates g) ops i) /\
    (forall i d, nth_error l i = Some d -> snd (g_remaining g1 i) = Z.max 0 (Z.of_nat (List.length (events_of d)) - 1)).
Proof.
  intros Fr R Sz Fu En Rg. destruct (grun_inv g ops (nocuts g ops /\ rated g ops) m Fr R Sz Fu En ltac:(tauto)) as [I _]. destruct (grun g ops) as [g1 outs].
  destruct I as [HS [_ [Ls [lost [St [P [_ [Us Cl]]]]]]]]. intros Ho. specialize (Us Ho).
  destruct (remaining_list g1 (gSets g) m HS Sz Rg (List.length (gSets g)) Ls Us (le_n _)) as [l [Hl [Hd Hg]]].
  destruct (slots_len _ _ _ St) as [HLs _].
  rewrite firstn_all in Hg. rewrite <- HLs, firstn_all in Hg.
  exists l, lost. split; [split; [rewrite HS; exact Hl|intros i d H; apply (Hd i d H)]|]. split; [rewrite Hg; exact P|]. split.
  - intros C1 C2. destruct (Cl (conj C1 C2)) as [-> Q]. split; [reflexivity|]. intros i s d H1 H2.
    destruct (remaining_one g1 (gSets g) Ls m i s HS Us Sz Rg H1) as [L [d' [HL [E Ev]]]]. destruct (Hd i d H2) as [E2 _]. rewrite E in E2. cbn in E2. injection E2 as ->.
    rewrite Ev, map_length. symmetry. eapply Q; eassumption.
  - intros i d H. unfold events_of. rewrite map_length. apply (Hd i d H).
Qed.
