From Coq Require Import ZArith Permutation Lia.
From Verif Require Import Base.Res Base.Perm Base.Num Base.SMap Model.Axis Model.Event Model.Cut Model.Hist Model.Shrink Model.Data Model.Rand Model.Gen Spec.GenSpec Proofs.GenP Proofs.GenP2 Proofs.GenP3 Proofs.GenP4.
From Coq Require Import Lia.
Local Open Scope Z_scope.

Lemma rates_end_tstep i : forall ops rates t, fst (fold_left (tstep i) ops (rates, t)) = rates_end rates ops.
Proof. induction ops as [|o ops IH]; intros rates t; cbn [fold_left rates_end]; [reflexivity|]. unfold rates_end in *. destruct o; unfold tstep at 2; cbn [fst snd]; rewrite IH; reflexivity. Qed.
Lemma enough_app sets o : forall ops rates tot, enough sets rates tot (ops ++ [o]) ->
  enough sets rates tot ops /\ forall i s, nth_error sets i = Some s ->
    0 <= ask (rates_end rates ops) o i /\ tot_after (rates_end rates ops) (fun i => snd (fold_left (tstep i) ops (rates, tot i))) o i <= Z.of_nat (List.length (sEvs s)).
Proof.
  induction ops as [|p ops IH]; intros rates tot H; cbn [app enough] in *.
  - split; [exact I|]. destruct H as [H _]. exact H.
  - destruct H as [H1 H2]. destruct (IH _ _ H2) as [A B]. split; [split; [exact H1|exact A]|]. intros i s Hs. destruct (B i s Hs) as [C D].
    unfold rates_end in *. cbn [fold_left]. destruct p; cbn [tstep fst snd] in *; split; assumption.
Qed.
Lemma next_pkg g ops o m : fresh g -> random_noreplace g -> sized (gSets g) -> Forall op_uniform (ops ++ [o]) -> is_call o ->
  enough (gSets g) (gRates g) (fun _ => 0) (ops ++ [o]) -> gSets g <> [] ->
  (List.length (rates_end (gRates g) ops) = List.length (gSets g) -> forall r, snd (call (fst (grun g ops)) o) = r -> (exists p, r = Ok p) \/ (exists x, r = Throw x)) /\
  (nocuts g ops -> rated g ops -> regular m (gSets g) -> exists p, snd (call (fst (grun g ops)) o) = Ok p).
Proof.
  intros Fr R Sz Fu Hc En Hne. apply Forall_app in Fu. destruct Fu as [Fu Fo]. inversion Fo as [|? ? Uo _]; subst. destruct (enough_app _ _ _ _ _ En) as [E1 E2].
  set (cl := nocuts g ops /\ rated g ops /\ regular m (gSets g)).
  destruct (grun_inv g ops cl m Fr R Sz Fu E1 ltac:(unfold cl; tauto)) as [I [C1 [T0 HR]]]. destruct (grun g ops) as [g1 outs]. cbn [fst] in *.
  specialize (HR 0%nat). rewrite rates_end_tstep in HR. pose proof I as [HS _].
  assert (HH : exists count u, (forall r, snd (call g1 o) = r -> snd (g_generate g1 count u) = r) /\ uniform u /\
    (List.length (gRates g1) = List.length (gSets g) -> forall i s, nth_error (gSets g) i = Some s -> count i = Ok (ask (gRates g1) o i))).
  { destruct o as [u|p u| | |]; try contradiction; cbn [call op_uniform] in *.
    - exists (fun i => bind (vat (gRates g1) i) (fun r => g_round r)), u. split; [auto|]. split; [exact Uo|]. intros Hr i s Hs.
      destruct (E2 i s Hs) as [A B]. rewrite <- HR in A, B. unfold tot_after in B. eapply (exp_count (gSets g) (gRates g1) (fun i => total (gRates g) ops i)); eauto.
    - exists (fun i => bind (vat (gRates g1) i) (fun _ => Ok (Z.of_nat (p i)))), u. split; [auto|]. split; [exact Uo|]. intros Hr i s Hs.
      unfold vat. destruct (nth_error (gRates g1) i) eqn:E; [reflexivity|]. apply nth_error_None in E.
      assert (i < List.length (gSets g))%nat by (apply nth_error_Some; congruence). lia. }
  destruct HH as [count [u [Hs [Hu Hcnt]]]].
  destruct (generate_inv (gSets g) (fun i => total (gRates g) ops i) cl g1 outs count u (ask (gRates g1) o) m I Sz Hu) as [_ [_ [_ [W1 W2]]]].
  - intros i s H. destruct (E2 i s H) as [A B]. rewrite <- HR in A, B. destruct o; try contradiction; split; assumption.
  - exact Hcnt.
  - intros c. apply C1. exact c.
  - specialize (Hs _ eq_refl). split.
    + intros Hr r <-. rewrite <- HR in Hr. rewrite <- Hs. apply W1; assumption.
    + intros c1 c2 c3. rewrite <- Hs. apply W2; [unfold cl; auto|exact Hne].
Qed.
(** more than the whole (first) data set *)
Lemma too_many_pkg g s rest sl slots rates b (n : Z) o : gSets g = s :: rest -> gSlots g = sl :: slots -> List.length (gRates g) = List.length (gSets g) -> gBoot g = false :: b -> gSeq g <> [] ->
  gRates g = rates -> is_call o -> ask rates o 0 = n -> n < 2 ^ 32 -> Z.of_nat (List.length (sEvs s)) < n -> snd (call g o) = Throw NotFoundError.
Proof.
  intros HS Hsl Hr Hb Hq <- Hc Ha Hn2 Hn. assert (HD : forall u out, snd (g_draw g 0 s n u sl out) = Throw NotFoundError).
  { intros u out. unfold g_draw. rewrite Hb. cbn [vat nth_error]. destruct (gSeq g) as [|q qs] eqn:Eq; [congruence|]. cbn [vat nth_error].
    destruct q; [unfold draw_seq|unfold draw_norep]; destruct (Z.ltb_spec (Z.of_nat (List.length (sEvs s))) n); cbn; reflexivity || lia. }
  assert (G : forall count u, count 0%nat = Ok n -> snd (g_generate g count u) = Throw NotFoundError).
  { intros count u Hcn. unfold g_generate. rewrite Hr, Nat.eqb_refl. cbn [negb]. rewrite HS, Hsl. cbn [g_loop]. rewrite Hcn.
    specialize (HD (u 0%nat) (ds_setNames ds_new (sNames s))). destruct (g_draw g 0 s n (u 0%nat) sl (ds_setNames ds_new (sNames s))) as [sl' r]. cbn [snd] in HD. subst r. reflexivity. }
  rewrite HS in Hr. destruct (gRates g) as [|r0 rr] eqn:Er; [discriminate|].
  destruct o as [u|p u| | |]; try contradiction; cbn [call].
  - apply G. unfold vat. rewrite Er. cbn [nth_error bind]. cbn [ask nth_error] in Ha. unfold g_round. rewrite Ha. destruct (Z.ltb_spec n 0); [lia|]. destruct (Z.leb_spec (2 ^ 32) n); [lia|]. reflexivity.
  - apply G. unfold vat. rewrite Er. cbn [nth_error bind]. cbn [ask] in Ha. rewrite Ha. reflexivity.
Qed.
Lemma shoot_m1 u : (0 <= u)%Qc -> (u < 1)%Qc -> rShoot (-1) u = 0.
Proof.
  intros H0 H1. unfold rShoot, rUniform. replace (qz (-1) * (1 * u))%Qc with (- u)%Qc by (change (qz (-1)) with (- (1))%Qc; ring).
  unfold qtrunc. cbn [this Qcopp Q2Qc]. rewrite (Qred_identity (- this u)).
  - cbn [Qopp Qnum Qden]. rewrite Z.quot_opp_l by lia. pose proof (qtrunc_bounds u 1 H0 H1) as B. unfold qtrunc in B. lia.
  - pose proof (canon u) as C. apply Qred_identity2 in C. cbn [Qopp Qnum Qden]. rewrite Z.gcd_opp_l. exact C.
Qed.
(** everything already drawn: the next draw is outside the vector *)
Lemma exhausted_pkg g s ops o m : gSets g = [s] -> fresh g -> random_noreplace g -> sized [s] -> regular m [s] -> Forall op_uniform (ops ++ [o]) -> nocuts g ops -> rated g ops ->
  enough [s] (gRates g) (fun _ => 0) ops -> total (gRates g) ops 0 = Z.of_nat (List.length (sEvs s)) -> sEvs s <> [] -> is_call o ->
  1 <= ask (rates_end (gRates g) ops) o 0 <= Z.of_nat (List.length (sEvs s)) -> snd (call (fst (grun g ops)) o) = UB.
Proof.
  intros HS0 Fr R Sz Rg Fu Nc Ra En Ht Hne Hc Ha. apply Forall_app in Fu. destruct Fu as [Fu Fo]. inversion Fo as [|? ? Uo _]; subst.
  destruct (grun_inv g ops True m Fr R ltac:(rewrite HS0; exact Sz) Fu ltac:(rewrite HS0; exact En) ltac:(rewrite HS0; tauto)) as [I [C1 [T0 HR]]]. rewrite HS0 in *.
  destruct (grun g ops) as [g1 outs]. cbn [fst] in *. specialize (HR 0%nat). rewrite rates_end_tstep in HR. specialize (C1 Logic.I). destruct C1 as [Lr [Cc _]].
  destruct I as [HS [[R1 [R2 [R3 R4]]] [Ls [lost [St [_ [_ [_ Cl]]]]]]]]. destruct (Cl Logic.I) as [_ Q]. clear Cl. rewrite HS in R1, R3. cbn [List.length] in R1, R3.
  inversion St as [|? ? sl slots1 L Ls1 S1 S2 E1 E2 E3]; subst. inversion S2; subst. specialize (Q 0%nat L s eq_refl eq_refl). rewrite Ht in Q.
  assert (L = []) by (destruct L; [reflexivity|cbn [List.length] in Q; lia]). subst L.
  set (N := List.length (sEvs s)) in *. assert (HN : (0 < N)%nat) by (unfold N; destruct (sEvs s); [congruence|cbn; lia]).
  inversion Sz as [|? ? B _]; subst. fold N in B.
  destruct (start_used N sl [] S1) as [G U]. pose proof U as [U1 [U2 U3]]. cbn [app List.length] in U1, U3. destruct (g_start N sl) as [idx mx] eqn:Eg. cbn [fst snd] in U1, U3. subst idx.
  assert (LG : List.length G = N) by (apply used_len in U; exact U).
  assert (HD : forall n u out, 1 <= n <= Z.of_nat N -> (forall j, (0 <= u j)%Qc /\ (u j < 1)%Qc) -> snd (g_draw g1 0 s n u sl out) = UB).
  { intros n u out Hn Hu. unfold g_draw. destruct (flag_at (gBoot g1) 0%nat R2 ltac:(lia)) as [V1 V2]. destruct (flag_at (gSeq g1) 0%nat R4 ltac:(lia)) as [V3 V4].
    rewrite V1, V3. destruct (gBoot g1); [congruence|]. destruct (gSeq g1); [congruence|]. unfold draw_norep. fold N. destruct (Z.ltb_spec (Z.of_nat N) n); [lia|]. rewrite Eg.
    destruct (Z.to_nat n) as [|k] eqn:Ek; [lia|]. cbn [g_rounds]. unfold norep_step. replace (g_max (G, mx)) with (2 ^ 64 - 1) by (unfold g_max; cbn [snd]; rewrite U3; reflexivity).
    change (s32 (2 ^ 64 - 1)) with (-1). destruct (Hu 0%nat) as [H0 H1]. rewrite shoot_m1 by assumption. change (w64 0) with (Z.of_nat 0). cbn [fst]. unfold g_swap. rewrite zidx_nat.
    unfold vidx at 1. destruct (nth_error G 0) eqn:E0; [|apply nth_error_None in E0; lia]. cbn [bind].
    replace (zidx G (2 ^ 64 - 1)) with (@UB nat); [reflexivity|]. unfold zidx. destruct (Z.ltb_spec (2 ^ 64 - 1) 0); [lia|]. destruct (Z.leb_spec (Z.of_nat (List.length G)) (2 ^ 64 - 1)); [reflexivity|lia]. }
  assert (GG : forall count u, count 0%nat = Ok (ask (gRates g1) o 0) -> (forall j, (0 <= u 0%nat j)%Qc /\ (u 0%nat j < 1)%Qc) -> snd (g_generate g1 count u) = UB).
  { intros count u Hcn Hu. unfold g_generate. rewrite HS, Lr. cbn [List.length Nat.eqb negb]. match goal with H : _ = gSlots g1 |- _ => rewrite <- H end. cbn [g_loop]. rewrite Hcn.
    specialize (HD (ask (gRates g1) o 0) (u 0%nat) (ds_setNames ds_new (sNames s)) ltac:(rewrite HR; exact Ha) Hu).
    destruct (g_draw g1 0 s (ask (gRates g1) o 0) (u 0%nat) sl (ds_setNames ds_new (sNames s))) as [sl' r]. cbn [snd] in HD. subst r. reflexivity. }
  cbn [List.length] in Lr. destruct (gRates g1) as [|r0 rr] eqn:Er; [discriminate|].
  destruct o as [u|p u| | |]; try contradiction; cbn [call]; apply GG; try (intros j; apply Uo).
  - rewrite Er. cbn [vat nth_error bind ask]. rewrite <- HR in Ha. cbn [ask nth_error] in Ha. unfold g_round. destruct (Z.ltb_spec (qround r0) 0); [lia|]. destruct (Z.leb_spec (2 ^ 32) (qround r0)); [lia|]. reflexivity.
  - rewrite Er. reflexivity.
Qed.
