From Coq Require Import ZArith Permutation Lia.
From Verif Require Import Base.Res Base.Perm Base.Num Base.SMap Model.Axis Model.Event Model.Cut Model.Hist Model.Shrink Model.Data Model.Rand Model.Gen Spec.GenSpec Proofs.GenP Proofs.GenP2 Proofs.GenP3 Proofs.GenP4 Proofs.GenP5.
From Coq Require Import Lia.
Local Open Scope Z_scope.

(** with replacement: the vector of indices is never changed *)
Definition rslot (N : nat) : slot := (seq 0 N, Z.of_nat N - 1).
Lemma rep_one cs s u out : let N := List.length (sEvs s) in (0 < N)%nat -> Z.of_nat N <= 2 ^ 31 -> (0 <= u)%Qc -> (u < 1)%Qc ->
  exists e, (e < N - 1 \/ N = 1 /\ e = 0)%nat /\ Z.of_nat e = rShoot (Z.of_nat N - 1) u /\ rep_step cs s u (rslot N) out = (rslot N, g_keep cs s out e).
Proof.
  intros N HN B H0 H1. unfold rep_step, g_max. cbn [fst snd rslot]. destruct (Z.eqb_spec (Z.of_nat N - 1) m999) as [C|_]; [rewrite m999_val in C; lia|].
  rewrite s32_id by lia. destruct (shoot_bounds (Z.of_nat N - 1) u ltac:(lia) H0 H1) as [A C]. exists (Z.to_nat (rShoot (Z.of_nat N - 1) u)).
  split; [destruct C as [C|[C1 C2]]; [left; lia|right; split; lia]|]. split; [lia|].
  set (d := Z.to_nat (rShoot (Z.of_nat N - 1) u)). assert (Ed : rShoot (Z.of_nat N - 1) u = Z.of_nat d) by (unfold d; rewrite Z2Nat.id by exact A; reflexivity).
  rewrite Ed in A, C. rewrite Ed, w64_id by lia. rewrite zidx_nat. unfold vidx. clearbody d.
  rewrite (nth_error_nth' (seq 0 N) 0%nat) by (rewrite seq_length; lia). rewrite seq_nth by lia. cbn [bind]. reflexivity.
Qed.
Definition early (s : src) (x : list Qc) : Prop := exists e, (e < List.length (sEvs s) - 1 \/ List.length (sEvs s) = 1 /\ e = 0)%nat /\ nth_error (sEvs s) e = Some x.
Lemma rep_rounds cs s u : let N := List.length (sEvs s) in (0 < N)%nat -> Z.of_nat N <= 2 ^ 31 -> (forall j, (0 <= u j)%Qc /\ (u j < 1)%Qc) ->
  forall n j out, Forall (early s) (events_of out) -> exists r, g_rounds (fun j => rep_step cs s (u j)) n j (rslot N) out = (rslot N, r) /\
   ((exists o, r = Ok o /\ Forall (early s) (events_of o)) \/ exists x, r = Throw x) /\
   (cs = [] -> forall m, (0 < m)%nat -> Forall (fun x => List.length x = m) (sEvs s) -> fits m out ->
      exists o, r = Ok o /\ events_of o = events_of out ++ map (fun k => ev s (Z.to_nat (rShoot (Z.of_nat N - 1) (u k)))) (seq j n)).
Proof.
  intros N HN B Hu. induction n as [|n IH]; intros j out F; cbn [g_rounds].
  - exists (Ok out). split; [reflexivity|]. split; [left; eauto|]. intros _ m _ _ _. exists out. cbn. rewrite app_nil_r. auto.
  - destruct (Hu j) as [H0 H1]. destruct (rep_one cs s (u j) out HN B H0 H1) as [e [He [Hse E]]]. fold N in E. rewrite E.
    assert (eN : (e < List.length (sEvs s))%nat) by (fold N; lia).
    destruct (keep_cases cs s out e eN) as [[o [K Ev]]|[x K]].
    + rewrite K. destruct (IH (S j) o) as [r [E1 [E2 E3]]].
      { rewrite Ev. apply Forall_app. split; [exact F|]. unfold keeps. cbn [filter]. destruct (passed cs s (ev s e)); [|constructor]. constructor; [|constructor].
        exists e. split; [exact He|]. unfold ev. apply nth_error_nth'. exact eN. }
      exists r. split; [exact E1|]. split; [exact E2|]. intros -> m Hm Fm Fo.
      destruct (keep_clean s out e m eN Hm Fm Fo) as [o' [K' Fo']]. rewrite K in K'. injection K' as <-.
      destruct (E3 eq_refl m Hm Fm Fo') as [o2 [R1 R2]]. exists o2. split; [exact R1|]. rewrite R2, Ev, keeps_nil, <- app_assoc. cbn [seq map app]. fold N in Hse. rewrite <- Hse, Nat2Z.id. reflexivity.
    + rewrite K. eexists. split; [reflexivity|]. split; [right; eauto|]. intros -> m Hm Fm Fo.
      destruct (keep_clean s out e m eN Hm Fm Fo) as [o' [K' _]]. congruence.
Qed.
Definition rinv (s : src) (st : gen * list dset) : Prop :=
  let (g, outs) := st in let N := List.length (sEvs s) in
  gSets g = [s] /\ (exists b, gBoot g = true :: b) /\ (exists sl, gSlots g = [sl] /\ (fst sl = [] \/ sl = rslot N)) /\ Forall (early s) (given outs).
Lemma rinv_generate s g outs count u : rinv s (g, outs) -> Z.of_nat (List.length (sEvs s)) <= 2 ^ 31 -> sEvs s <> [] -> uniform u ->
  rinv s (collect outs (g_generate g count u)).
Proof.
  intros I B Hne Hu. pose proof I as [HS [[b Hb] [[sl [Hsl St]] F]]]. unfold g_generate. rewrite HS. destruct (negb _); [exact I|]. rewrite Hsl. cbn [g_loop].
  assert (Same : forall r, rinv s (g_withSlots g [sl], outs) -> (forall p, r <> Ok p) -> rinv s (collect outs (g_withSlots g [sl], r))).
  { intros r H Hr. destruct r as [p| | | |]; cbn [collect]; try exact H. exfalso. exact (Hr p eq_refl). }
  assert (I1 : rinv s (g_withSlots g [sl], outs)) by (split; [exact HS|]; split; [eauto|]; split; [cbn; eauto|exact F]).
  destruct (count 0%nat) as [n| | | |]; try (apply Same; [exact I1|discriminate]).
  unfold g_draw. rewrite Hb. cbn [vat nth_error].
  set (N := List.length (sEvs s)) in *. assert (HN : (0 < N)%nat) by (unfold N; destruct (sEvs s); [congruence|cbn; lia]).
  assert (S0 : g_start N sl = rslot N).
  { destruct St as [E| ->]; unfold g_start; [rewrite E|]; unfold rslot; [rewrite w64_id by lia; reflexivity|]. cbn [fst]. destruct N; [lia|reflexivity]. }
  destruct (rep_rounds (gCuts g) s (u 0%nat) HN B (Hu 0%nat) (Z.to_nat n) 0%nat (ds_setNames ds_new (sNames s)) ltac:(constructor)) as [r [E [C _]]]. fold N in E.
  unfold draw_rep. fold N. rewrite S0, E. assert (Ee : exists x l, sEvs s = x :: l) by (destruct (sEvs s); [congruence|eauto]). destruct Ee as [x0 [l0 Ee]]. rewrite Ee.
  assert (St' : rinv s (g_withSlots g [rslot N], outs)) by (split; [exact HS|]; split; [eauto|]; split; [cbn; eauto|exact F]).
  destruct C as [[o [-> Fo]]|[x ->]]; cbn [collect]; [|exact St'].
  split; [exact HS|]. split; [eauto|]. split; [cbn; eauto|]. unfold given. rewrite map_app, concat_app. cbn [map List.concat]. rewrite app_nil_r. apply Forall_app. split; [exact F|exact Fo].
Qed.
Lemma rinv_run s : Z.of_nat (List.length (sEvs s)) <= 2 ^ 31 -> sEvs s <> [] -> forall ops st, Forall op_uniform ops -> rinv s st -> rinv s (fold_left gdo ops st).
Proof.
  intros B Hne. induction ops as [|o ops IH]; intros [g outs] Fu I; cbn [fold_left]; [exact I|]. inversion Fu as [|? ? F1 F2]; subst. apply IH; [exact F2|].
  destruct o as [u|p u| |l|cs]; cbn [gdo op_uniform] in *.
  - apply rinv_generate; assumption.
  - apply rinv_generate; assumption.
  - destruct I as [HS [Hb [_ _]]]. split; [exact HS|]. split; [exact Hb|]. split; [|constructor]. cbn. rewrite HS. eexists. split; [reflexivity|]. left. reflexivity.
  - exact I.
  - exact I.
Qed.
Lemma replacing_pkg g s ops : one_replacing g s -> sized [s] -> sEvs s <> [] -> Forall op_uniform ops ->
  forall x, In x (given (snd (grun g ops))) -> exists e, nth_error (sEvs s) e = Some x /\ (S e < List.length (sEvs s) \/ List.length (sEvs s) = 1)%nat.
Proof.
  intros [HS [[sl [Hsl He]] Hb]] Sz Hne Fu x Hx. inversion Sz as [|? ? B _]; subst.
  pose proof (rinv_run s B Hne ops (g, []) Fu) as I. unfold grun in Hx. destruct (fold_left gdo ops (g, [])) as [g1 outs].
  destruct I as [_ [_ [_ F]]]; [split; [exact HS|]; split; [exact Hb|]; split; [eauto|constructor]|]. rewrite Forall_forall in F. destruct (F x Hx) as [e [H1 H2]]. exists e. split; [exact H2|]. lia.
Qed.
Lemma replaced_last_pkg g s ops : one_replacing g s -> sized [s] -> (2 <= List.length (sEvs s))%nat -> NoDup (sEvs s) -> Forall op_uniform ops ->
  forall x, nth_error (sEvs s) (List.length (sEvs s) - 1) = Some x -> ~ In x (given (snd (grun g ops))).
Proof.
  intros H Sz HN Nd Fu x Hx C. destruct (replacing_pkg g s ops H Sz ltac:(intros E; rewrite E in HN; cbn in HN; lia) Fu x C) as [e [E He]].
  assert (e = List.length (sEvs s) - 1)%nat; [|lia]. rewrite NoDup_nth_error in Nd. apply Nd; [apply nth_error_Some; congruence|congruence].
Qed.
(** exactly as many events as asked, each the one its random number names; every early event has such a number *)
Lemma replacing_draws_pkg g s m u r : one_replacing g s -> sized [s] -> regular m [s] -> sEvs s <> [] -> gCuts g = [] -> gRates g = [r] -> uniform u -> 0 <= qround r < 2 ^ 32 ->
  exists d tk, snd (g_expected g u) = Ok (d, tk) /\
    events_of d = map (fun k => ev s (Z.to_nat (rShoot (Z.of_nat (List.length (sEvs s)) - 1) (u 0%nat k)))) (seq 0 (Z.to_nat (qround r))).
Proof.
  intros [HS [[sl [Hsl He]] [b Hb]]] Sz Rg Hne Hc Hr Hu Hq. inversion Sz as [|? ? B _]; subst. destruct (regular_evs m [s] 0%nat s Rg eq_refl) as [Hm Fm].
  set (N := List.length (sEvs s)) in *. assert (HN : (0 < N)%nat) by (unfold N; destruct (sEvs s); [congruence|cbn; lia]).
  unfold g_expected, g_generate. rewrite Hr, HS. cbn [List.length Nat.eqb negb]. rewrite Hsl. cbn [g_loop vat nth_error bind]. unfold g_round.
  destruct (Z.ltb_spec (qround r) 0); [lia|]. destruct (Z.leb_spec (2 ^ 32) (qround r)); [lia|]. cbn [orb]. unfold g_draw. rewrite Hb. cbn [vat nth_error].
  assert (S0 : g_start N sl = rslot N) by (unfold g_start; rewrite He; unfold rslot; rewrite w64_id by lia; reflexivity).
  destruct (rep_rounds (gCuts g) s (u 0%nat) HN B (Hu 0%nat) (Z.to_nat (qround r)) 0%nat (ds_setNames ds_new (sNames s)) ltac:(constructor)) as [q [E [_ C]]]. fold N in E, C.
  unfold draw_rep. fold N. rewrite S0, E. assert (Ee : exists x l, sEvs s = x :: l) by (destruct (sEvs s); [congruence|eauto]). destruct Ee as [x0 [l0 Ee]]. rewrite Ee.
  destruct (C Hc m Hm Fm ltac:(left; reflexivity)) as [o [-> Ho]]. cbn [snd]. eexists _, _. split; [reflexivity|]. exact Ho.
Qed.
Lemma shoot_half k j : 0 <= j < k -> exists u, (0 <= u)%Qc /\ (u < 1)%Qc /\ rShoot k u = j.
Proof.
  intros H. exists (Q2Qc (Qmake (2 * j + 1) (Z.to_pos (2 * k)))). assert (Hp : Zpos (Z.to_pos (2 * k)) = 2 * k) by (apply Z2Pos.id; lia).
  set (p := Z.to_pos (2 * k)) in *. clearbody p.
  split; [|split].
  - unfold Qcle. cbn [this Q2Qc]. rewrite !Qred_correct. unfold Qle. cbn [Qnum Qden]. lia.
  - unfold Qclt. cbn [this Q2Qc]. rewrite !Qred_correct. unfold Qlt. cbn [Qnum Qden]. lia.
  - unfold rShoot, rUniform. set (u := Q2Qc (Qmake (2 * j + 1) p)). replace (1 * u)%Qc with u by ring. set (q := (qz k * u)%Qc).
    assert (Eq : (this q == Qmake (2 * j + 1) 2)%Q).
    { unfold q, qz, u. unfold Qcmult. cbn [this Q2Qc]. rewrite !Qred_correct. unfold Qeq, Qmult, inject_Z. cbn [Qnum Qden]. nia. }
    unfold qtrunc. unfold Qeq in Eq. cbn [Qnum Qden] in Eq. rewrite Z.quot_div_nonneg by nia.
    symmetry. apply Z.div_unique with (r := Qnum (this q) - Zpos (Qden (this q)) * j); [left; nia|lia].
Qed.
(** without replacement, the first event drawn is never the last one *)
Lemma first_draw_pkg g s m u r : gSets g = [s] -> fresh g -> random_noreplace g -> sized [s] -> regular m [s] -> (2 <= List.length (sEvs s))%nat -> gCuts g = [] -> gRates g = [r] -> uniform u ->
  qround r = 1 -> exists d tk e, snd (g_expected g u) = Ok (d, tk) /\ (S e < List.length (sEvs s))%nat /\ events_of d = [ev s e].
Proof.
  intros HS [Fl Fr] [R1 [R2 [R3 R4]]] Sz Rg HN Hc Hr Hu Hq. inversion Sz as [|? ? B _]; subst. destruct (regular_evs m [s] 0%nat s Rg eq_refl) as [Hm Fm]. rewrite HS in *. cbn [List.length] in *.
  destruct (gSlots g) as [|sl [|? ?]] eqn:Esl; cbn in Fl; try lia. inversion Fr as [|? ? He _]; subst.
  set (N := List.length (sEvs s)) in *.
  unfold g_expected, g_generate. rewrite Hr, HS. cbn [List.length Nat.eqb negb]. rewrite Esl. cbn [g_loop vat nth_error bind]. unfold g_round. rewrite Hq. cbn [Z.ltb Z.leb orb].
  change ((1 <? 0) || (2 ^ 32 <=? 1)) with false. cbv iota. unfold g_draw.
  destruct (flag_at (gBoot g) 0%nat R2 ltac:(lia)) as [V1 V2]. destruct (flag_at (gSeq g) 0%nat R4 ltac:(lia)) as [V3 V4]. rewrite V1, V3. destruct (gBoot g); [congruence|]. destruct (gSeq g); [congruence|].
  unfold draw_norep. fold N. destruct (Z.ltb_spec (Z.of_nat N) 1); [lia|]. change (Z.to_nat 1) with 1%nat. cbn [g_rounds].
  unfold g_start. rewrite He. unfold norep_step. unfold g_max. cbn [fst snd]. rewrite (w64_id (Z.of_nat N - 1)) by lia.
  destruct (Z.eqb_spec (Z.of_nat N - 1) m999) as [C|_]; [rewrite m999_val in C; lia|]. rewrite s32_id by lia.
  destruct (Hu 0%nat 0%nat) as [H0 H1]. destruct (shoot_bounds (Z.of_nat N - 1) (u 0%nat 0%nat) ltac:(lia) H0 H1) as [A [A1|[A1 _]]]; [|lia].
  set (d := Z.to_nat (rShoot (Z.of_nat N - 1) (u 0%nat 0%nat))). rewrite w64_id by lia. replace (rShoot (Z.of_nat N - 1) (u 0%nat 0%nat)) with (Z.of_nat d) by (unfold d; lia).
  replace (Z.of_nat N - 1) with (Z.of_nat (N - 1)) by lia.
  destruct (swap_left (seq 0 N) [] (N - 1) d) as [L1 [e [Sw [HL1 [Hn _]]]]]; [rewrite seq_length; lia|left; unfold d; lia|]. rewrite app_nil_r in Sw. rewrite Sw.
  rewrite zidx_nat. replace (vidx (L1 ++ [e]) (N - 1)) with (Ok e) by (rewrite <- HL1; symmetry; apply vidx_mid). cbn [bind].
  assert (Ee : e = d). { rewrite (nth_error_nth' (seq 0 N) 0%nat) in Hn by (rewrite seq_length; unfold d; lia). rewrite seq_nth in Hn by (unfold d; lia). cbn in Hn. congruence. } subst e.
  assert (dN : (d < List.length (sEvs s))%nat) by (fold N; unfold d; lia).
  destruct (keep_clean s (ds_setNames ds_new (sNames s)) d m dN Hm Fm ltac:(left; reflexivity)) as [o [K _]].
  destruct (keep_cases [] s (ds_setNames ds_new (sNames s)) d dN) as [[o' [K' Ev]]|[x Kx]]; [|congruence]. rewrite K in K'. injection K' as <-. rewrite Hc, K. cbn [snd].
  eexists _, _, d. split; [reflexivity|]. split; [unfold d; lia|]. rewrite Ev, keeps_nil. reflexivity.
Qed.
(** AllValidEvents returns every event, whatever the cuts *)
Lemma addTo_all m : (0 < m)%nat -> forall l out, Forall (fun e => List.length e = m) l -> fits m out -> exists o, foldM g_addTo l out = Ok o /\ events_of o = events_of out ++ l /\ fits m o.
Proof.
  intros Hm. induction l as [|e l IH]; intros out F Fo; cbn [foldM]; [exists out; rewrite app_nil_r; auto|]. inversion F; subst.
  destruct (addTo_fits out e (List.length e) Hm eq_refl Fo) as [o [E [Ev Fo1]]]. rewrite E. cbn [bind]. destruct (IH o) as [o2 [E2 [Ev2 Fo2]]]; [assumption|assumption|]. exists o2. rewrite Ev2, Ev, <- app_assoc. auto.
Qed.
Lemma allValid_pkg g m : gSets g <> [] -> regular m (gSets g) -> exists d tk, g_allValid g = Ok (d, tk) /\ events_of d = stock (gSets g).
Proof.
  intros Hne [Hm F]. unfold g_allValid. destruct (gSets g) as [|s0 rest] eqn:E; [congruence|]. rewrite <- E in *.
  assert (G : forall sets out, Forall (fun e => List.length e = m) (stock sets) -> fits m out -> exists o, foldM (fun o s => foldM g_addTo (sEvs s) o) sets out = Ok o /\ events_of o = events_of out ++ stock sets).
  { induction sets as [|s sets IH]; intros out Fs Fo; cbn [foldM]; [exists out; cbn; rewrite app_nil_r; auto|]. unfold stock in Fs. cbn [map List.concat] in Fs. apply Forall_app in Fs. destruct Fs as [Fa Fb].
    destruct (addTo_all m Hm (sEvs s) out Fa Fo) as [o [E1 [Ev Fo1]]]. rewrite E1. cbn [bind]. destruct (IH o Fb Fo1) as [o2 [E2 Ev2]]. exists o2. split; [exact E2|]. rewrite Ev2, Ev, <- app_assoc. reflexivity. }
  destruct (G (gSets g) (ds_setNames ds_new (sNames s0)) F ltac:(left; reflexivity)) as [o [E1 Ev]]. rewrite E1. cbn [bind]. eexists _, _. split; [reflexivity|exact Ev].
Qed.
