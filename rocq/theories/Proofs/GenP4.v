From Coq Require Import ZArith Permutation Lia.
From Verif Require Import Base.Res Base.Perm Base.Num Base.SMap Model.Axis Model.Event Model.Cut Model.Hist Model.Shrink Model.Data Model.Rand Model.Gen Spec.GenSpec Proofs.GenP Proofs.GenP2 Proofs.GenP3.
From Coq Require Import Lia.
Local Open Scope Z_scope.

Definition seqidx (N t : nat) : list nat :=
  match t with O => seq 0 N | S t' => (N - t)%nat :: seq 1 (N - t - 1) ++ seq (N - t + 1) t' ++ [0%nat] end.
Definition sidx (N t : nat) := seqidx N (Nat.min t (N - 1)).
Definition sslot (N t : nat) : slot := (sidx N t, w64 (Z.of_nat N - 1 - Z.of_nat t)).

Lemma swap_first (a c : nat) B C : g_swap (a :: B ++ c :: C) 0 (Z.of_nat (S (List.length B))) = Ok (c :: B ++ a :: C).
Proof.
  unfold g_swap. rewrite zidx_nat. change (zidx (a :: B ++ c :: C) 0) with (@Ok nat a). cbn [bind].
  change (vidx (a :: B ++ c :: C) (S (List.length B))) with (vidx (B ++ c :: C) (List.length B)). rewrite vidx_mid. cbn [bind].
  unfold zupd. rewrite Nat2Z.id. cbn [Z.to_nat upd]. rewrite upd_mid. reflexivity.
Qed.
Lemma swap_zero (a : nat) B : g_swap (a :: B) 0 0 = Ok (a :: B).
Proof. reflexivity. Qed.
Lemma seq_snoc n : forall a, seq a (S n) = seq a n ++ [(a + n)%nat].
Proof. intros a. rewrite seq_S. reflexivity. Qed.

Lemma seqidx_swap N t : (t < N - 1)%nat -> g_swap (seqidx N t) 0 (Z.of_nat (N - 1 - t)) = Ok (seqidx N (S t)).
Proof.
  intros H. destruct t as [|t].
  - cbn [seqidx]. destruct N as [|[|N]]; try lia. rewrite Nat.sub_0_r. change (seq 0 (S (S N))) with (0%nat :: seq 1 (S N)). rewrite seq_snoc.
    pose proof (swap_first 0%nat (1 + N)%nat (seq 1 N) []) as W. rewrite seq_length in W. replace (S (S N) - 1)%nat with (S N) by lia. rewrite W.
    replace (S N - 1)%nat with N by lia. reflexivity.
  - cbn [seqidx]. replace (N - S t - 1)%nat with (S (N - S (S t) - 1)) by lia. rewrite seq_snoc, <- app_assoc. cbn [app].
    set (B := seq 1 (N - S (S t) - 1)). set (C := seq (N - S t + 1) t ++ [0%nat]).
    pose proof (swap_first (N - S t)%nat (1 + (N - S (S t) - 1))%nat B C) as W.
    replace (S (List.length B)) with (N - 1 - S t)%nat in W by (unfold B; rewrite seq_length; lia). rewrite W. f_equal.
    replace (1 + (N - S (S t) - 1))%nat with (N - S (S t))%nat by lia. f_equal. f_equal. unfold C. cbn [seq app].
    replace (N - S (S t) + 1)%nat with (N - S t)%nat by lia. replace (S (N - S t)) with (N - S t + 1)%nat by lia. reflexivity.
Qed.
Lemma seqidx_head N t : (0 < t)%nat -> exists r, seqidx N t = (N - t)%nat :: r.
Proof. destruct t; [lia|]. cbn. eauto. Qed.
Lemma order_nth N t : (t < N)%nat -> nth_error (seq_order N) t = Some (if Nat.eqb N 1 then 0%nat else Nat.max 1 (N - 1 - t)).
Proof.
  intros H. unfold seq_order. destruct N as [|[|N]]; [lia|destruct t; [reflexivity|lia]|]. cbn [Nat.eqb].
  replace (S (S N) - 1)%nat with (S N) by lia.
  destruct (Nat.eq_dec t (S N)) as [->|Hn].
  - rewrite nth_error_app2 by (rewrite rev_length, seq_length; lia). rewrite rev_length, seq_length, Nat.sub_diag. cbn [nth_error]. f_equal; lia.
  - rewrite nth_error_app1 by (rewrite rev_length, seq_length; lia). rewrite (nth_error_nth' _ 0%nat) by (rewrite rev_length, seq_length; lia). f_equal.
    rewrite rev_nth by (rewrite seq_length; lia). rewrite seq_length, seq_nth by lia. lia.
Qed.
Lemma order_len N : List.length (seq_order N) = N.
Proof. destruct N as [|[|N]]; [reflexivity|reflexivity|]. unfold seq_order. rewrite app_length, rev_length, seq_length. cbn. lia. Qed.
Lemma order_lt N t e : nth_error (seq_order N) t = Some e -> (e < N)%nat.
Proof.
  intros H. assert (t < N)%nat by (rewrite <- (order_len N); apply nth_error_Some; congruence). rewrite order_nth in H by assumption.
  assert (E : (if Nat.eqb N 1 then 0%nat else Nat.max 1 (N - 1 - t)) = e) by congruence. destruct (Nat.eqb_spec N 1); lia.
Qed.

Lemma seq_one s t m out : let N := List.length (sEvs s) in Z.of_nat N <= 2 ^ 31 -> (t < N)%nat -> (0 < m)%nat -> Forall (fun x => List.length x = m) (sEvs s) -> fits m out ->
  exists e o, nth_error (seq_order N) t = Some e /\ seq_step [] s (sslot N t) out = (sslot N (S t), Ok o) /\ events_of o = events_of out ++ [ev s e] /\ fits m o.
Proof.
  intros N B H Hm Fm F. unfold N in *. set (n := List.length (sEvs s)) in *. exists (if Nat.eqb n 1 then 0%nat else Nat.max 1 (n - 1 - t)).
  assert (He : ((if Nat.eqb n 1 then 0 else Nat.max 1 (n - 1 - t)) < n)%nat) by (destruct (Nat.eqb_spec n 1); lia).
  destruct (keep_clean s out _ m He Hm Fm F) as [o [Ek Fo]]. exists o. split; [apply order_nth; exact H|].
  destruct (keep_cases [] s out _ He) as [[o' [Ek' Ev]]|[x Ex]]; [|rewrite Ex in Ek; discriminate]. rewrite Ek in Ek'. injection Ek' as <-. rewrite keeps_nil in Ev.
  split; [|split; assumption].
  unfold seq_step, sslot. cbn [fst snd]. set (e := if Nat.eqb n 1 then 0%nat else Nat.max 1 (n - 1 - t)) in *.
  assert (Hw : w64 (Z.of_nat n - 1 - Z.of_nat t) = Z.of_nat (n - 1 - t)) by (rewrite w64_id; lia). rewrite Hw. unfold g_max. cbn [fst snd].
  destruct (Z.eqb_spec (Z.of_nat (n - 1 - t)) m999) as [C|_]; [rewrite m999_val in C; lia|].
  assert (Hn : w64 (Z.of_nat (n - 1 - t) - 1) = w64 (Z.of_nat n - 1 - Z.of_nat (S t))) by (f_equal; lia).
  assert (Sw : exists r, g_swap (sidx n t) 0 (Z.of_nat (n - 1 - t)) = Ok (sidx n (S t)) /\ sidx n (S t) = e :: r).
  { unfold sidx. destruct (Nat.lt_ge_cases t (n - 1)) as [L|L].
    - replace (Nat.min t (n - 1)) with t by lia. replace (Nat.min (S t) (n - 1)) with (S t) by lia. rewrite seqidx_swap by exact L.
      destruct (seqidx_head n (S t) ltac:(lia)) as [r Er]. exists r. split; [reflexivity|]. rewrite Er. f_equal. unfold e. destruct (Nat.eqb_spec n 1); lia.
    - assert (t = n - 1)%nat by lia. replace (Nat.min t (n - 1)) with (n - 1)%nat by lia. replace (Nat.min (S t) (n - 1)) with (n - 1)%nat by lia.
      replace (n - 1 - t)%nat with 0%nat by lia. unfold e. destruct (Nat.eqb_spec n 1) as [->|Hx].
      + exists []. split; reflexivity.
      + destruct (seqidx_head n (n - 1) ltac:(lia)) as [r Er]. rewrite Er. exists r. split; [apply swap_zero|]. f_equal. lia. }
  destruct Sw as [r [Sw Sh]]. rewrite Sw. replace (zidx (sidx n (S t)) 0) with (Ok e) by (rewrite Sh; reflexivity). cbn [bind]. rewrite Ek, Hn. reflexivity.
Qed.
Lemma firstn_app_range {A} (l : list A) a b : firstn (a + b) l = firstn a l ++ firstn b (skipn a l).
Proof. revert l. induction a as [|a IH]; intros [|x l]; cbn; [destruct b; reflexivity| |rewrite firstn_nil; reflexivity|rewrite IH]; reflexivity. Qed.
Lemma seq_rounds s m : let N := List.length (sEvs s) in Z.of_nat N <= 2 ^ 31 -> (0 < m)%nat -> Forall (fun x => List.length x = m) (sEvs s) ->
  forall n j t out, (t + n <= N)%nat -> fits m out -> exists o, g_rounds (fun _ => seq_step [] s) n j (sslot N t) out = (sslot N (t + n), Ok o) /\
    events_of o = events_of out ++ pick s (firstn n (skipn t (seq_order N))) /\ fits m o.
Proof.
  intros N B Hm Fm. induction n as [|n IH]; intros j t out H F; cbn [g_rounds].
  - exists out. rewrite Nat.add_0_r. cbn. rewrite app_nil_r. auto.
  - destruct (seq_one s t m out B ltac:(lia) Hm Fm F) as [e [o [E1 [E2 [E3 E4]]]]]. fold N in E1, E2. rewrite E2.
    destruct (IH (S j) (S t) o ltac:(lia) E4) as [o2 [G1 [G2 G3]]]. exists o2. replace (t + S n)%nat with (S t + n)%nat by lia.
    split; [exact G1|]. split; [|exact G3]. rewrite G2, E3, <- app_assoc. f_equal.
    assert (Sk : skipn t (seq_order N) = e :: skipn (S t) (seq_order N)).
    { clear -E1. revert t E1. generalize (seq_order N) as l. induction l as [|x l IH]; intros [|t] E; cbn in *; try discriminate; [congruence|]. apply IH. exact E. }
    rewrite Sk. reflexivity.
Qed.
Lemma draw_seq_ok s m t n sl out : let N := List.length (sEvs s) in Z.of_nat N <= 2 ^ 31 -> (0 < m)%nat -> Forall (fun x => List.length x = m) (sEvs s) ->
  (0 < N)%nat -> (fst sl = [] /\ t = 0%nat \/ sl = sslot N t) -> 0 <= n -> Z.of_nat t + n <= Z.of_nat N -> fits m out ->
  exists o, draw_seq [] s n sl out = (sslot N (t + Z.to_nat n), Ok o) /\ events_of o = events_of out ++ pick s (firstn (Z.to_nat n) (skipn t (seq_order N))).
Proof.
  intros N B Hm Fm HN St Hn Hle F. unfold draw_seq. fold N. destruct (Z.ltb_spec (Z.of_nat N) n); [lia|]. assert (Ee : exists x0 l0, sEvs s = x0 :: l0) by (unfold N in HN; destruct (sEvs s); [cbn in HN; lia|eauto]).
  destruct Ee as [x0 [l0 Ee]].
  assert (S0 : g_start N sl = sslot N t).
  { destruct St as [[E ->]| ->]; unfold g_start.
    - rewrite E. unfold sslot, sidx. cbn. rewrite Z.sub_0_r. reflexivity.
    - cbn [fst sslot]. destruct (sidx N t) eqn:Ei; [|reflexivity]. exfalso. unfold sidx, seqidx in Ei. destruct (Nat.min t (N - 1)); [destruct N; [lia|discriminate]|discriminate]. }
  rewrite S0. destruct (seq_rounds s m B Hm Fm (Z.to_nat n) 0%nat t out) as [o [G1 [G2 _]]]; [fold N; lia|exact F|]. exists o. fold N in G1, G2. rewrite Ee at 1. split; [exact G1|exact G2].
Qed.

(** histories *)
Definition sinv (s : src) (t : Z) (st : gen * list dset) : Prop :=
  let (g, outs) := st in let N := List.length (sEvs s) in
  gSets g = [s] /\ (exists b, gBoot g = false :: b) /\ (exists b, gSeq g = true :: b) /\ gCuts g = [] /\ List.length (gRates g) = 1%nat /\ 0 <= t <= Z.of_nat N /\
  (exists sl, gSlots g = [sl] /\ (fst sl = [] /\ t = 0 \/ sl = sslot N (Z.to_nat t))) /\
  given outs = pick s (firstn (Z.to_nat t) (seq_order N)).
Lemma sinv_generate s m t g outs count u n : sinv s t (g, outs) -> Z.of_nat (List.length (sEvs s)) <= 2 ^ 31 -> (0 < m)%nat -> Forall (fun x => List.length x = m) (sEvs s) ->
  (0 < List.length (sEvs s))%nat -> count 0%nat = Ok n -> 0 <= n -> t + n <= Z.of_nat (List.length (sEvs s)) ->
  sinv s (t + n) (collect outs (g_generate g count u)) /\ gRates (fst (collect outs (g_generate g count u))) = gRates g /\ (exists p, snd (g_generate g count u) = Ok p).
Proof.
  intros [HS [[b1 Hb1] [[b2 Hb2] [Hc [Hr [Ht [[sl [Hsl St]] Hg]]]]]]] B Hm Fm HN Hn H0 Hle. unfold g_generate. rewrite HS, Hr. cbn [List.length Nat.eqb negb].
  rewrite Hsl. cbn [g_loop]. rewrite Hn. unfold g_draw. rewrite Hb1, Hb2. cbn [vat nth_error]. rewrite Hc.
  destruct (draw_seq_ok s m (Z.to_nat t) n sl (ds_setNames ds_new (sNames s)) B Hm Fm HN) as [o [E1 E2]].
  { destruct St as [[E ->]|E]; [left; auto|right; exact E]. }
  { exact H0. } { lia. } { left. reflexivity. }
  rewrite E1. cbn [collect fst snd]. split; [|split; [reflexivity|eauto]].
  unfold sinv. cbn [gSets gBoot gSeq gCuts gRates gSlots g_withSlots]. split; [exact HS|]. split; [eauto|]. split; [eauto|]. split; [exact Hc|]. split; [exact Hr|].
  split; [lia|]. split; [eexists; split; [reflexivity|right; f_equal; lia]|].
  unfold given. rewrite map_app, concat_app. fold (given outs). rewrite Hg. cbn [map List.concat]. rewrite app_nil_r, E2. cbn [events_of ds_setNames ds_new].
  rewrite Z2Nat.inj_add by lia. rewrite firstn_app_range. unfold pick. rewrite map_app. reflexivity.
Qed.
Lemma sinv_ext s t t' st : t = t' -> sinv s t st -> sinv s t' st. Proof. intros ->; auto. Qed.
Lemma sinv_run s m : Z.of_nat (List.length (sEvs s)) <= 2 ^ 31 -> (0 < m)%nat -> Forall (fun x => List.length x = m) (sEvs s) -> (0 < List.length (sEvs s))%nat ->
  forall ops g outs t, sinv s t (g, outs) -> Forall (op_clean [s]) ops -> enough [s] (gRates g) (fun _ => t) ops ->
  sinv s (snd (fold_left (tstep 0%nat) ops (gRates g, t))) (fold_left gdo ops (g, outs)).
Proof.
  intros B Hm Fm HN. induction ops as [|o ops IH]; intros g outs t I Fo En; cbn [fold_left]; [exact I|].
  inversion Fo as [|? ? F1 F2]; subst. destruct En as [E1 E2]. destruct (E1 0%nat s eq_refl) as [A1 A2].
  assert (Step : sinv s (tot_after (gRates g) (fun _ => t) o 0%nat) (gdo (g, outs) o) /\ gRates (fst (gdo (g, outs) o)) = rates_after (gRates g) o).
  { pose proof I as I0. destruct I0 as [HS [[b1 Hb1] [[b2 Hb2] [Hc [Hr [Ht [[sl [Hsl St]] Hg]]]]]]]. destruct o as [u|p u| |l|cs]; cbn [gdo].
    - assert (Hn : bind (vat (gRates g) 0%nat) (fun r => g_round r) = Ok (ask (gRates g) (GExp u) 0)).
      { apply (exp_count [s] (gRates g) (fun _ => t) 0%nat s u); [repeat constructor; exact B|reflexivity|exact Hr|split; [exact A1|exact A2]|lia]. }
      destruct (sinv_generate s m t g outs (fun i => bind (vat (gRates g) i) (fun r => g_round r)) u _ I B Hm Fm HN Hn A1 A2) as [Q1 [Q2 _]].
      split; [exact Q1|exact Q2].
    - assert (Hn : bind (vat (gRates g) 0%nat) (fun _ => Ok (Z.of_nat (p 0%nat))) = Ok (ask (gRates g) (GPois p u) 0)).
      { unfold vat. destruct (gRates g); [discriminate Hr|reflexivity]. }
      destruct (sinv_generate s m t g outs (fun i => bind (vat (gRates g) i) (fun _ => Ok (Z.of_nat (p i)))) u _ I B Hm Fm HN Hn A1 A2) as [Q1 [Q2 _]].
      split; [exact Q1|exact Q2].
    - split; [|reflexivity]. cbn [tot_after]. unfold sinv. cbn [g_reset gSets gBoot gSeq gCuts gRates gSlots]. split; [exact HS|]. split; [eauto|]. split; [eauto|]. split; [exact Hc|]. split; [exact Hr|].
      split; [lia|]. split; [|reflexivity]. rewrite HS. eexists. split; [reflexivity|]. left. auto.
    - split; [|reflexivity]. cbn [tot_after ask]. rewrite Z.add_0_r. unfold sinv. cbn [g_setRates gSets gBoot gSeq gCuts gRates gSlots]. split; [exact HS|]. split; [eauto|]. split; [eauto|]. split; [exact Hc|]. split; [exact F1|].
      split; [lia|]. split; [eauto|exact Hg].
    - split; [|reflexivity]. cbn [tot_after ask]. rewrite Z.add_0_r. unfold sinv. cbn [g_setCuts gSets gBoot gSeq gCuts gRates gSlots]. split; [exact HS|]. split; [eauto|]. split; [eauto|]. split; [exact F1|]. split; [exact Hr|].
      split; [lia|]. split; [eauto|exact Hg]. }
  destruct Step as [St1 St2]. destruct (gdo (g, outs) o) as [g1 outs1] eqn:Eg. cbn [fst] in St2.
  assert (TS : tstep 0%nat (gRates g, t) o = (gRates g1, tot_after (gRates g) (fun _ => t) o 0%nat)) by (rewrite St2; destruct o; reflexivity).
  rewrite TS. apply IH; [exact St1|exact F2|]. rewrite St2.
  assert (Ext : forall ops rates f h, (f 0%nat = h 0%nat) -> enough [s] rates f ops -> enough [s] rates h ops).
  { clear. induction ops as [|o ops IH]; intros rates f h E H; cbn in *; [exact I|]. destruct H as [H1 H2]. split.
    - intros [|i] s0 Hs; [|destruct i; discriminate]. destruct (H1 0%nat s0 Hs). split; [assumption|]. destruct o; rewrite <- ?E; assumption.
    - eapply IH; [|exact H2]. destruct o; rewrite ?E; reflexivity. }
  eapply Ext; [|exact E2]. reflexivity.
Qed.
Lemma sequential_pkg g s ops m : one_sequential g s -> sized [s] -> regular m [s] -> sEvs s <> [] -> nocuts g ops -> rated g ops ->
  enough [s] (gRates g) (fun _ => 0) ops -> given (snd (grun g ops)) = pick s (firstn (Z.to_nat (total (gRates g) ops 0)) (seq_order (List.length (sEvs s)))).
Proof.
  intros [HS [[sl [Hsl He]] [Hb Hq]]] Sz Rg Hne [C1 C2] [R1 R2] En. destruct (regular_evs m [s] 0%nat s Rg eq_refl) as [Hm Fm]. inversion Sz as [|? ? B _]; subst. rewrite HS in R1, R2.
  assert (I0 : sinv s 0 (g, [])).
  { unfold sinv. split; [exact HS|]. split; [exact Hb|]. split; [exact Hq|]. split; [exact C1|]. split; [exact R1|]. split; [lia|]. split; [eauto|]. reflexivity. }
  assert (Fo : Forall (op_clean [s]) ops).
  { apply Forall_forall. intros o Ho. rewrite Forall_forall in C2, R2. specialize (C2 o Ho). specialize (R2 o Ho). destruct o; cbn; auto. }
  pose proof (sinv_run s m B Hm Fm ltac:(destruct (sEvs s); [congruence|cbn; lia]) ops g [] 0 I0 Fo En) as I.
  unfold grun. destruct (fold_left gdo ops (g, [])) as [g1 outs]. destruct I as [_ [_ [_ [_ [_ [_ [_ Hg]]]]]]]. exact Hg.
Qed.
(** what AllRemainingEvents returns after sequential draws *)
Lemma seq_remaining_pkg g s ops m : one_sequential g s -> sized [s] -> regular m [s] -> nocuts g ops -> rated g ops ->
  enough [s] (gRates g) (fun _ => 0) ops -> let N := List.length (sEvs s) in let t := Z.to_nat (total (gRates g) ops 0) in (0 < t < N)%nat ->
  exists d, fst (g_remaining (fst (grun g ops)) 0%nat) = Ok d /\ events_of d = pick s ((N - t)%nat :: seq 1 (N - t - 1)).
Proof.
  intros [HS [[sl [Hsl He]] [Hb Hq]]] Sz Rg [C1 C2] [R1 R2] En N t Ht. destruct (regular_evs m [s] 0%nat s Rg eq_refl) as [Hm Fm]. inversion Sz as [|? ? B _]; subst. rewrite HS in R1, R2.
  assert (I0 : sinv s 0 (g, [])).
  { unfold sinv. split; [exact HS|]. split; [exact Hb|]. split; [exact Hq|]. split; [exact C1|]. split; [exact R1|]. split; [lia|]. split; [eauto|]. reflexivity. }
  assert (Fo : Forall (op_clean [s]) ops).
  { apply Forall_forall. intros o Ho. rewrite Forall_forall in C2, R2. specialize (C2 o Ho). specialize (R2 o Ho). destruct o; cbn; auto. }
  pose proof (sinv_run s m B Hm Fm ltac:(unfold N in Ht; lia) ops g [] 0 I0 Fo En) as I.
  unfold grun. unfold total in t. fold (tstep 0%nat) in t. destruct (fold_left gdo ops (g, [])) as [g1 outs]. cbn [fst].
  set (k := snd (fold_left (tstep 0) ops (gRates g, 0))) in *. assert (t = Z.to_nat k) by reflexivity. clearbody k t.
  destruct I as [HS1 [_ [_ [_ [_ [Hk [[sl1 [Hsl1 St]] _]]]]]]]. fold N in Hk, St. destruct St as [[_ E]|E]; [lia|]. subst sl1.
  unfold g_remaining. rewrite HS1, Hsl1. cbn [vat nth_error sslot]. fold N. rewrite <- H.
  assert (Hn : w64 (Z.of_nat N - 1 - Z.of_nat t) = Z.of_nat (N - t) - 1) by (rewrite w64_id; lia). rewrite Hn.
  destruct (Z.eqb_spec (Z.of_nat (N - t) - 1) m999) as [C|_]; [rewrite m999_val in C; lia|].
  destruct (Z.eqb_spec (Z.of_nat (N - t) - 1) (w64 (-1))) as [C|_]; [rewrite w64_m1 in C; lia|].
  unfold sidx. replace (Nat.min t (N - 1)) with t by lia. destruct t as [|t]; [lia|]. cbn [seqidx].
  destruct (rem_loop_ok s m Hm Fm ((N - S t)%nat :: seq 1 (N - S t - 1)) (seq (N - S t + 1) t ++ [0%nat]) 0 (ds_setNames ds_new (sNames s))) as [o [E Ev]].
  { apply Forall_forall. intros x [<-|Hx]; [fold N; lia|]. apply in_seq in Hx. fold N. lia. }
  { left. reflexivity. }
  cbn [List.length app] in E. rewrite seq_length in E. replace (0 + Z.of_nat (S (N - S t - 1)) - 1) with (Z.of_nat (N - S t) - 1) in E by lia.
  rewrite E. exists o. split; [reflexivity|]. rewrite Ev. reflexivity.
Qed.
