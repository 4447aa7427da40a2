From Coq Require Import ZArith Permutation Lia.
From Verif Require Import Base.Res Base.Perm Base.Num Base.SMap Model.Axis Model.Event Model.Cut Model.Hist Model.Shrink Model.Data Model.Rand Model.Gen Spec.GenSpec Proofs.GenP Proofs.GenP2 Proofs.GenP3 Proofs.GenP4 Proofs.GenP5.
From Coq Require Import Lia.
Local Open Scope Z_scope.

Lemma NoDup_pick s l : NoDup (sEvs s) -> NoDup l -> Forall (fun e => (e < List.length (sEvs s))%nat) l -> NoDup (pick s l).
Proof.
  intros Nd. induction l as [|e l IH]; intros N F; cbn; [constructor|]. inversion N; subst. inversion F; subst. constructor; [|auto].
  intros C. apply in_map_iff in C. destruct C as [e' [E He']]. rewrite Forall_forall in H4. specialize (H4 e' He').
  assert (e' = e); [|congruence]. eapply (proj1 (NoDup_nth (sEvs s) [])); eauto.
Qed.
Lemma tot_range g s ops m : one_sequential g s -> sized [s] -> regular m [s] -> sEvs s <> [] -> nocuts g ops -> rated g ops -> enough [s] (gRates g) (fun _ => 0) ops ->
  0 <= total (gRates g) ops 0 <= Z.of_nat (List.length (sEvs s)).
Proof.
  intros [HS [[sl [Hsl He]] [Hb Hq]]] Sz Rg Hne [C1 C2] [R1 R2] En. destruct (regular_evs m [s] 0%nat s Rg eq_refl) as [Hm Fm]. inversion Sz as [|? ? B _]; subst. rewrite HS in R1, R2.
  assert (I0 : sinv s 0 (g, [])).
  { unfold sinv. split; [exact HS|]. split; [exact Hb|]. split; [exact Hq|]. split; [exact C1|]. split; [exact R1|]. split; [lia|]. split; [eauto|]. reflexivity. }
  assert (Fo : Forall (op_clean [s]) ops).
  { apply Forall_forall. intros o Ho. rewrite Forall_forall in C2, R2. specialize (C2 o Ho). specialize (R2 o Ho). destruct o; cbn; auto. }
  pose proof (sinv_run s m B Hm Fm ltac:(destruct (sEvs s); [congruence|cbn; lia]) ops g [] 0 I0 Fo En) as I.
  destruct (fold_left gdo ops (g, [])) as [g1 outs]. destruct I as [_ [_ [_ [_ [_ [H _]]]]]]. exact H.
Qed.
Lemma order_Forall N k : Forall (fun e => (e < N)%nat) (firstn k (seq_order N)).
Proof.
  apply Forall_forall. intros e H. assert (H1 : In e (seq_order N)).
  { rewrite <- (firstn_skipn k). apply in_or_app. auto. }
  apply In_nth_error in H1. destruct H1 as [t H1]. eapply order_lt; eauto.
Qed.
Lemma order_prefix N k : (k < N)%nat -> NoDup (firstn k (seq_order N)).
Proof.
  intros H. destruct N as [|[|N]]; [lia|destruct k; [constructor|lia]|]. unfold seq_order. rewrite firstn_app, rev_length, seq_length.
  replace (k - (S (S N) - 1))%nat with 0%nat by lia. cbn [firstn]. rewrite app_nil_r.
  apply (NoDup_app_l _ (skipn k (rev (seq 1 (S (S N) - 1))))). rewrite firstn_skipn. apply NoDup_rev, seq_NoDup.
Qed.
Lemma seq_distinct_pkg g s ops m : one_sequential g s -> sized [s] -> regular m [s] -> NoDup (sEvs s) -> nocuts g ops -> rated g ops ->
  enough [s] (gRates g) (fun _ => 0) ops -> total (gRates g) ops 0 < Z.of_nat (List.length (sEvs s)) ->
  NoDup (given (snd (grun g ops))) /\ Z.of_nat (List.length (given (snd (grun g ops)))) = total (gRates g) ops 0.
Proof.
  intros H Sz Rg Nd Nc Ra En Ht.
  assert (Hne : sEvs s <> []).
  { intros E. rewrite E in Ht. cbn in Ht. clear -Ht En. assert (Q : forall ops rates tot, (0 <= tot 0%nat) -> enough [s] rates tot ops -> 0 <= snd (fold_left (tstep 0%nat) ops (rates, tot 0%nat))).
    { clear. induction ops as [|o ops IH]; intros rates tot H0 E; cbn [fold_left]; [exact H0|]. destruct E as [E1 E2]. destruct (E1 0%nat s eq_refl) as [A _].
      destruct o; (eapply (IH _ _) in E2; [exact E2|cbn; cbn in A; lia]). }
    specialize (Q ops (gRates g) (fun _ => 0) ltac:(lia) En). unfold total in Ht. fold (tstep 0%nat) in Ht. lia. }
  pose proof (tot_range g s ops m H Sz Rg Hne Nc Ra En) as Hr. rewrite (sequential_pkg g s ops m H Sz Rg Hne Nc Ra En). split.
  - apply NoDup_pick; [exact Nd|apply order_prefix; lia|apply order_Forall].
  - unfold pick. rewrite map_length, firstn_length, order_len. lia.
Qed.
Lemma seq_whole_pkg g s ops m : one_sequential g s -> sized [s] -> regular m [s] -> NoDup (sEvs s) -> (2 <= List.length (sEvs s))%nat -> nocuts g ops -> rated g ops ->
  enough [s] (gRates g) (fun _ => 0) ops -> total (gRates g) ops 0 = Z.of_nat (List.length (sEvs s)) ->
  ~ NoDup (given (snd (grun g ops))) /\ forall x, nth_error (sEvs s) 0 = Some x -> ~ In x (given (snd (grun g ops))).
Proof.
  intros H Sz Rg Nd H2 Nc Ra En Ht. assert (Hne : sEvs s <> []) by (intros E; rewrite E in H2; cbn in H2; lia).
  rewrite (sequential_pkg g s ops m H Sz Rg Hne Nc Ra En), Ht, Nat2Z.id. set (N := List.length (sEvs s)) in *.
  rewrite firstn_all2 by (rewrite order_len; lia). split.
  - clearbody N. destruct N as [|[|N]]; try lia. unfold seq_order. replace (S (S N) - 1)%nat with (S N) by lia. cbn [seq rev]. unfold pick. rewrite !map_app, <- app_assoc. cbn [map app].
    intros C. apply NoDup_remove_2 in C. apply C. apply in_or_app. right. left. reflexivity.
  - intros x Hx C. unfold pick in C. apply in_map_iff in C. destruct C as [e [E He]].
    assert (HeN : (e < N)%nat).
    { apply In_nth_error in He. destruct He as [t He]. eapply order_lt; eauto. }
    assert (e = 0)%nat.
    { rewrite NoDup_nth_error in Nd. apply Nd; [fold N; lia|]. rewrite Hx. rewrite <- E. apply nth_error_nth'. exact HeN. }
    subst e. clearbody N. destruct N as [|[|N]]; try lia. unfold seq_order in He. apply in_app_or in He. destruct He as [He|[He|[]]]; [|discriminate].
    apply in_rev in He. apply in_seq in He. lia.
Qed.
Lemma before_pkg g s sl m : gSets g = [s] -> gSlots g = [sl] -> fst sl = [] -> snd sl = 0 \/ snd sl = m999 -> sEvs s <> [] -> sized [s] -> regular m [s] ->
  fst (g_remaining g 0) = Throw std_out_of_range.
Proof.
  intros HS Hsl He Hm Hne Sz Rg. inversion Sz as [|? ? B _]; subst. assert (HN : (0 < List.length (sEvs s))%nat) by (destruct (sEvs s); [congruence|cbn; lia]).
  unfold g_remaining. rewrite HS, Hsl. cbn [vat nth_error]. destruct sl as [idx mx]. cbn [fst snd] in *. subst idx.
  assert (Hv : exists v, (if mx =? m999 then w64 (Z.of_nat (List.length (sEvs s)) - 1) else mx) = v /\ 0 <= v < 2 ^ 31).
  { eexists. split; [reflexivity|]. destruct Hm as [-> | ->]; [cbn; lia|]. rewrite Z.eqb_refl, w64_id by lia. lia. }
  destruct Hv as [v [-> Hv]]. destruct (Z.eqb_spec v (w64 (-1))) as [C|_]; [rewrite w64_m1 in C; lia|]. cbn [rem_loop]. destruct (Z.ltb_spec v 0); [lia|]. reflexivity.
Qed.
