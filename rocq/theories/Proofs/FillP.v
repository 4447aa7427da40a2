From Coq Require Import ZArith.
From Verif Require Import Base.Res Base.Num Base.SMap Model.Axis Model.Event Model.Hist Model.Cut Model.ED Model.Shrink Model.Fill
  Spec.AxisSpec Spec.HistSpec Spec.CutSpec Spec.FillSpec Proofs.AxisP Proofs.HistP Proofs.CutP.
Local Open Scope Qc_scope.
Local Open Scope res_scope.

Definition alike (a b : event) : Prop := evNames a = evNames b /\ forall n v, has_value a n v <-> has_value b n v.
Lemma alike_refl a : alike a a. Proof. split; [reflexivity|intros; tauto]. Qed.
Lemma alike_sym a b : alike a b -> alike b a.
Proof. intros [A B]. split; [now symmetry|]. intros. symmetry. apply B. Qed.
Lemma alike_trans a b c : alike a b -> alike b c -> alike a c.
Proof. intros [A B] [C D]. split; [congruence|]. intros. rewrite B. apply D. Qed.

Lemma value_fun e n v w : has_value e n v -> has_value e n w -> v = w.
Proof. intros A B. apply getDatum_value in A, B. congruence. Qed.

Lemma set_value e n v w : has_value e n v -> exists e', setDatum e n w = Ok e' /\ has_value e' n w /\ evNames e' = evNames e /\
  (forall m x, m <> n -> (has_value e' m x <-> has_value e m x)).
Proof.
  intros H. pose proof (getDatum_value e n v H) as G. destruct H as [ns [i [En [Hn [Hv Hj]]]]].
  unfold getDatum in G. unfold setDatum. rewrite En in *.
  destruct (index_of n ns) as [k|] eqn:Ek; [|discriminate].
  assert (k = i) as ->.
  { pose proof (index_of_spec n ns) as Hk. rewrite Ek in Hk.
    destruct Hk as [A B]. destruct (Nat.lt_trichotomy k i) as [C|[C|C]]; [exfalso; apply (Hj k C A)|exact C|exfalso; apply (B i C Hn)]. }
  assert (Hi : (i < List.length (evObs e))%nat) by (apply nth_error_Some; congruence).
  unfold setDatumIdx. destruct (Nat.ltb_spec i (List.length (evObs e))); [|lia].
  eexists. split; [reflexivity|]. split; [|split; [cbn; congruence|]].
  - exists ns, i. cbn. split; [exact En|]. split; [exact Hn|]. split; [|exact Hj].
    rewrite nth_error_upd by exact Hi. rewrite Nat.eqb_refl. reflexivity.
  - intros m x Hm. split; intros [ns' [j [E1 [E2 [E3 E4]]]]]; exists ns', j; cbn in *; (split; [congruence|]); (split; [exact E2|]); (split; [|exact E4]).
    + rewrite nth_error_upd in E3 by exact Hi. destruct (Nat.eqb_spec j i) as [->|]; [|exact E3].
      exfalso. apply Hm. congruence.
    + rewrite nth_error_upd by exact Hi. destruct (Nat.eqb_spec j i) as [->|]; [|exact E3].
      exfalso. apply Hm. congruence.
Qed.

Lemma apply_effect s e w : new_value s e w -> exists e', es_apply s e = Ok e' /\ effect s e e'.
Proof.
  intros H. pose proof H as [n [v [Hw [Hv Hk]]]]. destruct (set_value e n v w Hv) as [e' [E [V' [N' O']]]].
  exists e'. split; [|exists n, w; auto]. unfold writes in Hw. apply getDatum_value in Hv. unfold es_apply, vat.
  destruct (esKind s).
  - rewrite Hw. cbn [bind]. rewrite Hv. cbn [bind]. now rewrite <- Hk.
  - rewrite Hw. cbn [bind]. rewrite Hv. cbn [bind]. now rewrite <- Hk.
  - destruct Hk as [m [t [Hm [Ht ->]]]]. apply getDatum_value in Ht. rewrite Hm. cbn [bind]. rewrite Hw. cbn [bind]. rewrite Ht. cbn [bind].
    rewrite Hv. exact E.
Qed.
Lemma vat_ok {A} (l : list A) i x : vat l i = Ok x -> nth_error l i = Some x.
Proof. unfold vat. destruct (nth_error l i); [|discriminate]. intros E. injection E as ->. reflexivity. Qed.
Lemma apply_new s e e' : es_apply s e = Ok e' -> exists w, new_value s e w.
Proof.
  unfold es_apply, new_value, writes. destruct (esKind s).
  - destruct (vat (osNames (esOut s)) 0) as [n| | | |] eqn:E; try discriminate. cbn [bind]. destruct (getDatum e n) as [v| | | |] eqn:Ev; try discriminate. intros _.
    apply vat_ok in E. apply getDatum_ok in Ev. eauto 8.
  - destruct (vat (osNames (esOut s)) 0) as [n| | | |] eqn:E; try discriminate. cbn [bind]. destruct (getDatum e n) as [v| | | |] eqn:Ev; try discriminate. intros _.
    apply vat_ok in E. apply getDatum_ok in Ev. eauto 8.
  - destruct (vat (osNames (esIn s)) 0) as [m| | | |] eqn:Em; try discriminate. cbn [bind].
    destruct (vat (osNames (esOut s)) 0) as [n| | | |] eqn:E; try discriminate. cbn [bind]. destruct (getDatum e m) as [t| | | |] eqn:Et; try discriminate. cbn [bind].
    destruct (getDatum e n) as [v| | | |] eqn:Ev; try discriminate. intros _.
    apply vat_ok in E, Em. apply getDatum_ok in Ev, Et. exists (t + esVal s * (v - t)), n, v. eauto 8.
Qed.
Lemma new_value_alike s a b w : alike a b -> new_value s a w -> new_value s b w.
Proof.
  intros [_ B] [n [v [Hw [Hv Hk]]]]. exists n, v. split; [exact Hw|]. split; [now apply B|].
  destruct (esKind s); auto. destruct Hk as [m [t [Hm [Ht E]]]]. exists m, t. split; [exact Hm|]. split; [now apply B|exact E].
Qed.
Lemma new_value_fun s e w w' : new_value s e w -> new_value s e w' -> w = w'.
Proof.
  intros [n [v [Hw [Hv Hk]]]] [n' [v' [Hw' [Hv' Hk']]]]. unfold writes in *. assert (n' = n) by congruence. subst n'.
  assert (v' = v) by (eapply value_fun; eassumption). subst v'.
  destruct (esKind s); [congruence|congruence|]. destruct Hk as [m [t [Hm [Ht ->]]]], Hk' as [m' [t' [Hm' [Ht' ->]]]].
  assert (m' = m) by congruence. subst m'. assert (t' = t) by (eapply value_fun; eassumption). congruence.
Qed.
Lemma effect_alike s a a' b b' : alike a a' -> effect s a b -> effect s a' b' -> alike b b'.
Proof.
  intros A [n [w [Hw [Hv [H1 [H2 H3]]]]]] [n' [w' [Hw' [Hv' [H1' [H2' H3']]]]]]. unfold writes in *. assert (n' = n) by congruence. subst n'.
  assert (w' = w) by (eapply new_value_fun; [exact Hv'|eapply new_value_alike; eassumption]). subst w'.
  destruct A as [A B]. split; [congruence|]. intros m v. destruct (string_dec m n) as [->|Hne].
  - split; intros H.
    + assert (v = w) by (eapply value_fun; eassumption). now subst.
    + assert (v = w) by (eapply value_fun; eassumption). now subst.
  - rewrite H3 by exact Hne. rewrite H3' by exact Hne. apply B.
Qed.
Lemma in_order_apply ss : forall e a e', alike e a -> in_order ss a e' -> exists e2, esm_apply ss e = Ok e2 /\ alike e2 e'.
Proof.
  unfold esm_apply. induction ss as [|s ss IH]; intros e a e' A H; inversion H as [|? ? ? e1 ? He Hr]; subst; cbn [foldM].
  - exists e. auto.
  - pose proof He as [n [w [_ [Hv _]]]]. destruct (apply_effect s e w) as [f [Ef Eff]]; [eapply new_value_alike; [apply alike_sym; exact A|exact Hv]|].
    rewrite Ef. cbn [bind]. apply (IH f e1 e'); [|exact Hr]. eapply effect_alike; eassumption.
Qed.
Lemma apply_in_order ss : forall e e', esm_apply ss e = Ok e' -> in_order ss e e'.
Proof.
  unfold esm_apply. induction ss as [|s ss IH]; intros e e'; cbn [foldM].
  - intros E. injection E as <-. constructor.
  - destruct (es_apply s e) as [f| | | |] eqn:Ef; try discriminate. cbn [bind]. intros H. apply io_cons with f; [|apply IH; exact H].
    destruct (apply_new s e f Ef) as [w Hw]. destruct (apply_effect s e w Hw) as [f' [E Eff]]. congruence.
Qed.
(** ** C58 packages *)
Lemma effect_pkg s e w : new_value s e w -> exists e', es_apply s e = Ok e' /\ effect s e e'.
Proof. exact (apply_effect s e w). Qed.
Lemma missing_pkg s e : (exists n, (writes s n \/ (esKind s = KRecon /\ nth_error (osNames (esIn s)) 0 = Some n)) /\ lacks e n) ->
  (exists n, writes s n) -> (esKind s = KRecon -> exists n, nth_error (osNames (esIn s)) 0 = Some n /\ ((exists v, has_value e n v) \/ lacks e n)) ->
  es_apply s e = Throw NotFoundError.
Proof.
  intros [n [Hn Hl]] [m Hm] Hr. apply getDatum_lacks in Hl. unfold writes, es_apply, vat in *.
  destruct (esKind s).
  - destruct Hn as [Hn|[Hn _]]; [|discriminate]. rewrite Hn. cbn [bind]. now rewrite Hl.
  - destruct Hn as [Hn|[Hn _]]; [|discriminate]. rewrite Hn. cbn [bind]. now rewrite Hl.
  - destruct (Hr eq_refl) as [t [Ht Hv]]. rewrite Ht. cbn [bind]. rewrite Hm. cbn [bind].
    destruct Hv as [[v Hv]|Hv].
    + rewrite (getDatum_value _ _ _ Hv). cbn [bind]. destruct Hn as [Hn|[_ Hn]].
      * assert (m = n) by congruence. subst. now rewrite Hl.
      * assert (t = n) by congruence. subst. rewrite (getDatum_value _ _ _ Hv) in Hl. discriminate.
    + now rewrite (getDatum_lacks _ _ Hv).
Qed.
Lemma order_pkg ss e e' : esm_apply ss e = Ok e' -> in_order ss e e'.
Proof. exact (apply_in_order ss e e'). Qed.
Lemma order_total_pkg ss e e' : in_order ss e e' -> exists e2, esm_apply ss e = Ok e2 /\ evNames e2 = evNames e' /\ forall n v, has_value e2 n v <-> has_value e' n v.
Proof. intros H. destruct (in_order_apply ss e e e' (alike_refl e) H) as [e2 [E [A B]]]. eauto. Qed.
Lemma setters_pkg s v :
  (esKind s = KScale -> (v <= 0 -> es_setVal s v = (s, Throw ValueError)) /\ (0 < v -> es_setVal s v = (es_withVal s v, Ok tt))) /\
  (esKind s = KRecon -> (v < 0 -> es_setVal s v = (s, Throw ValueError)) /\ (0 <= v -> es_setVal s v = (es_withVal s v, Ok tt))) /\
  (esKind s = KShift -> es_setVal s v = (es_withVal s v, Ok tt)).
Proof.
  unfold es_setVal. split; [|split]; intros ->.
  - split; intros H; [apply qleb_le in H|apply qleb_gt in H]; rewrite H; reflexivity.
  - split; intros H; [apply qltb_lt in H|apply qltb_ge in H]; rewrite H; reflexivity.
  - reflexivity.
Qed.
