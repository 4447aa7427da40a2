(** More of C58 and C59: the fit parameter of an event systematic; events of the wrong dimension. *)
From Coq Require Import ZArith.
From Verif Require Import Base.Res Base.Num Base.SMap Model.Axis Model.Event Model.Hist Model.Cut Model.ED Model.Shrink Model.Fill
  Spec.AxisSpec Spec.HistSpec Spec.CutSpec Spec.FillSpec Proofs.AxisP Proofs.HistP Proofs.CutP Proofs.FillP Proofs.FillP2.
Local Open Scope Qc_scope.
Local Open Scope res_scope.

Lemma params_pkg s : exists p v,
  (forall n, (n = p -> es_getPar s n = Ok v) /\ (n <> p -> es_getPar s n = Throw ParameterError)) /\
  (forall n x, (n = p -> exists s', es_setPar s n x = (s', Ok tt) /\ es_getPar s' p = Ok x /\ esKind s' = esKind s /\ esIn s' = esIn s /\ esOut s' = esOut s) /\
     (n <> p -> es_setPar s n x = (s, Throw ParameterError))) /\
  (forall d, (forall x, sfind p d = Some x -> es_setPars s d = es_setPar s p x) /\ (sfind p d = None -> es_setPars s d = (s, Throw ParameterError))) /\
  (forall o n, (o = p -> exists s', es_rename s o n = (s', Ok tt) /\ es_getPar s' n = Ok v /\ (n <> p -> es_getPar s' p = Throw ParameterError) /\ esKind s' = esKind s /\ esIn s' = esIn s /\ esOut s' = esOut s) /\
     (o <> p -> es_rename s o n = (s, Throw ParameterError))).
Proof.
  exists (esPar s), (esVal s). unfold es_getPar, es_setPar, es_setPars, es_rename. split; [|split; [|split]].
  - intros n. split; intros H; [subst; now rewrite String.eqb_refl|]. destruct (String.eqb_spec n (esPar s)); [contradiction|reflexivity].
  - intros n x. split; intros H; [subst; rewrite String.eqb_refl|].
    + eexists. split; [reflexivity|]. cbn. now rewrite String.eqb_refl.
    + destruct (String.eqb_spec n (esPar s)); [contradiction|reflexivity].
  - intros d. split; [intros x ->; now rewrite String.eqb_refl|now intros ->].
  - intros o n. split; intros H; [subst; rewrite String.eqb_refl|].
    + eexists. split; [reflexivity|]. cbn. rewrite String.eqb_refl. split; [reflexivity|]. split; [|auto]. intros N. destruct (String.eqb_spec (esPar s) n); [congruence|reflexivity].
    + destruct (String.eqb_spec o (esPar s)); [contradiction|reflexivity].
Qed.
Lemma defaults_pkg k ins outs e e' : es_apply (es_setIn (es_setOut (es_new k) outs) ins) e = Ok e' ->
  evNames e' = evNames e /\ forall n v, has_value e' n v <-> has_value e n v.
Proof.
  intros H. destruct (apply_new _ _ _ H) as [w Hw]. destruct (apply_effect _ _ _ Hw) as [e2 [E2 X]]. rewrite H in E2. injection E2 as <-.
  destruct X as [n [w2 [W [Nw [V [Nm Oth]]]]]]. split; [exact Nm|]. assert (Ew : has_value e n w2).
  { destruct Nw as [n' [v [W' [Hv Q]]]]. unfold writes in W, W'. rewrite W in W'. injection W' as <-. replace w2 with v; [exact Hv|]. destruct k; cbn in Q.
    - rewrite Q. ring.
    - rewrite Q. ring.
    - destruct Q as [m [t [_ [_ ->]]]]. ring. }
  intros m v. destruct (String.eqb_spec m n) as [->|N]; [|now apply Oth]. split; intros X.
  - now rewrite (value_fun _ _ _ _ X V).
  - now rewrite (value_fun _ _ _ _ X Ew).
Qed.
Lemma fill_dims_pkg b e w vals : values (osNames (bdObs b)) e vals -> List.length (osNames (bdObs b)) <> hNDims (bdHist b) ->
  bed_fillEvent b e w = (b, Throw RepresentationError).
Proof.
  intros Hv Hd. assert (E : toObsSet e (bdObs b) = Ok vals).
  { destruct (toObsSet_pkg e (osNames (bdObs b))) as [T _]. unfold toObsSet in *. cbn [osNames mk_obsset] in T. apply T. exact Hv. }
  assert (L : List.length vals <> hNDims (bdHist b)). { intros C. apply Hd. rewrite <- C. clear - Hv. unfold values in Hv. induction Hv; cbn; congruence. }
  unfold bed_fillEvent. rewrite E. unfold bed_on. rewrite (fill_dim _ _ _ L). cbn. destruct b; reflexivity.
Qed.
Lemma fill_missing_pkg b e w n : In n (osNames (bdObs b)) -> lacks e n -> (forall m, In m (osNames (bdObs b)) -> lacks e m \/ exists v, has_value e m v) ->
  bed_fillEvent b e w = (b, Throw NotFoundError).
Proof.
  intros Hn Hl Ha. assert (E : toObsSet e (bdObs b) = Throw NotFoundError).
  { unfold toObsSet, mapM. induction (osNames (bdObs b)) as [|m l IH]; [destruct Hn|]. cbn [map seqM]. destruct (Ha m (or_introl eq_refl)) as [L|[v V]].
    - now rewrite (getDatum_lacks _ _ L).
    - rewrite (getDatum_value _ _ _ V). cbn [bind]. destruct Hn as [->|Hn]; [apply getDatum_lacks in Hl; apply getDatum_value in V; congruence|]. rewrite IH; [reflexivity|exact Hn|]. intros x Hx. apply Ha. now right. }
  unfold bed_fillEvent. rewrite E. cbn. destruct b; reflexivity.
Qed.
