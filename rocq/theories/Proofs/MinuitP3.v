From Coq Require Import ZArith.
From Verif Require Import Base.Res Base.Num Base.SMap Model.Axis Model.Hist Model.Matrix Model.Grid Model.Minuit Spec.SystSpec Spec.MinuitSpec Proofs.GridP3 Proofs.MinuitP Proofs.MinuitP2.
From Coq Require Import Lia.
Local Open Scope Qc_scope.
Local Open Scope res_scope.

Lemma in_existsb k l : existsb (String.eqb k) l = true -> In k l.
Proof. apply existsb_in. Qed.
(** fits repeated on the same optimiser start from the same settings *)
Lemma again_pkg m ts : ready m ts -> (mMin m = [] \/ same_keys (mMin m) (mErrs m)) -> forall M,
  let m' := fst (mOptimise M ts m) in
  ready m' ts /\ mVals m' = mVals m /\ mErrs m' = mErrs m /\ (forall k, sfind k (mMin m') = sfind k (mMin m)) /\ (forall k, sfind k (mMax m') = sfind k (mMax m)) /\
  mFixed m' = mFixed m /\ mMethod m' = mMethod m /\ mStrategy m' = mStrategy m /\ mMaxCalls m' = mMaxCalls m /\ mTol m' = mTol m /\ mMaximising m' = mMaximising m.
Proof.
  intros H C M m'. pose proof H as [[W1 [W2 [W3 [W4 W5]]]] [K1 [K2 [RG [MK [N F]]]]]]. destruct (run_ok _ _ H) as [pb [_ [_ [_ Q]]]].
  destruct (lims_facts m K1) as [_ [A [B [Wa Wb]]]].
  assert (FE : (forall k, sfind k (fst (fst (the_lims m))) = sfind k (mMin m)) /\ (forall k, sfind k (snd (fst (the_lims m))) = sfind k (mMax m))).
  { destruct C as [C|C].
    - destruct (A C) as [_ E]. rewrite E. split; reflexivity.
    - destruct (mMin m) as [|e mn] eqn:E; [destruct (A eq_refl) as [_ X]; rewrite X; split; reflexivity|]. rewrite <- E in *.
      assert (NE : mMin m <> []) by (rewrite E; discriminate). destruct (B NE) as [_ G].
      split; intros k; destruct (G k) as [G1 G2]; [rewrite G1|rewrite G2]; (destruct (existsb (String.eqb k) (skeys (mErrs m))) eqn:X; [|reflexivity]);
        apply in_existsb in X; apply C in X; symmetry; apply get0_find; [exact X|now apply K1]. }
  assert (SM : mMin m' = fst (fst (the_lims m)) /\ mMax m' = snd (fst (the_lims m)) /\ mErrs m' = mErrs m /\ mVals m' = mVals m /\ mFixed m' = mFixed m /\
    mMethod m' = mMethod m /\ mStrategy m' = mStrategy m /\ mMaxCalls m' = mMaxCalls m /\ mTol m' = mTol m /\ mMaximising m' = mMaximising m /\ swf (mSet m')).
  { unfold m'. rewrite Q. destruct (M pb) as [a| | | |]; try (cbn; tauto). cbv zeta.
    assert (SW : swf (match anLast a with | Some v => match setValues (mSet m) (skeys (mErrs m)) v with Ok d => d | _ => mSet m end | None => mSet m end)).
    { destruct (anLast a) as [v|]; [|exact W5]. destruct (Nat.eq_dec (List.length v) (List.length (skeys (mErrs m)))) as [L|L].
      - destruct (setValues_ok (mSet m) (skeys (mErrs m)) v (swf_nodup _ W2) L W5) as [d [-> [Wd _]]]. exact Wd.
      - unfold setValues. apply Nat.eqb_neq in L. rewrite L. exact W5. }
    revert SW. set (s' := match anLast a with Some _ => _ | None => _ end). clearbody s'. intros SW.
    destruct (bind _ _); cbn; tauto. }
  destruct SM as [S1 [S2 [S3 [S4 [S5 [S6 [S7 [S8 [S9 [S10 S11]]]]]]]]]]. destruct FE as [F1 F2].
  split; [|rewrite S1, S2; repeat split; assumption].
  unfold ready, dicts_ok. rewrite S3, S4, S5, S6. split; [rewrite S1, S2; repeat split; auto|]. split; [|split; [exact K2|]]; [|split; [|auto]].
  - rewrite S1, S2. intros k. transitivity (In k (skeys (mMin m))); [|transitivity (In k (skeys (mMax m))); [apply K1|]].
    + rewrite !sfind_in. now rewrite F1.
    + rewrite !sfind_in. now rewrite F2.
  - unfold ranges_ok. rewrite S1, S2. intros k lo hi X Y. rewrite F1 in X. rewrite F2 in Y. exact (RG k lo hi X Y).
Qed.
Lemma cov_size_pkg m ts : ready m ts -> exists pb, runs_on m ts pb /\ forall M a, M pb = Ok a -> List.length (anParams a) = List.length (tsNames ts) ->
  (forall n, List.length (anCov a) <> tri n) -> snd (mOptimise M ts m) = Throw DimensionError.
Proof.
  intros H. destruct (run_ok _ _ H) as [pb [E [_ [_ Q]]]]. exists pb. split; [apply runs; [intros M; rewrite !Q; reflexivity|intros M e X; rewrite Q, X; reflexivity]|].
  pose proof H as [[_ [W2 _]] [_ [_ [_ [_ [N _]]]]]]. rewrite N. intros M a X L1 L2.
  destruct (setValues_ok sempty (skeys (mErrs m)) (anParams a) (swf_nodup _ W2) L1 sempty_wf) as [d [Ed _]].
  rewrite Q, X, Ed. cbn [bind]. rewrite (calcCov_bad _ L2). reflexivity.
Qed.
(** an earlier fit of other parameters changes what the next statistic is evaluated at *)
Lemma stale2_pkg m ts : ready m ts -> forall k x, sfind k (mSet m) = Some x -> ~ In k (tsNames ts) -> exists pb, runs_on m ts pb /\
  forall v, List.length v = List.length (tsNames ts) -> exists d, sfind k d = Some x /\ pbFCN pb v = (if mMaximising m then rmap Qcopp (tsEval ts d) else tsEval ts d).
Proof.
  intros H k x Hk NI. destruct (fcn_pkg m ts H) as [pb [R P]]. exists pb. split; [exact R|]. intros v L. destruct (P v L) as [d [_ [B [_ E]]]]. exists d. split; [|exact E]. now rewrite B.
Qed.
(** FitResult *)
Lemma copy_pkg f : fitCopy f = f /\ (forall h, fitGetSpace (fitSetSpace h f) = Ok h) /\ (frSpace f = None -> fitGetSpace f = UB).
Proof. split; [now destruct f|]. split; [reflexivity|]. unfold fitGetSpace. now intros ->. Qed.
Lemma assign_pkg t f : (frSpace t = None -> frSpace f = None -> fitAssign t f = Ok f) /\
  (forall a b, frSpace t = Some a -> frSpace f = Some b -> fitAssign t f = Ok f) /\
  (forall b, frSpace t = None -> frSpace f = Some b -> exists r, fitAssign t f = Ok r /\ r <> f /\ frSpace r = None /\
     frBest r = frBest f /\ frExtreme r = frExtreme f /\ frValid r = frValid f /\ frCov r = frCov f) /\
  (forall a, frSpace t = Some a -> frSpace f = None -> fitAssign t f = UB).
Proof.
  unfold fitAssign. destruct t as [? ? ? ? [a|]], f as [b1 b2 b3 b4 [b|]]; cbn; (split; [|split; [|split]]); try discriminate; try congruence; auto.
  intros b0 _ E. injection E as <-. eexists. split; [reflexivity|]. cbn. repeat split. discriminate.
Qed.
