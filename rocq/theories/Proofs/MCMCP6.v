(** C44, C46: limits that were never set, samples that were cleared. *)
From Coq Require Import ZArith.
From Verif Require Import Base.Res Base.Num Base.SMap Model.Axis Model.Hist Model.HistTools Model.MCMC
  Spec.AxisSpec Spec.HistSpec Spec.MCMCSpec Spec.HistToolsSpec Proofs.MCMCP Proofs.MCMCP2 Proofs.MCMCP4 Proofs.MCMCP5.
From Coq Require Import Lia.
Local Open Scope Qc_scope.

Lemma sget0_find k m : exists m', sget0 k m = (or0 m k, m') /\ forall j, sfind j m' = if String.eqb j k then Some (or0 m k) else sfind j m.
Proof.
  unfold sget0, or0. destruct (sfind k m) as [v|] eqn:E.
  - exists m. split; [reflexivity|]. intros j. destruct (String.eqb_spec j k) as [->|_]; [exact E|reflexivity].
  - exists (sset k 0 m). split; [reflexivity|]. intros j. destruct (String.eqb_spec j k) as [->|H]; [apply sfind_sset_eq|apply sfind_sset_neq; exact H].
Qed.
Lemma start_any u0 names : forall m, let m1 := fold_left (start_step u0) names m in
  forall n, (forall j, or0 (mMinima m1) j = or0 (mMinima m) j /\ or0 (mMaxima m1) j = or0 (mMaxima m) j) /\
  (~ In n names -> sfind n (mCur m1) = sfind n (mCur m) /\ sfind n (mMinima m1) = sfind n (mMinima m) /\ sfind n (mMaxima m1) = sfind n (mMaxima m)) /\
  (In n names -> sfind n (mCur m1) = Some (or0 (mMinima m) n + u0 n * (or0 (mMaxima m) n - or0 (mMinima m) n)) /\
     sfind n (mMinima m1) = Some (or0 (mMinima m) n) /\ sfind n (mMaxima m1) = Some (or0 (mMaxima m) n)).
Proof.
  induction names as [|k names IH]; intros m; cbn [fold_left]; cbv zeta; intros n.
  - split; [intros j; split; reflexivity|]. split; [intros _; repeat split|intros []].
  - assert (Es : exists mins maxs, start_step u0 m k = mkMcmc (mMaxIter m) (mLogged m) (mFlip m) (mMaxVal m) (mCurVal m) (mBest m)
         (sset k (or0 (mMinima m) k + u0 k * (or0 (mMaxima m) k - or0 (mMinima m) k)) (mCur m)) (mSamples m) maxs mins (mInit m) /\
         (forall j, sfind j mins = if String.eqb j k then Some (or0 (mMinima m) k) else sfind j (mMinima m)) /\
         (forall j, sfind j maxs = if String.eqb j k then Some (or0 (mMaxima m) k) else sfind j (mMaxima m))).
    { unfold start_step. destruct (sget0_find k (mMinima m)) as [mins [E1 F1]], (sget0_find k (mMaxima m)) as [maxs [E2 F2]]. rewrite E1, E2. exists mins, maxs. repeat split; assumption. }
    destruct Es as [mins [maxs [-> [F1 F2]]]].
    set (m0 := mkMcmc _ _ _ _ _ _ _ _ maxs mins _). destruct (IH m0 n) as [O [A B]]. clear IH.
    assert (O1 : forall j, or0 mins j = or0 (mMinima m) j) by (intros j; unfold or0 at 1; rewrite F1; destruct (String.eqb_spec j k) as [->|_]; reflexivity).
    assert (O2 : forall j, or0 maxs j = or0 (mMaxima m) j) by (intros j; unfold or0 at 1; rewrite F2; destruct (String.eqb_spec j k) as [->|_]; reflexivity).
    split; [|split].
    + intros j. destruct (O j) as [-> ->]. cbn [m0 mMinima mMaxima]. split; [apply O1|apply O2].
    + intros H. cbn [In] in H. destruct (A ltac:(tauto)) as [-> [-> ->]]. cbn [m0 mMinima mMaxima mCur]. rewrite F1, F2.
      destruct (String.eqb_spec n k) as [->|Hn]; [tauto|]. repeat split. apply sfind_sset_neq. exact Hn.
    + intros H. destruct (in_dec string_dec n names) as [Hi|Hi].
      * destruct (B Hi) as [B1 [B2 B3]]. cbn [m0 mMinima mMaxima] in B1, B2, B3. rewrite O1, O2 in B1. rewrite O1 in B2. rewrite O2 in B3. repeat split; assumption.
      * destruct H as [->|H]; [|contradiction]. destruct (A Hi) as [-> [-> ->]]. cbn [m0 mMinima mMaxima mCur]. rewrite F1, F2, String.eqb_refl, sfind_sset_eq. repeat split.
Qed.
Lemma start_any_pkg u0 names m n : mInit m = [] -> In n names -> let m1 := startPoint u0 names m in
  sfind n (mCur m1) = Some (or0 (mMinima m) n + u0 n * (or0 (mMaxima m) n - or0 (mMinima m) n)) /\
  sfind n (mMinima m1) = Some (or0 (mMinima m) n) /\ sfind n (mMaxima m1) = Some (or0 (mMaxima m) n).
Proof.
  intros E H. unfold startPoint. rewrite E. change (fold_left _ names m) with (fold_left (start_step u0) names m). exact (proj2 (proj2 (start_any u0 names m n)) H).
Qed.

Lemma clear_pkg guess minima maxima maxIter s0 log s' burn thin : swf minima -> minima <> [] -> ac_reach (sAxes s0) ->
  sBurn s0 = Z.of_nat burn -> sThin s0 = Z.of_nat thin -> (thin <> 0)%nat -> log <> [] ->
  fill_calls guess minima maxima maxIter (sClear s0) log = Ok s' ->
  ((sTot s' = List.length log /\ sAcc s' = n_accepted log) /\
  let pts := map eP (recorded burn thin 0 log) in
  let k := (List.length log - 1) / thin - burn / thin in
  List.length pts = k /\
  (forall p, In p pts <-> exists i e, nth_error log i = Some e /\ eP e = p /\ burn < i /\ i mod thin = 0) /\
  (sFull s0 = true -> exists axes, ac_reach axes /\ List.length (acAxes axes) = List.length minima /\
     (acAxes (sAxes s0) <> [] -> axes = sAxes s0) /\ (acAxes (sAxes s0) = [] -> map aName (acAxes axes) = skeys minima) /\
     sHist s' = filled (mk_hist axes) pts /\ integral (sHist s') = Ok (qn k)) /\
  (sFull s0 = false ->
     (forall n, In n (skeys (s1D s')) <-> In n (skeys minima)) /\
     (forall n h, sfind n (s1D s') = Some h -> names_of h = [n] /\ integral h = Ok (qn k) /\
        exists h0, all_zero h0 /\ same_axes h h0 /\ h = filled h0 pts) /\
     (forall n h, sfind n (s2D s') = Some h -> integral h = Ok (qn k) /\
        exists h0 p, distinct_pair (skeys minima) p /\ n = (fst p ++ "_" ++ snd p)%string /\ names_of h = [fst p; snd p] /\
          all_zero h0 /\ same_axes h h0 /\ h = filled h0 pts) /\
     (forall a b, In a (skeys minima) -> In b (skeys minima) -> a <> b ->
        In (a ++ "_" ++ b)%string (skeys (s2D s')) \/ In (b ++ "_" ++ a)%string (skeys (s2D s')))))%nat.
Proof.
  intros W N A B T H L F. split.
  - destruct (counts_pkg _ _ _ _ _ _ _ F) as [C1 [C2 _]]. split; assumption.
  - exact (fresh_pkg guess minima maxima maxIter (sClear s0) log s' burn thin W N A eq_refl eq_refl B T H L F).
Qed.
Lemma defaults_pkg guess minima maxima maxIter log s' : swf minima -> minima <> [] -> log <> [] ->
  fill_calls guess minima maxima maxIter samples0 log = Ok s' ->
  (sTot s' = List.length log /\ sAcc s' = n_accepted log /\
  (forall p, In p (map eP (recorded 1000 1 0 log)) <-> exists i e, nth_error log i = Some e /\ eP e = p /\ 1000 < i) /\
  (forall n h, sfind n (s1D s') = Some h -> integral h = Ok (qn (List.length log - 1 - 1000)) /\
     exists h0, all_zero h0 /\ same_axes h h0 /\ h = filled h0 (map eP (recorded 1000 1 0 log))))%nat.
Proof.
  intros W N L F. destruct (counts_pkg _ _ _ _ _ _ _ F) as [C1 [C2 _]]. split; [exact C1|]. split; [exact C2|].
  destruct (fresh_pkg guess minima maxima maxIter samples0 log s' 1000 1 W N ar_empty eq_refl eq_refl eq_refl eq_refl ltac:(discriminate) L F) as [_ [P [_ Q]]].
  split.
  - intros p. rewrite (P p). split; intros [i [e [X [Y Z]]]]; exists i, e; (split; [exact X|]); (split; [exact Y|]); [apply Z|]. split; [exact Z|]. apply Nat.mod_1_r.
  - intros n h E. destruct (Q eq_refl) as [_ [Q1 _]]. destruct (Q1 n h E) as [_ [I1 I2]]. split; [|exact I2]. rewrite I1. rewrite !Nat.div_1_r. reflexivity.
Qed.
