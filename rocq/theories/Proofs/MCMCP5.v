(** Combined statements for whole Optimise runs. *)
From Coq Require Import ZArith.
From Verif Require Import Base.Res Base.Num Base.SMap Model.Axis Model.Hist Model.HistTools Model.Shrink Model.MCMC
  Spec.AxisSpec Spec.HistSpec Spec.HistToolsSpec Spec.MCMCSpec Proofs.AxisP Proofs.HistP Proofs.MCMCP Proofs.MCMCP2 Proofs.MCMCP3 Proofs.MCMCP4.
From Coq Require Import Lia.
Local Open Scope nat_scope.
Local Open Scope res_scope.

Lemma chain_pkg guess f ex draw corr unif u0 names m m' : mInit m <> [] \/ has_limits m names ->
  mOptimise guess f ex draw corr unif u0 names m = Ok m' ->
  exists start v0 log, starts_at u0 names m start /\ chain_value f m start = Ok v0 /\
    sLog (mSamples m') = sLog (mSamples m) ++ log /\ List.length log = mMaxIter m /\
    chain_ok draw (chain_value f m) 0 start v0 log.
Proof.
  intros Hl E. destruct (opt_pkg _ _ _ _ _ _ _ _ _ _ Hl E) as [st [v0 [log [A [B [C [D [F _]]]]]]]].
  exists st, v0, log. auto.
Qed.
Lemma box_limits u0 names m : box_start u0 names m -> mInit m <> [] \/ has_limits m names.
Proof.
  intros [[H _]|[_ [_ H]]]; [now left|]. right. intros n Hn. destruct (H n Hn) as [_ [_ [lo [hi [A [B _]]]]]]. eauto.
Qed.
Lemma box_pkg guess f ex draw corr unif u0 names m m' : box_start u0 names m ->
  mOptimise guess f ex draw corr unif u0 names m = Ok m' ->
  exists start log, starts_at u0 names m start /\ sLog (mSamples m') = sLog (mSamples m) ++ log /\ List.length log = mMaxIter m /\
    (mInit m = [] -> forall n, In n (skeys start) <-> In n names) /\
    in_box (mMinima m) (mMaxima m) (skeys start) start /\
    Forall (fun e => in_box (mMinima m) (mMaxima m) (skeys start) (eP e)) log.
Proof.
  intros Hb E. destruct (opt_pkg _ _ _ _ _ _ _ _ _ _ (box_limits _ _ _ Hb) E) as [st [v0 [log [A [B [C [D [_ [_ [_ [F _]]]]]]]]]]].
  destruct (box_start_ok _ _ _ _ Hb A) as [G1 G2]. exists st, log. auto 10.
Qed.
Lemma fixed_pkg guess f ex sigmas fixed g corr unif u0 names m m' : mInit m <> [] \/ has_limits m names ->
  mOptimise guess f ex (fun i => metroDraw sigmas fixed (g i)) corr unif u0 names m = Ok m' ->
  exists start log, starts_at u0 names m start /\ sLog (mSamples m') = sLog (mSamples m) ++ log /\ List.length log = mMaxIter m /\
    Forall (fun e => skeys (eP e) = skeys start) log /\
    forall n, In n fixed -> Forall (fun e => sfind n (eP e) = sfind n start) log.
Proof.
  intros Hl E. destruct (chain_pkg _ _ _ _ _ _ _ _ _ _ Hl E) as [st [v0 [log [A [B [C [D F]]]]]]].
  exists st, log. split; [exact A|]. split; [exact C|]. split; [exact D|]. split.
  - clear -F. revert F. generalize 0 as i. revert st v0. induction log as [|e t IH]; intros st v0 i; [constructor|]. cbn [chain_ok]. intros [H Ht].
    assert (He : skeys (eP e) = skeys st).
    { destruct (eA e); [destruct H as [H _]; exact (metro_keys _ _ _ _ _ H)|destruct H as [-> _]; reflexivity]. }
    constructor; [exact He|]. rewrite <- He. exact (IH _ _ _ Ht).
  - intros n Hn. pose proof (chain_fixed sigmas fixed g (chain_value f m) n log Hn 0 st v0 F) as G.
    eapply Forall_impl; [|exact G]. cbn beta. tauto.
Qed.
Lemma metro_draw_pkg sigmas fixed g cur p : swf cur -> metroDraw sigmas fixed g cur = Ok p ->
  skeys p = skeys cur /\ (forall n, In n fixed -> sfind n p = sfind n cur) /\
  (forall n v s, sfind n cur = Some v -> ~ In n fixed -> sfind n sigmas = Some s -> sfind n p = Some (v + g n s)%Qc).
Proof.
  intros Hw E. split; [exact (metro_keys _ _ _ _ _ E)|]. split.
  - intros n Hn. exact (metro_fixed _ _ _ _ _ Hn _ E).
  - intros n v s Hv Hn Hs. apply (metro_moves sigmas fixed g cur n v s); auto. now apply sfind_In.
Qed.
Lemma best_pkg guess f ex draw corr unif u0 names m m' : mInit m <> [] \/ has_limits m names ->
  mOptimise guess f ex draw corr unif u0 names m = Ok m' ->
  exists start v0 log, starts_at u0 names m start /\ chain_value f m start = Ok v0 /\
    sLog (mSamples m') = sLog (mSamples m) ++ log /\ List.length log = mMaxIter m /\
    visited start v0 log (mBest m') (mMaxVal m') /\
    (v0 <= mMaxVal m')%Qc /\
    (forall l1 e l2, log = l1 ++ e :: l2 -> eA e = true -> forall x, In x l1 -> (eV x <= mMaxVal m')%Qc) /\
    (forall p v, visited start v0 log p v -> (v <= mMaxVal m')%Qc \/ v = mCurVal m').
Proof.
  intros Hl E. destruct (opt_pkg _ _ _ _ _ _ _ _ _ _ Hl E) as [st [v0 [log [A [B [C [D [_ [_ [_ [_ F]]]]]]]]]]].
  exists st, v0, log. auto 10.
Qed.
Lemma counts_opt_pkg guess f ex draw corr unif u0 names m m' : mInit m <> [] \/ has_limits m names ->
  mOptimise guess f ex draw corr unif u0 names m = Ok m' ->
  exists log, sLog (mSamples m') = sLog (mSamples m) ++ log /\ List.length log = mMaxIter m /\
    fill_calls guess (mMinima m) (mMaxima m) (mMaxIter m) (mSamples m) log = Ok (mSamples m') /\
    (sTot (mSamples m) = 0 -> sAcc (mSamples m) = 0 -> mMaxIter m <> 0 ->
       acceptanceRate (mSamples m') = Ok (qn (n_accepted log) / qn (mMaxIter m))%Qc /\
       rejectionRate (mSamples m') = Ok (1 - qn (n_accepted log) / qn (mMaxIter m))%Qc).
Proof.
  intros Hl E. destruct (opt_pkg _ _ _ _ _ _ _ _ _ _ Hl E) as [st [v0 [log [A [B [C [D [_ [_ [F _]]]]]]]]]].
  exists log. split; [exact C|]. split; [exact D|]. split; [exact F|]. intros H1 H2 H3.
  destruct (counts_pkg _ _ _ _ _ _ _ F) as [_ [_ G]]. rewrite H1, H2 in G. cbn [Nat.add] in G. assert (D2 : @List.length entry log = mMaxIter m) by exact D. rewrite D2 in G. exact (G H3).
Qed.
(** a burn-in of 2^31 or more *)
Lemma burn_wrap b m : Z.of_nat b = 2147483648%Z -> sInit (mSamples m) = true -> sTot (mSamples m) = 0 -> sThin (mSamples m) = 1%Z ->
  sBurn (mSamples (setBurnIn m b)) = (-2147483648)%Z /\ recordStep (mSamples (setBurnIn m b)) = Ok true.
Proof.
  intros Hb Hi Ht Hth. assert (E : sBurn (mSamples (setBurnIn m b)) = (-2147483648)%Z).
  { unfold setBurnIn. cbn [mSamples sBurn]. rewrite Hb. reflexivity. }
  split; [exact E|]. unfold recordStep. rewrite E. unfold setBurnIn. cbn [mSamples sTot sThin]. rewrite Ht, Hth. reflexivity.
Qed.
