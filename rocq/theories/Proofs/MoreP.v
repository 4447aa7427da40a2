(** Proofs of: constraints set through a statistic (C33), a reused generator (C37), a cleared chain (C110), the buffers reported (C29). *)
From Coq Require Import ZArith Lia.
From Verif Require Import Base.Res Base.Num Base.SMap Model.Axis Model.Event Model.Cut Model.Hist Model.ED Model.Shrink Model.Constraint
  Model.NLLH Model.Bulk Model.Data Model.Gen Model.MCMC Model.Chain
  Spec.ConstraintSpec Spec.ShrinkSpec Spec.BulkSpec Spec.GenSpec Spec.MCMCSpec Spec.ChainSpec
  Proofs.ConstraintP Proofs.ChainP Props.ConstraintProps Props.ChainProps.
Local Open Scope Qc_scope.

Lemma withCm_same s : nl_withCm s (nlCm s) = s.
Proof. now destruct s. Qed.
Lemma statcall_is s o : statcall s o = (nl_withCm s (fst (ccall (nlCm s) (meant o))), snd (ccall (nlCm s) (meant o))).
Proof. destruct o; cbn; unfold nl_constrain, nl_constrainAsym, nl_constrainPair, nl_onCm;
  match goal with |- (let (_, _) := ?x in _) = _ => destruct x end; reflexivity. Qed.
Lemma statrun_is l : forall s, statrun s l = nl_withCm s (fold_left (fun c o => fst (ccall c o)) (map meant l) (nlCm s)).
Proof.
  induction l as [|o t IH]; intros s; cbn [map fold_left]; unfold statrun in *; cbn [fold_left]; [now rewrite withCm_same|].
  rewrite IH, statcall_is. cbn [fst]. destruct s; reflexivity.
Qed.
Lemma statistic_pkg : forall s l o d vs, nlCm s = cman_new ->
  let s' := statrun s l in
  s' = nl_withCm s (nlCm s') /\
  (snd (statcall s' o) = Ok tt <-> allowed (accepted_calls (map meant l)) (meant o) = true) /\
  (Forall2 (asks_for d) (in_force (accepted_calls (map meant l))) vs -> cman_eval (nlCm s') d = Ok (qsum vs)).
Proof.
  intros s l o d vs E s'. assert (nlCm s' = crun (map meant l)) as C.
  { unfold s'. rewrite statrun_is, E. now destruct s. }
  split; [|split].
  - unfold s'. rewrite statrun_is. now destruct s.
  - rewrite statcall_is. cbn [snd]. rewrite C. apply C33_acceptance.
  - intros F. rewrite C. now apply C33_value_of_history.
Qed.

Lemma adds_shape l : forall g, fresh g ->
  let g' := fold_left (fun g a => g_add g (fst (fst a)) (snd (fst a)) (snd a)) l g in
  gSets g' = (gSets g ++ map (fun a => fst (fst a)) l)%list /\ gRates g' = (gRates g ++ map (fun a => snd (fst a)) l)%list /\
  gSeq g' = (gSeq g ++ map snd l)%list /\ gBoot g' = gBoot g /\ gCuts g' = gCuts g /\ fresh g'.
Proof.
  induction l as [|a t IH]; intros g F; cbn [map fold_left]; [rewrite !app_nil_r; auto 10|].
  destruct (IH (g_add g (fst (fst a)) (snd (fst a)) (snd a))) as (A & B & C & D & E & G).
  { destruct F as [F1 F2]. split; cbn; [rewrite !app_length, F1; reflexivity|]. apply Forall_app; split; [exact F2|]. repeat constructor. }
  cbn in A, B, C, D, E. rewrite <- !app_assoc in *. auto 10.
Qed.
Lemma reused_pkg : forall g l,
  let g' := fold_left (fun g a => g_add g (fst (fst a)) (snd (fst a)) (snd a)) l (g_clear g) in
  gSets g' = map (fun a => fst (fst a)) l /\ gRates g' = map (fun a => snd (fst a)) l /\ gSeq g' = map snd l /\
  gBoot g' = gBoot g /\ gCuts g' = gCuts g /\ fresh g'.
Proof. intros g l. apply (adds_shape l (g_clear g)). split; [reflexivity|constructor]. Qed.

Lemma addCut_pkg : forall g c e, 
  passesCuts (gCuts (g_addCut g c)) e = (match passesCuts (gCuts g) e with Ok true => passesCuts [c] e | r => r end).
Proof.
  intros g c e. unfold g_addCut, g_setCuts. cbn [gCuts]. induction (gCuts g) as [|k t IH]; cbn [app passesCuts]; [reflexivity|].
  destruct (Cut.passesCut k e) as [[]| | | |]; cbn [bind]; auto.
Qed.

Lemma clear_pkg : forall guess minima maxima maxIter c0 log s',
  let c := scClear c0 in
  scRows c = scRows c0 /\
  (scOn c0 = true -> log <> [] ->
   Forall (fun e => swf (eP e) /\ skeys (eP e) = skeys minima) log -> fill_calls guess minima maxima maxIter (scS c) log = Ok s' ->
   exists c' rows, chain_calls true guess minima maxima maxIter c log = Ok c' /\ scS c' = s' /\ scRows c' = Some rows /\
     scBranches c' = map branch_name (skeys minima) /\ tells (skeys minima) 0 log rows).
Proof.
  intros guess minima maxima maxIter c0 log s' c. split; [reflexivity|]. intros On N F R.
  exact (C110_chain_partial guess minima maxima maxIter c log s' eq_refl On N F R).
Qed.

Lemma buffers_gen ops n : unsigned_sizes ops -> forall s cur,
  match sfind n (shBuf s) with Some p => p = cur | None => cur = (0, 0)%Z end ->
  match sfind n (shBuf (fold_left sh_do ops s)) with
  | Some p => p = wanted ops n cur
  | None => wanted ops n cur = (0, 0)%Z /\ forall lo up, ~ In (SBuf n lo up) ops
  end /\ ((exists lo up, In (SBuf n lo up) ops) -> sfind n (shBuf (fold_left sh_do ops s)) <> None) /\
  (sfind n (shBuf s) <> None -> sfind n (shBuf (fold_left sh_do ops s)) <> None) /\
  (sfind n (shBuf s) = None -> (forall lo up, ~ In (SBuf n lo up) ops) -> sfind n (shBuf (fold_left sh_do ops s)) = None).
Proof.
  induction ops as [|o t IH]; intros U s cur H; cbn [fold_left].
  - cbn [wanted]. split; [destruct (sfind n (shBuf s)); [exact H|split; [exact H|intros ? ? []]]|]. split; [intros (? & ? & [])|]. auto.
  - assert (unsigned_sizes t) as Ut by (intros m lo up Hin; apply (U m); now right).
    destruct o as [m lo up|b].
    + assert (u32 lo = lo /\ u32 up = up) as [E1 E2].
      { destruct (U m lo up (or_introl eq_refl)). unfold u32. rewrite !Z.mod_small by assumption. auto. }
      cbn [sh_do wanted]. set (s1 := sh_setBuffer s m lo up).
      assert (sfind n (shBuf s1) = if String.eqb n m then Some (lo, up) else sfind n (shBuf s)) as S1.
      { unfold s1, sh_setBuffer. cbn [shBuf]. rewrite sfind_sset, E1, E2. reflexivity. }
      destruct (IH Ut s1 (if String.eqb m n then (lo, up) else cur)) as (I1 & I2 & I3 & I4).
      { rewrite S1, (String.eqb_sym m n). destruct (String.eqb n m); [reflexivity|exact H]. }
      destruct (String.eqb_spec n m) as [->|N].
      * rewrite String.eqb_refl in *.
        assert (sfind m (shBuf (fold_left sh_do t s1)) <> None) as K by (apply I3; rewrite S1; discriminate).
        destruct (sfind m (shBuf (fold_left sh_do t s1))) eqn:Ef; [|congruence].
        split; [exact I1|]. split; [discriminate|]. split; [discriminate|]. intros _ C. exfalso. apply (C lo up). now left.
      * rewrite S1 in I3, I4. split; [|split; [|split]].
        -- destruct (sfind n (shBuf (fold_left sh_do t s1))); [exact I1|]. destruct I1 as [I1 I5]. split; [exact I1|].
           intros lo' up' [C|C]; [congruence|exact (I5 _ _ C)].
        -- intros (lo' & up' & [C|C]); [congruence|]. apply I2. now exists lo', up'.
        -- exact I3.
        -- intros Hn C. apply I4; [exact Hn|]. intros lo' up' C'. apply (C lo' up'). now right.
    + cbn [sh_do wanted]. destruct (IH Ut (sh_setOver s b) cur H) as (I1 & I2 & I3 & I4). split; [|split; [|split]].
      * destruct (sfind n (shBuf (fold_left sh_do t (sh_setOver s b)))); [exact I1|]. destruct I1 as [I1 I5]. split; [exact I1|]. intros lo' up' [C|C]; [discriminate|exact (I5 _ _ C)].
      * intros (lo' & up' & [C|C]); [discriminate|]. apply I2. now exists lo', up'.
      * exact I3.
      * intros Hn C. apply I4; [exact Hn|]. intros lo' up' C'. apply (C lo' up'). now right.
Qed.
Lemma buffers_pkg : forall ops n, unsigned_sizes ops ->
  ((exists lo up, In (SBuf n lo up) ops) -> sh_getBuffer (configured ops) n = Ok (wanted ops n (0, 0)%Z)) /\
  ((forall lo up, ~ In (SBuf n lo up) ops) -> sh_getBuffer (configured ops) n = Throw NotFoundError).
Proof.
  intros ops n U. destruct (buffers_gen ops n U sh_new (0, 0)%Z eq_refl) as (A & B & _ & D). fold (configured ops) in *.
  unfold sh_getBuffer. split.
  - intros H. apply B in H. destruct (sfind n (shBuf (configured ops))); [now subst|congruence].
  - intros H. now rewrite (D eq_refl H).
Qed.
