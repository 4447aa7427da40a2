(** More of C29 (buffers), C33 (constraints set through a statistic), C37 (a generator used again) and C110 (a cleared chain). *)
From Coq Require Import ZArith.
From Verif Require Import Base.Res Base.Num Base.SMap Model.Axis Model.Event Model.Cut Model.Hist Model.ED Model.Shrink Model.Constraint
  Model.NLLH Model.Bulk Model.Data Model.Gen Model.MCMC Model.Chain
  Spec.ConstraintSpec Spec.ShrinkSpec Spec.BulkSpec Spec.GenSpec Spec.MCMCSpec Spec.ChainSpec
  Proofs.MoreP Props.NLLHProps Props.GenProps Props.MCMCProps Props.ChainProps.
Local Open Scope Qc_scope.

(** C33.  SetConstraint of a statistic, in its three forms and any order, changes nothing but its constraints, is accepted exactly when
    the constraint manager would accept it, and what the constraints add to Evaluate is the sum over those in force *)
Theorem C33_statistic : forall s l o d vs, nlCm s = cman_new ->
  let s' := statrun s l in
  s' = nl_withCm s (nlCm s') /\
  (snd (statcall s' o) = Ok tt <-> allowed (accepted_calls (map meant l)) (meant o) = true) /\
  (Forall2 (asks_for d) (in_force (accepted_calls (map meant l))) vs -> cman_eval (nlCm s') d = Ok (qsum vs)).
Proof. exact statistic_pkg. Qed.
Print Assumptions C33_statistic.
Example C33_statistic_nonvacuous :
  let l := [SSym "a" 1 (qz 2); SAsym "b" 0 (qz 1) (qz 2); SCorr "b" 0 1 "c" 0 1 0; SSym "a" 1 1]%string in
  let d := sof [("a", qz 3); ("b", - (1)); ("c", 0)]%string in
  nlCm ex_nl = cman_new /\ snd (statcall (statrun ex_nl l) (SCorr "b" 0 1 "c" 0 1 0)) = Throw LogicError /\
  cman_eval (nlCm (statrun ex_nl l)) d = Ok (qq 5 2).
Proof. cbv zeta. split; [reflexivity|]. split; [reflexivity|]. vm_compute. repeat f_equal. Qed.

(** C37.  After ClearDataSets the data sets added next are a fresh start whatever was drawn before; the bootstrap flags and the cuts stay *)
Theorem C37_used_again : forall g l,
  let g' := fold_left (fun g a => g_add g (fst (fst a)) (snd (fst a)) (snd a)) l (g_clear g) in
  gSets g' = map (fun a => fst (fst a)) l /\ gRates g' = map (fun a => snd (fst a)) l /\ gSeq g' = map snd l /\
  gBoot g' = gBoot g /\ gCuts g' = gCuts g /\ fresh g'.
Proof. exact reused_pkg. Qed.
Print Assumptions C37_used_again.
Example C37_used_again_nonvacuous :
  let g := fst (grun (ex_gen false false 1) [GExp ex_u]) in
  ~ fresh g /\ fresh (g_add (g_clear g) ex_src (qz 2) false) /\ random_noreplace (g_add (g_clear g) ex_src (qz 2) false).
Proof.
  cbv zeta. split; [|split].
  - intros [_ F]. vm_compute in F. inversion F as [|? ? F1 _]. discriminate F1.
  - split; [reflexivity|repeat constructor].
  - repeat split; cbn; repeat constructor.
Qed.
(** a cut added later is applied after those before it *)
Theorem C37_cut_added : forall g c e,
  passesCuts (gCuts (g_addCut g c)) e = (match passesCuts (gCuts g) e with Ok true => passesCuts [c] e | r => r end).
Proof. exact addCut_pkg. Qed.
Print Assumptions C37_cut_added.

(** C110.  Clear keeps the rows written so far; the next Fill calls start a new chain, its steps counted from 0.  As C110_chain_partial
    for an implementation that lets reserved storage be used *)
Theorem C110_clear_partial : forall guess minima maxima maxIter c0 log s',
  let c := scClear c0 in
  scRows c = scRows c0 /\
  (scOn c0 = true -> log <> [] ->
   Forall (fun e => swf (eP e) /\ skeys (eP e) = skeys minima) log -> fill_calls guess minima maxima maxIter (scS c) log = Ok s' ->
   exists c' rows, chain_calls true guess minima maxima maxIter c log = Ok c' /\ scS c' = s' /\ scRows c' = Some rows /\
     scBranches c' = map branch_name (skeys minima) /\ tells (skeys minima) 0 log rows).
Proof. exact clear_pkg. Qed.
Print Assumptions C110_clear_partial.
Example C110_clear_nonvacuous :
  exists c0, chain_calls true (fun _ _ => 2%nat) ex_min ex_max 3 (sc_setSave (sc_new (ex_samples false)) true) ex_log = Ok c0 /\ scOn c0 = true /\
    exists s', fill_calls (fun _ _ => 2%nat) ex_min ex_max 3 (scS (scClear c0)) ex_log = Ok s'.
Proof. eexists. split; [vm_compute; reflexivity|]. split; [reflexivity|]. eexists. vm_compute. reflexivity. Qed.

(** C29.  GetBuffer gives the sizes set last for the axis, and throws for an axis that was given none *)
Theorem C29_buffers_reported : forall ops n, unsigned_sizes ops ->
  ((exists lo up, In (SBuf n lo up) ops) -> sh_getBuffer (configured ops) n = Ok (wanted ops n (0, 0)%Z)) /\
  ((forall lo up, ~ In (SBuf n lo up) ops) -> sh_getBuffer (configured ops) n = Throw NotFoundError).
Proof. exact buffers_pkg. Qed.
Print Assumptions C29_buffers_reported.
Example C29_buffers_nonvacuous : let ops := [SBuf "x" 1 2; SOver true; SBuf "y" 0 1; SBuf "x" 2 0]%string%Z in
  unsigned_sizes ops /\ sh_getBuffer (configured ops) "x" = Ok (2, 0)%Z /\ sh_getBuffer (configured ops) "z" = Throw NotFoundError.
Proof.
  cbv zeta. split; [|split; reflexivity]. intros n lo up H. cbn in H.
  repeat (destruct H as [H|H]; [try discriminate H; injection H as <- <- <-; split; split; vm_compute; congruence|]). destruct H.
Qed.
