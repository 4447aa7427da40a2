(** C110: the saved chain. *)
From Coq Require Import ZArith Lia.
From Verif Require Import Base.Res Base.Num Base.SMap Model.Axis Model.Hist Model.HistTools Model.Shrink Model.MCMC Model.Chain
  Spec.MCMCSpec Spec.ChainSpec Proofs.MCMCP Proofs.MCMCP3 Proofs.ChainP Props.MCMCProps.
Local Open Scope Qc_scope.

(** C110.  Any history of Fill calls that succeeds without the chain (for Optimise, C46_run gives its history), on an implementation
    that lets reserved vector storage be used: with the chain switched on everything else comes out the same, and the chain has one
    row per call, telling that call.  Missing: the standard gives no such permission (C110_standard_refuted). *)
Theorem C110_chain_partial : forall guess minima maxima maxIter c log s',
  sInit (scS c) = false -> scOn c = true -> log <> [] ->
  Forall (fun e => swf (eP e) /\ skeys (eP e) = skeys minima) log -> fill_calls guess minima maxima maxIter (scS c) log = Ok s' ->
  exists c' rows, chain_calls true guess minima maxima maxIter c log = Ok c' /\ scS c' = s' /\ scRows c' = Some rows /\
    scBranches c' = map branch_name (skeys minima) /\ tells (skeys minima) (sTot (scS c)) log rows.
Proof. exact chain_pkg. Qed.
Print Assumptions C110_chain_partial.

(** switched off it is not there *)
Theorem C110_off : forall usable guess minima maxima maxIter c p v a, scOn c = false ->
  scFill usable guess minima maxima maxIter c p v a =
  rmap (fun s => mkSc s false (scVals c) (scBranches c) (scRows c)) (sFill guess minima maxima maxIter (scS c) p v a).
Proof. exact off_pkg. Qed.
Print Assumptions C110_off.

(** by the standard the first Fill is undefined for any fit with a parameter *)
Theorem C110_standard_refuted : forall guess minima maxima maxIter c s1 p v a,
  scOn c = true -> sInit (scS c) = false -> minima <> [] -> initHists guess minima maxima maxIter (scS c) = Ok s1 ->
  scFill false guess minima maxima maxIter c p v a = UB.
Proof. exact undefined_pkg. Qed.
Print Assumptions C110_standard_refuted.

(** asking for the chain after the first Fill is undefined everywhere *)
Theorem C110_late_refuted : forall usable guess minima maxima maxIter c p v a c1 p2 v2 a2 s2,
  scFill usable guess minima maxima maxIter (sc_new (scS c)) p v a = Ok c1 ->
  sFill guess minima maxima maxIter (scS c1) p2 v2 a2 = Ok s2 ->
  scFill usable guess minima maxima maxIter (sc_setSave c1 true) p2 v2 a2 = UB.
Proof.
  intros usable guess minima maxima maxIter c p v a c1 p2 v2 a2 s2 E1 E2. rewrite off_pkg in E1 by reflexivity.
  destruct (sFill guess minima maxima maxIter (scS (sc_new (scS c))) p v a) as [s1| | | |] eqn:E; cbn [rmap bind] in E1; try discriminate. injection E1 as <-.
  apply (late_pkg _ _ _ _ _ _ s2); try reflexivity; [|exact E2]. cbn. apply (sFill_log _ _ _ _ _ _ _ _ _ E).
Qed.
Print Assumptions C110_late_refuted.

(** the branch of a parameter has its name, if there is no '-' in it *)
Theorem C110_branch_partial : forall n, (forall k, String.get k n <> Some (Ascii.ascii_of_nat 45)) -> branch_name n = n.
Proof. exact branch_plain. Qed.
Print Assumptions C110_branch_partial.
(** two parameters can share a branch name, and only the first '-' is replaced *)
Theorem C110_branch_refuted : branch_name "a-b" = branch_name "a_b" /\ branch_name "a-b-c" = "a_b-c"%string.
Proof. split; reflexivity. Qed.
Print Assumptions C110_branch_refuted.

(** AutoCorrelationCalc::Var is not the variance: it can be negative, and for whole numbers it is not divided by their number *)
Theorem C110_variance_refuted :
  (exists c v, foldM cFill [qq 1 2; qq 1 2] (acalc0 4) = Ok c /\ cVar c = Ok v /\ v < 0 /\ variance [qq 1 2; qq 1 2] = 0) /\
  (exists c, foldM cFill [qz 1; qz 3] (acalc0 4) = Ok c /\ cVar c = Ok (qz 6) /\ variance [qz 1; qz 3] = 1).
Proof.
  split.
  - do 2 eexists. split; [vm_compute; reflexivity|]. split; [vm_compute; reflexivity|]. split; [vm_compute; reflexivity|apply Qc_is_canon; vm_compute; reflexivity].
  - eexists. split; [vm_compute; reflexivity|]. split; [vm_compute; f_equal; apply Qc_is_canon; reflexivity|apply Qc_is_canon; vm_compute; reflexivity].
Qed.
Print Assumptions C110_variance_refuted.

(** and for whole numbers it is exactly this: the sum of the squares, undivided, less the square of the mean; undefined as soon as
    that sum leaves the range of int *)
Theorem C110_whole_numbers : forall c zs, cValues c = map qz zs -> zs <> [] ->
  let s := fold_right (fun z a => z * z + a)%Z 0%Z zs in
  let m := qsum (map qz zs) / qn (List.length zs) in
  ((s <= 2147483647)%Z -> cVar c = Ok (qz s - m * m)) /\ ((2147483647 < s)%Z -> cVar c = UB).
Proof. exact whole_pkg. Qed.
Print Assumptions C110_whole_numbers.

Definition ex_log : list entry := [([("a"%string, 1); ("b-c"%string, qz 2)], qz 5, true); ([("a"%string, 1); ("b-c"%string, qz 2)], qz 5, false); ([("a"%string, qz 3); ("b-c"%string, qz 4)], qz 7, true)].
Definition ex_min : smap Qc := [("a"%string, 0); ("b-c"%string, 0)].
Definition ex_max : smap Qc := [("a"%string, qz 10); ("b-c"%string, qz 10)].
Example C110_nonvacuous :
  let c := sc_setSave (sc_new (ex_samples false)) true in
  sInit (scS c) = false /\ scOn c = true /\ ex_log <> [] /\ Forall (fun e => swf (eP e) /\ skeys (eP e) = skeys ex_min) ex_log /\
  (exists s', fill_calls (fun _ _ => 2%nat) ex_min ex_max 3 (scS c) ex_log = Ok s') /\
  (exists c', chain_calls true (fun _ _ => 2%nat) ex_min ex_max 3 c ex_log = Ok c' /\ scBranches c' = ["a"; "b_c"]%string /\
     scRows c' = Some [mkRw (qz 5) true 0 [1; qz 2]; mkRw (qz 5) false 1 [1; qz 2]; mkRw (qz 7) true 2 [qz 3; qz 4]]) /\
  (exists s1, initHists (fun _ _ => 2%nat) ex_min ex_max 3 (scS c) = Ok s1).
Proof.
  cbv zeta. split; [reflexivity|]. split; [reflexivity|]. split; [discriminate|].
  split; [repeat constructor|]. split; [eexists; vm_compute; reflexivity|]. split; [|eexists; vm_compute; reflexivity].
  eexists. split; [vm_compute; reflexivity|]. split; vm_compute; reflexivity.
Qed.
