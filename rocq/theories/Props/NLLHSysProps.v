(** The binned likelihood with systematics: C89. *)
From Coq Require Import ZArith Reals.
From Verif Require Import Base.Res Base.Num Base.RNum Base.SMap Model.Axis Model.Event Model.Cut Model.Hist Model.ED Model.Param
  Model.Matrix Model.SystMan Model.Shrink Model.EDMan Model.Fill Model.Constraint Model.NLLH
  Spec.AxisSpec Spec.HistSpec Spec.ParamSpec Spec.EDManSpec Spec.SystManSpec Spec.NLLHSpec Spec.NLLHSysSpec
  Proofs.NLLHS7 Proofs.NLLHS8 Props.AxisProps Props.SystManProps.
From Coq Require Import Lra Lia.
Local Open Scope Qc_scope.

(** C89.  After any history of calls without buffers (systematics in groups, pdfs, data, parameters, evaluations, failures), with
    the parameters registered after the last systematic and systematics told apart by their names: SetParameters gives every
    normalisation and every systematic its value, and every evaluation, however often repeated, is the Poisson sum for the
    expectation obtained by letting the systematics of each pdf act on it in order. *)
Theorem C89_value : forall names par build obs ops d D, let pdfs := NLLHSpec.added ops in let nbins := hNBins (bdHist D) in
  (forall q, comp_ok (par q)) -> Forall (steady obs) ops -> registered ops -> distinct_names names ops -> bb_in ops = false ->
  data_in ops = Some D -> h_reach (bdHist D) -> NoDup (fitted pdfs) -> direct_first pdfs -> covers D pdfs -> swf d ->
  (forall n, In n (fitted pdfs) -> has_key d n) ->
  (forall q n, is_sys names ops q -> ~ is_dict (par q) -> In n (c_names (par q)) -> has_key d n) ->
  exists s p, nl_setParams (nlrun (nl_new names par build) ops) d = (s, Ok tt) /\
    (forall q n v, is_sys names ops q -> In n (c_names (par q)) -> sfind n d = Some v -> c_get (nlPar s q) n = Ok v) /\
    let M := fun q => fst (build q (nlPar s q)) in
    (forall q, is_sys names ops q -> snd (build q (nlPar s q)) = Ok tt) -> fits names ops M pdfs ->
    forall m, let s' := nlrun s (repeat NEval m) in
    nl_getParams s' = Ok p /\
    (forall n v, sfind n d = Some v -> In n (fitted pdfs) \/ (exists q, is_sys names ops q /\ In n (c_names (par q))) -> sfind n p = Some v) /\
    ((forall q, is_sys names ops q -> ~ is_dict (par q)) -> forall n v, sfind n p = Some v ->
       sfind n d = Some v /\ (In n (fitted pdfs) \/ exists q, is_sys names ops q /\ In n (c_names (par q)))) /\
    ((exists k, (k < nbins)%nat /\ expected_sys names ops M d pdfs k = 0) -> snd (nl_eval s') = Throw std_runtime_error) /\
    (forall c, (forall k, (k < nbins)%nat -> 0 < expected_sys names ops M d pdfs k) -> cman_eval (con_in ops) p = Ok c ->
       snd (nl_eval s') = Ok (rsum (map (fun k => poisson_nll (qr (cont (bdHist D) k)) (qr (expected_sys names ops M d pdfs k))) (seq 0 nbins)) + qr c)%R).
Proof. exact value_sys_pkg. Qed.
Print Assumptions C89_value.

Definition ex_sn (q : nat) : string := match q with 0 => "stretch" | _ => "swap" end%nat%string.
Definition ex_sp (q : nat) : comp := match q with 0%nat => CSingle "st" 1 | _ => CSingle "sw" 0 end.
Definition ex_sb (q : nat) (c : comp) : smat * res unit :=
  match c with
  | CSingle _ v => match q with 0%nat => (m22 v 0 0 (qz 2), Ok tt) | _ => (m22 (1 - v) v v (1 - v), Ok tt) end
  | _ => (mat_empty, Throw LogicError)
  end.
Definition ex_sd := mkBed "data" (fst (setBinContents (mk_hist (fst (addAxes ac_empty [ex_axis "x" 0 2 2]))) [qz 3; qz 4])) (mk_obsset ["x"%string]).
Definition ex_sv0 := sof [("pdf", 1); ("free", 1); ("st", qz 9); ("sw", 0)]%string.
Definition ex_sops := [NSys 1 "g"; NAdd ex_bed ["g"] None NIndirect; NEval; NSys 0 ""; NReg; NAdd ex_bed' [""] None NIndirect; NSys 1 "";
                       NData ex_sd; NReg; NPars ex_sv0; NEval]%string%nat.
Definition ex_sv := sof [("pdf", 1); ("free", qz 2); ("st", qz 3); ("sw", 1)]%string.
Lemma ex_h2_reach c : h_reach (fst (setBinContents (mk_hist (fst (addAxes ac_empty [ex_axis "x" 0 2 2]))) c)).
Proof. apply hr_setBins, hr_new; [apply ar_adds; [constructor|repeat constructor; apply ex_axis_built; lia]|discriminate]. Qed.
Definition ex_acc : sys_accepted ex_sn ex_sops = [Add 1 "g"; AddDist "pdf" ["g"]; Add 0 ""; AddDist "free" [""]]%string%nat.
Proof. vm_compute. reflexivity. Qed.
Lemma ex_is q : is_sys ex_sn ex_sops q -> q = 0%nat \/ q = 1%nat.
Proof.
  intros [g H]. unfold group_in in H. rewrite ex_acc in H. unfold SystManSpec.added in H. cbn [flat_map app] in H.
  destruct (String.eqb g "g"), (String.eqb g ""); cbn in H; intuition.
Qed.
Definition ex_ss := fst (nl_setParams (nlrun (nl_new ex_sn ex_sp ex_sb) ex_sops) ex_sv).
Example C89_nonvacuous :
  (forall q, comp_ok (ex_sp q)) /\ Forall (steady ["x"%string]) ex_sops /\ registered ex_sops /\ distinct_names ex_sn ex_sops /\ bb_in ex_sops = false /\
  data_in ex_sops = Some ex_sd /\ h_reach (bdHist ex_sd) /\ NLLHSpec.added ex_sops = [(ex_bed, NIndirect); (ex_bed', NIndirect)] /\
  NoDup (fitted (NLLHSpec.added ex_sops)) /\ direct_first (NLLHSpec.added ex_sops) /\ covers ex_sd (NLLHSpec.added ex_sops) /\ swf ex_sv /\
  (forall n, In n (fitted (NLLHSpec.added ex_sops)) -> has_key ex_sv n) /\
  (forall q n, is_sys ex_sn ex_sops q -> ~ is_dict (ex_sp q) -> In n (c_names (ex_sp q)) -> has_key ex_sv n) /\
  acting_on ex_sn ex_sops ex_bed = [0; 1]%nat /\ acting_on ex_sn ex_sops ex_bed' = [0]%nat /\
  (forall q, is_sys ex_sn ex_sops q -> snd (ex_sb q (nlPar ex_ss q)) = Ok tt) /\
  let M := fun q => fst (ex_sb q (nlPar ex_ss q)) in
  fits ex_sn ex_sops M (NLLHSpec.added ex_sops) /\ (exists c, cman_eval (con_in ex_sops) ex_sv = Ok c /\ c = 0) /\
  expected_sys ex_sn ex_sops M ex_sv (NLLHSpec.added ex_sops) 0 = qz 44 /\ expected_sys ex_sn ex_sops M ex_sv (NLLHSpec.added ex_sops) 1 = qz 43.
Proof.
  split; [intros [|q]; exact I|]. split.
  { repeat (apply Forall_cons; [first [exact I|reflexivity|split; [reflexivity|apply ex_h2_reach]]|]); constructor. }
  split. { exists (firstn 8 ex_sops), (skipn 9 ex_sops). split; [reflexivity|repeat constructor]. }
  split. { intros q q' H H'. apply ex_is in H, H'. destruct H as [-> | ->], H' as [-> | ->]; cbn; congruence. }
  split; [reflexivity|]. split; [reflexivity|]. split; [apply ex_h2_reach|]. split; [reflexivity|].
  split; [repeat constructor; cbn; intuition discriminate|].
  split. { intros i j bi bj. change (NLLHSpec.added ex_sops) with [(ex_bed, NIndirect); (ex_bed', NIndirect)]. destruct j as [|[|[|j]]]; cbn [nth_error]; intros; discriminate. }
  split. { repeat (apply Forall_cons; [split; [apply ex_h2_reach|cbn; lia]|]). constructor. }
  split; [apply sof_gen_wf; apply sempty_wf|]. split; [intros n [<-|[<-|[]]]; eexists; reflexivity|].
  split; [intros q n H _; apply ex_is in H as [-> | ->]; intros [<-|[]]; eexists; reflexivity|].
  assert (A1 : acting_on ex_sn ex_sops ex_bed = [0; 1]%nat) by (vm_compute; reflexivity).
  assert (A2 : acting_on ex_sn ex_sops ex_bed' = [0]%nat) by (vm_compute; reflexivity).
  split; [exact A1|]. split; [exact A2|].
  split; [intros q H; apply ex_is in H as [-> | ->]; vm_compute; reflexivity|]. cbv zeta.
  assert (S0 : sized 2 (fst (ex_sb 0 (nlPar ex_ss 0)))) by (split; vm_compute; reflexivity).
  assert (S1 : sized 2 (fst (ex_sb 1 (nlPar ex_ss 1)))) by (split; vm_compute; reflexivity).
  split. { split.
    - intros g. exists 2%nat. apply Forall_forall. intros q Hq. assert (H : is_sys ex_sn ex_sops q) by (exists g; exact Hq). apply ex_is in H as [-> | ->]; assumption.
    - intros p [<-|[<-|[]]]; cbn [fst]; rewrite ?A1, ?A2; repeat constructor; assumption. }
  split; [eexists; split; [vm_compute; reflexivity|]; apply Qc_is_canon; vm_compute; reflexivity|].
  split; unfold expected_sys, responded; change (NLLHSpec.added ex_sops) with [(ex_bed, NIndirect); (ex_bed', NIndirect)]; cbn [map fst]; rewrite A1, A2; apply Qc_is_canon; vm_compute; reflexivity.
Qed.

(** without distinct names, or without registering again, the claim fails: SetParameters is accepted but a systematic keeps its old value *)
Theorem C89_same_name_refuted : exists names par build ops d s q n v w,
  (forall q, comp_ok (par q)) /\ Forall (steady ["x"%string]) ops /\ registered ops /\ bb_in ops = false /\ swf d /\
  nl_setParams (nlrun (nl_new names par build) ops) d = (s, Ok tt) /\
  is_sys names ops q /\ In n (c_names (par q)) /\ sfind n d = Some v /\ c_get (nlPar s q) n = Ok w /\ w <> v.
Proof.
  exists (fun _ => "same"%string), ex_sp, ex_sb, [NSys 0 "g"; NSys 1 "h"; NReg]%string%nat, (sof [("st", qz 3); ("sw", 1)]%string).
  eexists. exists 1%nat, "sw"%string, 1, 0. split; [intros [|q]; exact I|]. split; [repeat constructor|].
  split; [exists [NSys 0 "g"; NSys 1 "h"]%string%nat, []; split; [reflexivity|constructor]|]. split; [reflexivity|].
  split; [apply sof_gen_wf; apply sempty_wf|]. split; [vm_compute; reflexivity|]. split; [exists "h"%string; vm_compute; auto|].
  split; [now left|]. split; [reflexivity|]. split; [vm_compute; reflexivity|]. intros C. apply (f_equal (fun q => this q)) in C. vm_compute in C. discriminate.
Qed.
Print Assumptions C89_same_name_refuted.
Theorem C89_late_refuted : exists names par build ops d s q n v w,
  (forall q, comp_ok (par q)) /\ Forall (steady ["x"%string]) ops /\ In NReg ops /\ distinct_names names ops /\ bb_in ops = false /\ swf d /\
  nl_setParams (nlrun (nl_new names par build) ops) d = (s, Ok tt) /\
  is_sys names ops q /\ In n (c_names (par q)) /\ sfind n d = Some v /\ c_get (nlPar s q) n = Ok w /\ w <> v.
Proof.
  exists ex_sn, ex_sp, ex_sb, [NReg; NSys 0 "g"]%string%nat, (sof [("st", qz 3)]%string).
  eexists. exists 0%nat, "st"%string, (qz 3), 1. split; [intros [|q]; exact I|]. split; [repeat constructor|].
  split; [now left|]. split. { intros q q' [g H] [g' H'] _. unfold group_in, SystManSpec.added in H, H'. change (sys_accepted ex_sn [NReg; NSys 0 "g"%string]) with [Add 0 "g"%string] in H, H'. cbn [flat_map app] in H, H'.
    destruct (String.eqb g "g"), (String.eqb g' "g"); cbn in H, H'; intuition congruence. }
  split; [reflexivity|]. split; [apply sof_gen_wf; apply sempty_wf|]. split; [vm_compute; reflexivity|]. split; [exists "g"%string; vm_compute; auto|].
  split; [now left|]. split; [reflexivity|]. split; [vm_compute; reflexivity|]. intros C. apply (f_equal (fun q => this q)) in C. vm_compute in C. discriminate.
Qed.
Print Assumptions C89_late_refuted.

(** C90.  Once configured, the statistic is a function of the parameters: whatever was set, evaluated, registered or normalised before
    and however often it is evaluated, setting the same parameters gives the same GetParameters and the same outcome of Evaluate
    (value, error or not a number). *)
Theorem C90_function : forall names par build obs ops ts d D m m', let pdfs := NLLHSpec.added ops in
  (forall q, comp_ok (par q) /\ ~ is_dict (par q)) -> (forall q c c', comp_ok c -> comp_ok c' -> same_params c c' -> build q c = build q c') ->
  Forall (steady obs) ops -> registered ops -> distinct_names names ops -> bb_in ops = false ->
  data_in ops = Some D -> h_reach (bdHist D) -> NoDup (fitted pdfs) -> direct_first pdfs -> covers D pdfs -> swf d ->
  (forall n, In n (fitted pdfs) -> has_key d n) -> (forall q n, is_sys names ops q -> In n (c_names (par q)) -> has_key d n) -> Forall tuning ts ->
  exists s1 s2, nl_setParams (nlrun (nl_new names par build) ops) d = (s1, Ok tt) /\ nl_setParams (nlrun (nl_new names par build) (ops ++ ts)) d = (s2, Ok tt) /\
    ((forall q, is_sys names ops q -> snd (build q (nlPar s1 q)) = Ok tt) -> fits names ops (fun q => fst (build q (nlPar s1 q))) pdfs ->
     let e1 := nlrun s1 (repeat NEval m) in let e2 := nlrun s2 (repeat NEval m') in
     nl_getParams e2 = nl_getParams e1 /\ snd (nl_eval e2) = snd (nl_eval e1)).
Proof. exact function_pkg. Qed.
Print Assumptions C90_function.
(** every outcome, including a negative expectation or a failing constraint *)
Theorem C90_outcome : forall names par build obs ops d D, let pdfs := NLLHSpec.added ops in let nbins := hNBins (bdHist D) in
  (forall q, comp_ok (par q)) -> Forall (steady obs) ops -> registered ops -> distinct_names names ops -> bb_in ops = false ->
  data_in ops = Some D -> h_reach (bdHist D) -> NoDup (fitted pdfs) -> direct_first pdfs -> covers D pdfs -> swf d ->
  (forall n, In n (fitted pdfs) -> has_key d n) ->
  (forall q n, is_sys names ops q -> ~ is_dict (par q) -> In n (c_names (par q)) -> has_key d n) ->
  exists s p, nl_setParams (nlrun (nl_new names par build) ops) d = (s, Ok tt) /\
    (forall q, comp_ok (nlPar s q) /\ (~ is_dict (par q) -> forall n, In n (c_names (nlPar s q)) <-> In n (c_names (par q)))) /\
    (forall q n v, is_sys names ops q -> In n (c_names (par q)) -> sfind n d = Some v -> c_get (nlPar s q) n = Ok v) /\
    let M := fun q => fst (build q (nlPar s q)) in
    (forall q, is_sys names ops q -> snd (build q (nlPar s q)) = Ok tt) -> fits names ops M pdfs ->
    forall m, let s' := nlrun s (repeat NEval m) in
    nl_getParams s' = Ok p /\ swf p /\
    (forall n v, sfind n d = Some v -> In n (fitted pdfs) \/ (exists q, is_sys names ops q /\ In n (c_names (par q))) -> sfind n p = Some v) /\
    ((forall q, is_sys names ops q -> ~ is_dict (par q)) -> forall n v, sfind n p = Some v ->
       sfind n d = Some v /\ (In n (fitted pdfs) \/ exists q, is_sys names ops q /\ In n (c_names (par q)))) /\
    snd (nl_eval s') = outcome (cont (bdHist D)) (expected_sys names ops M d pdfs) nbins (cman_eval (con_in ops) p).
Proof. exact value_sys_tot. Qed.
Print Assumptions C90_outcome.
Definition ex_fb (q : nat) (c : comp) : smat * res unit :=
  match q with
  | 0%nat => match c_get c "st" with Ok v => (m22 v 0 0 (qz 2), Ok tt) | _ => (mat_empty, Throw LogicError) end
  | _ => match c_get c "sw" with Ok v => (m22 (1 - v) v v (1 - v), Ok tt) | _ => (mat_empty, Throw LogicError) end
  end.
Definition ex_ts := [NPars (sof [("pdf", qz 7); ("free", 0); ("st", 0); ("sw", 0)]%string); NEval; NPars (sof [("st", 1)]%string); NReg; NNorms [1; 1]; NEval].
Definition ex_s1 := fst (nl_setParams (nlrun (nl_new ex_sn ex_sp ex_fb) ex_sops) ex_sv).
Example C90_nonvacuous :
  (forall q, comp_ok (ex_sp q) /\ ~ is_dict (ex_sp q)) /\ (forall q c c', comp_ok c -> comp_ok c' -> same_params c c' -> ex_fb q c = ex_fb q c') /\ Forall tuning ex_ts /\
  (forall q n, is_sys ex_sn ex_sops q -> In n (c_names (ex_sp q)) -> has_key ex_sv n) /\
  (forall q, is_sys ex_sn ex_sops q -> snd (ex_fb q (nlPar ex_s1 q)) = Ok tt) /\ fits ex_sn ex_sops (fun q => fst (ex_fb q (nlPar ex_s1 q))) (NLLHSpec.added ex_sops).
Proof.
  split; [intros [|q]; (split; [exact I|intros []])|]. split; [intros [|q] c c' _ _ H; unfold ex_fb; now rewrite (H _)|]. split; [repeat constructor|].
  split; [intros q n H; apply ex_is in H as [-> | ->]; intros [<-|[]]; eexists; reflexivity|].
  split; [intros q H; apply ex_is in H as [-> | ->]; vm_compute; reflexivity|].
  assert (A1 : acting_on ex_sn ex_sops ex_bed = [0; 1]%nat) by (vm_compute; reflexivity).
  assert (A2 : acting_on ex_sn ex_sops ex_bed' = [0]%nat) by (vm_compute; reflexivity).
  assert (S0 : sized 2 (fst (ex_fb 0 (nlPar ex_s1 0)))) by (split; vm_compute; reflexivity).
  assert (S1 : sized 2 (fst (ex_fb 1 (nlPar ex_s1 1)))) by (split; vm_compute; reflexivity).
  split.
  - intros g. exists 2%nat. apply Forall_forall. intros q Hq. assert (H : is_sys ex_sn ex_sops q) by (exists g; exact Hq). apply ex_is in H as [-> | ->]; assumption.
  - intros p [<-|[<-|[]]]; cbn [fst]; rewrite ?A1, ?A2; repeat constructor; assumption.
Qed.
(** a systematic that takes over every entry of the dictionary it is given (C18) remembers names that are not its own *)
Theorem C90_dict_refuted : exists names par build ops ts d s1 s2,
  (forall q, comp_ok (par q)) /\ Forall (steady ["x"%string]) ops /\ registered ops /\ distinct_names names ops /\ Forall tuning ts /\ swf d /\
  nl_setParams (nlrun (nl_new names par build) ops) d = (s1, Ok tt) /\ nl_setParams (nlrun (nl_new names par build) (ops ++ ts)) d = (s2, Ok tt) /\
  nl_getParams s2 <> nl_getParams s1.
Proof.
  exists ex_sn, (fun _ => CDict (sof [("st", 1)]%string)), (fun _ _ => (m22 1 0 0 1, Ok tt)), [NSys 0 "g"; NReg]%string%nat, [NPars (sof [("st", 1); ("z", 1)]%string)], (sof [("st", qz 3)]%string).
  eexists. eexists. split; [intros q; apply sof_gen_wf; apply sempty_wf|]. split; [repeat constructor|].
  split; [exists [NSys 0 "g"%string]%nat, []; split; [reflexivity|constructor]|]. split.
  { intros q q' [g H] [g' H'] _. unfold group_in, SystManSpec.added in H, H'. change (sys_accepted ex_sn [NSys 0 "g"%string; NReg]) with [Add 0 "g"%string] in H, H'. cbn [flat_map app] in H, H'.
    destruct (String.eqb g "g"), (String.eqb g' "g"); cbn in H, H'; intuition congruence. }
  split; [repeat constructor|]. split; [apply sof_gen_wf; apply sempty_wf|]. split; [vm_compute; reflexivity|]. split; [vm_compute; reflexivity|].
  intros C. vm_compute in C. discriminate.
Qed.
Print Assumptions C90_dict_refuted.
