(** The binned likelihood whose data have fewer observables than its pdfs: C99. *)
From Coq Require Import ZArith Reals.
From Verif Require Import Base.Res Base.Num Base.RNum Base.SMap Model.Axis Model.Event Model.Cut Model.Hist Model.ED Model.Param
  Model.Matrix Model.SystMan Model.Shrink Model.EDMan Model.Fill Model.Constraint Model.NLLH
  Spec.AxisSpec Spec.HistSpec Spec.HistToolsSpec Spec.ParamSpec Spec.EDManSpec Spec.SystManSpec Spec.NLLHSpec Spec.NLLHSysSpec Spec.ShrinkSpec Spec.BufferSpec Spec.ProjSpec
  Proofs.ProjP4 Props.AxisProps Props.SystManProps Props.BufferProps.
From Coq Require Import Lra Lia.
Local Open Scope Qc_scope.

(** C99.  A statistic set up in any order, with or without systematics, whose data are binned in other observables [dobs]
    than the pdfs (axes of the pdfs, any subset in any order), then used (parameters, evaluations, registration,
    normalisations) in any way: every evaluation, however often repeated, is the Poisson sum over the bins of the data for
    the expectation obtained by letting the systematics of each pdf act on the *whole* pdf and projecting the result on the
    observables of the data. *)
Theorem C99_value : forall names par build obs ops ts d D, let pdfs := NLLHSpec.added ops in let dobs := osNames (bdObs D) in
  (forall q, comp_ok (par q)) -> Forall (setting_pdfs obs) ops -> Forall no_buffer ops -> registered ops -> distinct_names names ops -> bb_in ops = false ->
  data_in ops = Some D -> h_reach (bdHist D) -> obs <> dobs -> (forall b, In b pdfs -> axes_named (hAxes (bdHist (fst b))) dobs (bdHist D)) ->
  NoDup (fitted pdfs) -> direct_first pdfs ->
  (forall q, ~ is_sys names ops q) \/ (forall b, In b pdfs -> regd (bdName (fst b)) (sys_accepted names ops) <> None) ->
  swf d -> (forall n, In n (fitted pdfs) -> has_key d n) ->
  (forall q n, is_sys names ops q -> ~ is_dict (par q) -> In n (c_names (par q)) -> has_key d n) -> Forall tuning ts ->
  exists s p, nl_setParams (nlrun (nl_new names par build) (ops ++ ts)) d = (s, Ok tt) /\
    (forall q n v, is_sys names ops q -> In n (c_names (par q)) -> sfind n d = Some v -> c_get (nlPar s q) n = Ok v) /\
    let M := fun q => fst (build q (nlPar s q)) in
    (forall q, is_sys names ops q -> snd (build q (nlPar s q)) = Ok tt) -> fits names ops M pdfs ->
    exists Pr : bed -> hist, (forall b, In b pdfs -> h_reach (Pr (fst b)) /\ hNBins (Pr (fst b)) = hNBins (bdHist D) /\
        projection (bdHist (with_contents (fst b) (responded names ops M (fst b)))) dobs (Pr (fst b))) /\
    forall m, let s' := nlrun s (repeat NEval m) in
     nl_getParams s' = Ok p /\
     (forall n v, sfind n d = Some v -> In n (fitted pdfs) \/ (exists q, is_sys names ops q /\ In n (c_names (par q))) -> sfind n p = Some v) /\
     snd (nl_eval s') = outcome (cont (bdHist D)) (fun k => qsum (map (fun b => norm_in d b * cont (Pr (fst b)) k) pdfs)) (hNBins (bdHist D)) (cman_eval (con_in ops) p).
Proof. exact project_pkg. Qed.
Print Assumptions C99_value.

(** pdfs over x and y, data over y alone; the systematic exchanges two bins with different y, so it does not commute with the projection *)
Definition ex_j2 (n : string) (c : list Qc) := mkBed n (fst (setBinContents (mk_hist (fst (addAxes ac_empty [ex_axis "x" 0 2 2; ex_axis "y" 0 2 2]))) c)) (mk_obsset ["x"; "y"]%string).
Definition ex_ja := ex_j2 "a" [1; qz 2; qz 3; qz 4].
Definition ex_jb := ex_j2 "b" [qz 5; qz 6; qz 7; qz 8].
Definition ex_jD := mkBed "data" (fst (setBinContents (mk_hist (fst (addAxes ac_empty [ex_axis "y" 0 2 2]))) [qz 9; qz 10])) (mk_obsset ["y"%string]).
Definition ex_jops := [NSys 0 "g"; NData ex_jD; NAdd ex_ja ["g"] None NIndirect; NAdd ex_jb ["g"] None NIndirect; NReg]%string%nat.
Definition ex_js := fst (nl_setParams (nlrun (nl_new ex_bfn ex_bfp ex_bfbu) (ex_jops ++ ex_bfts)) ex_bfd).
Definition ex_jM := fun q => fst (ex_bfbu q (nlPar ex_js q)).
Definition ex_jr (b : bed) := with_contents b (responded ex_bfn ex_jops ex_jM b).
Definition ex_jp (b : bed) : list Qc := match bed_marginalise (ex_jr b) ["y"%string] with Ok r => hCont (bdHist r) | _ => [] end.
Lemma ex_j2_reach n c : h_reach (bdHist (ex_j2 n c)).
Proof. apply hr_setBins, hr_new; [apply ar_adds; [constructor|repeat constructor; apply ex_axis_built; lia]|discriminate]. Qed.
Lemma ex_jis q : is_sys ex_bfn ex_jops q -> q = 0%nat.
Proof.
  intros [g H]. unfold group_in in H. assert (A : sys_accepted ex_bfn ex_jops = [Add 0 "g"; AddDist "a" ["g"]; AddDist "b" ["g"]]%string%nat) by (vm_compute; reflexivity).
  rewrite A in H. unfold SystManSpec.added in H. cbn [flat_map app] in H. destruct (String.eqb g "g"); cbn in H; intuition.
Qed.
Example C99_nonvacuous : let pdfs := NLLHSpec.added ex_jops in let dobs := osNames (bdObs ex_jD) in
  (forall q, comp_ok (ex_bfp q)) /\ Forall (setting_pdfs ["x"; "y"]%string) ex_jops /\ Forall no_buffer ex_jops /\ registered ex_jops /\ distinct_names ex_bfn ex_jops /\ bb_in ex_jops = false /\
  data_in ex_jops = Some ex_jD /\ h_reach (bdHist ex_jD) /\ ["x"; "y"]%string <> dobs /\ (forall b, In b pdfs -> axes_named (hAxes (bdHist (fst b))) dobs (bdHist ex_jD)) /\
  NoDup (fitted pdfs) /\ direct_first pdfs /\ pdfs = [(ex_ja, NIndirect); (ex_jb, NIndirect)] /\ (exists q, is_sys ex_bfn ex_jops q) /\
  (forall b, In b pdfs -> regd (bdName (fst b)) (sys_accepted ex_bfn ex_jops) <> None) /\
  swf ex_bfd /\ (forall n, In n (fitted pdfs) -> has_key ex_bfd n) /\
  (forall q n, is_sys ex_bfn ex_jops q -> ~ is_dict (ex_bfp q) -> In n (c_names (ex_bfp q)) -> has_key ex_bfd n) /\ Forall tuning ex_bfts /\
  (forall q, is_sys ex_bfn ex_jops q -> snd (ex_bfbu q (nlPar ex_js q)) = Ok tt) /\ fits ex_bfn ex_jops ex_jM pdfs /\
  (** first the systematic, then the projection *)
  qlist_eqb (hCont (bdHist (ex_jr ex_ja))) [qz 2; 1; qz 3; qz 4] = true /\
  qlist_eqb (ex_jp ex_ja) [qz 5; qz 5] = true /\ qlist_eqb (ex_jp ex_jb) [qz 13; qz 13] = true.
Proof.
  cbv zeta. assert (P : NLLHSpec.added ex_jops = [(ex_ja, NIndirect); (ex_jb, NIndirect)]) by reflexivity.
  split; [intros q; exact I|]. split.
  { repeat (apply Forall_cons; [first [exact I|reflexivity|split; [reflexivity|apply ex_j2_reach]]|]); constructor. }
  split; [repeat constructor|].
  split. { exists (firstn 4 ex_jops), []. split; [reflexivity|repeat constructor]. }
  split. { intros q q' H H' _. apply ex_jis in H, H'. congruence. }
  split; [reflexivity|]. split; [reflexivity|].
  split. { apply hr_setBins, hr_new; [apply ar_adds; [constructor|repeat constructor; apply ex_axis_built; lia]|discriminate]. }
  split; [discriminate|]. split. { rewrite P. intros b [<-|[<-|[]]]; (constructor; [split; [right; left; reflexivity|reflexivity]|constructor]). }
  split; [repeat constructor; cbn; intuition discriminate|].
  split. { rewrite P. intros i j bi bj. destruct i as [|[|[|i]]], j as [|[|[|j]]]; cbn [nth_error]; intros; first [discriminate|lia|congruence]. }
  split; [exact P|]. split. { exists 0%nat, "g"%string. vm_compute. auto. }
  split. { rewrite P. intros b [<-|[<-|[]]]; vm_compute; discriminate. }
  split; [apply sof_gen_wf; apply sempty_wf|]. split; [intros n [<-|[<-|[]]]; eexists; reflexivity|].
  split; [intros q n H _; apply ex_jis in H as ->; intros [<-|[]]; eexists; reflexivity|].
  split; [repeat constructor|]. split; [intros q H; apply ex_jis in H as ->; vm_compute; reflexivity|].
  assert (S0 : sized 4 (ex_jM 0)) by (split; vm_compute; reflexivity).
  assert (A1 : acting_on ex_bfn ex_jops ex_ja = [0]%nat) by (vm_compute; reflexivity).
  assert (A2 : acting_on ex_bfn ex_jops ex_jb = [0]%nat) by (vm_compute; reflexivity).
  split. { split.
    - intros g. exists 4%nat. apply Forall_forall. intros q Hq. assert (H : is_sys ex_bfn ex_jops q) by (exists g; exact Hq). apply ex_jis in H as ->; assumption.
    - rewrite P. intros p [<-|[<-|[]]]; cbn [fst]; rewrite ?A1, ?A2; repeat constructor; assumption. }
  repeat split; vm_compute; reflexivity.
Qed.

(** projection and buffers together: the bins of the projected pdf are compared with those of the original, so that the
    statistic cannot be evaluated *)
Theorem C99_buffers_refuted : exists ops d D, Forall (setting_pdfs ["x"; "y"]%string) ops /\ data_in ops = Some D /\ osNames (bdObs D) = ["y"%string] /\
  (forall b, In b (NLLHSpec.added ops) -> axes_named (hAxes (bdHist (fst b))) ["y"%string] (bdHist D)) /\ registered ops /\
  Forall (fun a => (lower (buffers ops) a + upper (buffers ops) a < aNBins a)%nat) (acAxes (hAxes (bdHist D))) /\
  snd (nl_setParams (nlrun (nl_new ex_bfn ex_bfp ex_bfbu) ops) d) = Ok tt /\
  let s := fst (nl_setParams (nlrun (nl_new ex_bfn ex_bfp ex_bfbu) ops) d) in
  snd (nl_eval s) = Throw DimensionError /\ snd (nl_eval (fst (nl_eval s))) = Throw DimensionError.
Proof.
  exists [NBuffer "y" 1 0; NData ex_jD; NAdd ex_ja [""%string] None NIndirect; NReg]%string%Z, (sof [("a", qz 2)]%string), ex_jD.
  split. { repeat (apply Forall_cons; [first [exact I|reflexivity|split; [reflexivity|apply ex_j2_reach]]|]); constructor. }
  split; [reflexivity|]. split; [reflexivity|]. split. { intros b [<-|[]]; (constructor; [split; [right; left; reflexivity|reflexivity]|constructor]). }
  split. { exists [NBuffer "y" 1 0; NData ex_jD; NAdd ex_ja [""%string] None NIndirect]%string%Z, []. split; [reflexivity|repeat constructor]. }
  split. { apply Forall_cons; [|constructor]. vm_compute; lia. }
  split; [vm_compute; reflexivity|].
  split; vm_compute; reflexivity.
Qed.
Print Assumptions C99_buffers_refuted.
