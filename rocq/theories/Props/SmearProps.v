(** C84 *)
From Coq Require Import ZArith.
From Verif Require Import Base.Res Base.Num Base.SMap Model.Axis Model.Event Model.Hist Model.Gauss Model.Smear Spec.CutSpec Spec.FillSpec Spec.GaussSpec Spec.SmearSpec
  Proofs.CutP Proofs.GaussP Proofs.SmearP Props.CutProps.
Local Open Scope Qc_scope.
Local Open Scope res_scope.

(** one event after the other, each moved by one draw of the kernel at its own values; the draws of earlier events do not matter *)
Theorem C84_smear (gaus : nat -> Qc -> Qc -> Qc) (c : cpdf) (es : list event) (s : evconv) (k : nat) :
  ecDist s = Some c -> kernel_ok c -> osNames (ecOut s) <> [] -> Forall (smearable c (osNames (ecOut s))) es ->
  exists s' es', ec_run gaus s k es = Ok (s', (k + List.length es)%nat, es') /\ List.length es' = List.length es /\ same_results gaus s s' /\
    forall i e e', nth_error es i = Some e -> nth_error es' i = Some e' -> smeared gaus c (osNames (ecOut s)) (k + i) e e'.
Proof. exact (run_pkg gaus c es s k). Qed.
Print Assumptions C84_smear.
Theorem C84_errors (gaus : nat -> Qc -> Qc -> Qc) (s : evconv) (k : nat) (e : event) :
  (ecDist s = None -> ec_apply gaus s k e = Throw NULLPointerAccessError) /\
  (forall c, ecDist s = Some c -> osNames (ecOut s) = [] -> ec_apply gaus s k e = Throw std_out_of_range) /\
  (forall c a n b vals, ecDist s = Some c -> osNames (ecOut s) = a ++ n :: b -> values a e vals -> lacks e n -> ec_apply gaus s k e = Throw NotFoundError).
Proof. exact (errors_pkg gaus s k e). Qed.
Print Assumptions C84_errors.
(** the kernel is a copy of the pdf handed in, which must be one-dimensional; a refused one changes nothing *)
Theorem C84_set_pdf (s : evconv) (f : option gauss) :
  (f = None -> ec_setPDF s f = (ec_withDist s None, Ok tt)) /\
  (forall g, f = Some g -> gND g <> 1%nat -> ec_setPDF s f = (s, Throw DimensionError)) /\
  (forall g, f = Some g -> sized g -> gND g = 1%nat -> exists c, ec_setPDF s f = (ec_withDist s (Some c), Ok tt) /\ kernel_ok c /\
     forall y m sd, draws_with c y m sd <-> m = mean_of g 0 /\ sd = std_of g 0).
Proof. exact (setpdf_pkg s f). Qed.
Print Assumptions C84_set_pdf.
Theorem C84_set_conditional (s : evconv) (c : cpdf) : kernel_ok c ->
  exists c', ec_setCPDF s (Some c) = (ec_withDist s (Some c'), Ok tt) /\ kernel_ok c' /\ forall y m sd, draws_with c' y m sd <-> draws_with c y m sd.
Proof. exact (setcpdf_pkg s c). Qed.
Print Assumptions C84_set_conditional.
(** copies draw alike, but are nameless *)
Theorem C84_copy_partial (s : evconv) (c : cpdf) : ecDist s = Some c -> kernel_ok c ->
  exists s' c', ec_copy s = Ok s' /\ ecDist s' = Some c' /\ kernel_ok c' /\ (forall y m sd, draws_with c' y m sd <-> draws_with c y m sd) /\
  ecIn s' = ecIn s /\ ecOut s' = ecOut s /\ ecName s' = ""%string.
Proof. exact (copy_pkg s c). Qed.
Print Assumptions C84_copy_partial.
(** SetConditionalPDF accepts a kernel of any dimension: one of two dimensions reads past the end of a single value *)
Theorem C84_dimensions_refuted : exists g s1 c, sized g /\ cClone (CJump (Some g)) = Ok c /\
  ec_setCPDF (ec_setOut (ec_new "s") ["energy"%string]) (Some (CJump (Some g))) = (s1, Ok tt) /\ ecDist s1 = Some c /\
  (exists v, has_value (ex_ev 2 3) "energy" v) /\ forall gaus, ec_apply gaus s1 0 (ex_ev 2 3) = UB.
Proof.
  destruct (newGauss [0; 0] [1; 1] "") as [g| | | |] eqn:E; [|vm_compute in E; discriminate..].
  exists g. pose proof (proj1 (newGauss_sized _ _ _ _ E)) as Hs. vm_compute in E. injection E as <-. eexists. eexists. split; [exact Hs|]. split; [reflexivity|]. split; [reflexivity|]. split; [reflexivity|].
  split; [eexists; apply ex_ev_has|]. intros gaus. reflexivity.
Qed.
Print Assumptions C84_dimensions_refuted.
Definition ex_g1 : gauss := mkGauss "gaussian" [0] [1] (qz 6) 1 ["means_0"%string] ["stddevs_0"%string].
Lemma ex_g1_new : newGauss [0] [1] "" = Ok ex_g1.
Proof. reflexivity. Qed.
Definition ex_fns : smap (list Qc -> res Qc) := [("stddevs_0"%string, fun x : list Qc => Ok (nth 0 x 0))].
Lemma ex_fns_ok : swf ex_fns.
Proof. exact (sset_wf "stddevs_0"%string (fun x : list Qc => Ok (nth 0 x 0)) sempty sempty_wf). Qed.
Definition ex_smear : evconv := mkEc (Some (CVary ex_fns (Some ex_g1))) "s"%string (mk_obsset ["radius"%string]) (mk_obsset ["energy"%string]).
(** the input observables are never read: the kernel is evaluated at the observable being smeared *)
Theorem C84_input_observables_refuted : exists fns (g : gauss) (s : evconv), let c := CVary fns (Some g) in
  kernel_ok c /\ ecDist s = Some c /\ osNames (ecIn s) = ["radius"%string] /\ osNames (ecOut s) = ["energy"%string] /\
  sfind "stddevs_0"%string fns = Some (fun x => Ok (nth 0 x 0)) /\
  exists v r, has_value (ex_ev 2 3) "energy" v /\ has_value (ex_ev 2 3) "radius" r /\ v <> r /\
    forall gaus, rmap (fun q => evObs (snd q)) (ec_apply gaus s 0 (ex_ev 2 3)) = Ok [gaus 0%nat 0 v + v; r].
Proof.
  exists ex_fns, ex_g1, ex_smear. cbv zeta.
  split; [split; [exact ex_fns_ok|]; split; [exact (proj1 (newGauss_sized _ _ _ _ ex_g1_new))|reflexivity]|]. split; [reflexivity|]. split; [reflexivity|]. split; [reflexivity|]. split; [reflexivity|].
  destruct (ex_ev_has 2 3) as [A B]. eexists. eexists. split; [exact A|]. split; [exact B|].
  split; [intros C; apply (f_equal (fun q => this q)) in C; vm_compute in C; discriminate|]. intros gaus. reflexivity.
Qed.
Print Assumptions C84_input_observables_refuted.

Example C84_nonvacuous : kernel_ok (CVary ex_fns (Some ex_g1)) /\ ecDist ex_smear = Some (CVary ex_fns (Some ex_g1)) /\ Forall (smearable (CVary ex_fns (Some ex_g1)) (osNames (ecOut ex_smear))) [ex_ev 2 3; ex_ev 5 1] /\
  rmap (fun r => map evObs (snd r)) (ec_run (fun k m sd => m + qn k * sd) ex_smear 1 [ex_ev 2 3; ex_ev 5 1]) = Ok [[qz 4; qz 3]; [qz 15; qz 1]] /\
  lacks (ex_ev 2 3) "mass" /\ sized ex_g1.
Proof.
  assert (Hs : sized ex_g1) by exact (proj1 (newGauss_sized _ _ _ _ ex_g1_new)).
  split; [split; [exact ex_fns_ok|split; [exact Hs|reflexivity]]|]. split; [reflexivity|]. split.
  - repeat constructor; eexists; exists 0; eexists; (split; [apply Forall2_cons; [apply ex_ev_has|constructor]|]); cbn [draws_with]; (split; [|split; [reflexivity|reflexivity]]); intros n f; cbn [ex_fns sfind];
      destruct (String.eqb n "stddevs_0"); try discriminate; intros [= <-]; eauto.
  - split; [vm_compute; repeat f_equal; apply Qc_is_canon; reflexivity|]. split; [|exact Hs]. eexists. split; [reflexivity|]. cbn. intuition discriminate.
Qed.
