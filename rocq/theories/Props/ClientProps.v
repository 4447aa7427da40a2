(** Programs that use a likelihood: C97. *)
From Coq Require Import ZArith Reals.
From Verif Require Import Base.Res Base.Num Base.RNum Base.SMap Model.Axis Model.Event Model.Cut Model.Hist Model.ED Model.Param
  Model.Matrix Model.SystMan Model.Shrink Model.EDMan Model.Fill Model.Constraint Model.NLLH Model.Grid
  Spec.AxisSpec Spec.HistSpec Spec.ParamSpec Spec.EDManSpec Spec.SystManSpec Spec.NLLHSpec Spec.NLLHSysSpec Spec.GridSpec Spec.FitSpec Spec.AsimovSpec Spec.ClientSpec
  Proofs.ClientP Props.AxisProps Props.SystManProps Props.NLLHSysProps Props.FitProps.
From Coq Require Import Lra Lia.
Local Open Scope Qc_scope.

(** C97.  Whatever an optimiser or any other program does with a configured likelihood - setting parameters, reading them back, evaluating any
    number of times, with other fit calls in between, deciding each step by what it has seen -, it ends with the answer it would have got from
    two fixed functions of the parameters: GetParameters and Evaluate of a fresh statistic. *)
Theorem C97_cannot_tell : forall A names par build obs ops D (c : client A), configured names par build obs ops D ->
  let g := fun d => nl_getParams (at_point names par build ops d) in let f := value_at names par build ops in
  proper (fun d => gives_all names par ops d /\ responds names par build ops d) c g f ->
  snd (on_statistic c (nl_register (nlrun (nl_new names par build) ops))) = on_function c g f.
Proof. exact @client_pkg. Qed.
Print Assumptions C97_cannot_tell.

(** a program that moves on to a second point only when the first has a value, with an impossible call in front *)
Definition ex_client : client (res (smap Qc) * res R * res R) :=
  Poke (NPars sempty) (Poke NEval (Look (ex_fp 1 1) 2 (fun q v => match v with
    | Ok x => Poke (NNorms []) (Look (ex_fp (qz 2) 1) 0 (fun _ v' => Stop (q, v, v')))
    | _ => Look (ex_fp 1 1) 0 (fun _ v' => Stop (q, v, v')) end))).
Lemma ex_fon x y : (x = 1 \/ x = qz 2) -> (y = 1 \/ y = qz 2) -> on_grid ex_fg (ex_fp x y).
Proof.
  intros Hx Hy. split; [reflexivity|]. intros k [<-|[<-|[<-|[<-|[]]]]]; cbn.
  - destruct Hx as [-> | ->]; (split; [vm_compute; discriminate|]); [exists 0%nat|exists 1%nat]; apply Qc_is_canon; reflexivity.
  - destruct Hy as [-> | ->]; (split; [vm_compute; discriminate|]); [exists 0%nat|exists 1%nat]; apply Qc_is_canon; reflexivity.
  - split; [vm_compute; discriminate|]. exists 0%nat. apply Qc_is_canon; reflexivity.
  - split; [vm_compute; discriminate|]. exists 0%nat. apply Qc_is_canon; reflexivity.
Qed.
Lemma ex_crun (P : smap Qc -> Prop) g f x y : P (ex_fp 1 1) -> P (ex_fp (qz 2) 1) -> f (ex_fp 1 1) = Ok x -> f (ex_fp (qz 2) 1) = Ok y ->
  proper P ex_client g f /\ on_function ex_client g f = (g (ex_fp 1 1), Ok x, Ok y).
Proof. intros P1 P2 V1 V2. split; cbn [proper on_function ex_client]; rewrite V1; cbn [proper on_function]; [repeat split; auto|rewrite V2; reflexivity]. Qed.
Example C97_nonvacuous : let f := value_at ex_sn ex_sp ex_fb (ex_fops ex_fr1) in let g := fun d => nl_getParams (at_point ex_sn ex_sp ex_fb (ex_fops ex_fr1) d) in
  configured ex_sn ex_sp ex_fb ["x"%string] (ex_fops ex_fr1) (ex_fdat ex_fr1) /\
  proper (fun d => gives_all ex_sn ex_sp (ex_fops ex_fr1) d /\ responds ex_sn ex_sp ex_fb (ex_fops ex_fr1) d) ex_client g f /\
  (exists q v v', on_function ex_client g f = (Ok q, Ok v, Ok v')).
Proof.
  cbv zeta. assert (Hc : ex_fc ex_fr1) by now left. destruct (ex_fhyp _ Hc) as [H1 [H2 [H3 [H4 [H5 [H6 [H7 [H8 [H9 [H10 [H11 H12]]]]]]]]]]].
  assert (P : forall x y, (x = 1 \/ x = qz 2) -> (y = 1 \/ y = qz 2) -> gives_all ex_sn ex_sp (ex_fops ex_fr1) (ex_fp x y) /\ responds ex_sn ex_sp ex_fb (ex_fops ex_fr1) (ex_fp x y)).
  { intros x y Hx Hy. split; [|now apply ex_fresp, ex_fon]. split; [unfold swf; cbn; repeat constructor|]. split; [intros n [<-|[<-|[]]]; eexists; reflexivity|].
    intros q n H. apply ex_fis in H as [-> | ->]; intros [<-|[]]; eexists; reflexivity. }
  split; [repeat (split; [assumption|]); assumption|].
  assert (V1 := ex_fval ex_fr1 1 1 Hc (ex_fon 1 1 (or_introl eq_refl) (or_introl eq_refl))). assert (V2 := ex_fval ex_fr1 (qz 2) 1 Hc (ex_fon (qz 2) 1 (or_intror eq_refl) (or_introl eq_refl))).
  assert (G : exists q, nl_getParams (at_point ex_sn ex_sp ex_fb (ex_fops ex_fr1) (ex_fp 1 1)) = Ok q) by (eexists; vm_compute; reflexivity). destruct G as [q G].
  destruct (ex_crun (fun d => gives_all ex_sn ex_sp (ex_fops ex_fr1) d /\ responds ex_sn ex_sp ex_fb (ex_fops ex_fr1) d) (fun d => nl_getParams (at_point ex_sn ex_sp ex_fb (ex_fops ex_fr1) d)) _ _ _
    (P 1 1 (or_introl eq_refl) (or_introl eq_refl)) (P (qz 2) 1 (or_intror eq_refl) (or_introl eq_refl)) V1 V2) as [X Y].
  split; [exact X|]. eexists q, _, _. rewrite Y. cbv beta. rewrite G. reflexivity.
Qed.
