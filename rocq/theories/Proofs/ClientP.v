From Coq Require Import ZArith Reals Lia.
From Verif Require Import Base.Res Base.Num Base.RNum Base.SMap Model.Axis Model.Event Model.Cut Model.Hist Model.ED Model.Param Model.Matrix Model.SystMan Model.Shrink Model.EDMan
  Model.Fill Model.Constraint Model.NLLH Spec.AxisSpec Spec.HistSpec Spec.ParamSpec Spec.EDManSpec Spec.SystManSpec Spec.NLLHSpec Spec.NLLHSysSpec Spec.FitSpec Spec.AsimovSpec Spec.ClientSpec
  Proofs.NLLHS8 Proofs.FitP2 Proofs.AsimovP.

Lemma any_point names par build obs ops D d ts k : configured names par build obs ops D -> gives_all names par ops d -> responds names par build ops d -> Forall tuning ts ->
  let B := nlrun (nl_new names par build) (ops ++ [NReg]) in
  let e := nlrun (fst (nl_setParams (nlrun B ts) d)) (repeat NEval k) in
  nl_getParams e = nl_getParams (at_point names par build ops d) /\ snd (nl_eval e) = value_at names par build ops d.
Proof.
  cbv zeta. intros C [W [Hk Hks]] [R1 [R2 R3]] T. destruct C as [Hpar [HB [F [Hdn [Hbb [Hdat [HD [Hnd [Hdf Hcov]]]]]]]]].
  destruct (reg_app ops) as [Ta [Td [Tc [Tb [Tr [Tf Tn]]]]]]. destruct (Tn names) as [Gi [Is Ao]].
  destruct (function_pkg names par build obs (ops ++ [NReg]) ts d D 0 k) as [s1 [s2 [E1 [E2 E3]]]]; rewrite ?Ta, ?Tb, ?Td; auto.
  - intros q q' H H'. apply Hdn; now apply Is.
  - intros q n H H'. eapply Hks; [apply Is; exact H|exact H'].
  - rewrite nlrun_app in E2. rewrite E2. cbn [fst]. assert (Ea : at_point names par build ops d = s1) by (unfold at_point; now rewrite E1).
    rewrite Ea in R1, R2, R3. cbv zeta in E3. rewrite Ta in E3. destruct E3 as [X Y]; [intros q H; apply R1; now apply Is| |].
    + split; [intros h; rewrite Gi; apply R2|]. intros b Hb. rewrite Ao. now apply R3.
    + unfold value_at. rewrite Ea. cbn [repeat nlrun fold_left] in X, Y. auto.
Qed.
Lemma evals_tuning n : Forall tuning (repeat NEval n).
Proof. induction n; cbn; constructor; auto. exact I. Qed.
Lemma client_run {A} names par build obs ops D (c : client A) : configured names par build obs ops D ->
  let g := fun d => nl_getParams (at_point names par build ops d) in let f := value_at names par build ops in
  proper (fun d => gives_all names par ops d /\ responds names par build ops d) c g f ->
  forall ts, Forall tuning ts -> snd (on_statistic c (nlrun (nl_new names par build) ((ops ++ [NReg]) ++ ts))) = on_function c g f.
Proof.
  cbv zeta. intros C. induction c as [a|d n k IH|o c IH]; intros P ts T; cbn [proper on_statistic on_function] in *; [reflexivity| |].
  - destruct P as [[G R] P]. destruct (any_point names par build obs ops D d ts n C G R T) as [E1 E2]. cbv zeta in E1, E2. rewrite nlrun_app, E1, E2.
    pose proof (IH _ _ P (ts ++ [NPars d] ++ repeat NEval n ++ [NEval])) as X. rewrite <- X.
    + f_equal. f_equal. rewrite !nlrun_app. reflexivity.
    + apply Forall_app. split; [exact T|]. apply Forall_app. split; [repeat constructor|]. apply Forall_app. split; [apply evals_tuning|repeat constructor].
  - destruct P as [To P]. rewrite <- (IH P (ts ++ [o])).
    + rewrite !nlrun_app. reflexivity.
    + apply Forall_app. split; [exact T|]. constructor; [exact To|constructor].
Qed.
Lemma client_pkg {A} names par build obs ops D (c : client A) : configured names par build obs ops D ->
  let g := fun d => nl_getParams (at_point names par build ops d) in let f := value_at names par build ops in
  proper (fun d => gives_all names par ops d /\ responds names par build ops d) c g f ->
  snd (on_statistic c (nl_register (nlrun (nl_new names par build) ops))) = on_function c g f.
Proof.
  cbv zeta. intros C P. rewrite <- (client_run names par build obs ops D c C P [] (Forall_nil _)). rewrite app_nil_r, nlrun_app. reflexivity.
Qed.
