(** Joint fits: C113. *)
From Coq Require Import ZArith Reals.
From Verif Require Import Base.Res Base.Num Base.RNum Base.SMap Model.Axis Model.Event Model.Cut Model.Hist Model.ED Model.Param
  Model.Matrix Model.SystMan Model.Shrink Model.EDMan Model.Fill Model.Constraint Model.NLLH Model.Grid Model.Sum
  Spec.AxisSpec Spec.HistSpec Spec.ParamSpec Spec.EDManSpec Spec.SystManSpec Spec.NLLHSpec Spec.NLLHSysSpec Spec.GridSpec Spec.FitSpec Spec.AsimovSpec Spec.ClientSpec Spec.JointSpec
  Proofs.JointP Props.AxisProps Props.SystManProps Props.NLLHSysProps Props.FitProps Props.ClientProps.
From Coq Require Import Lra Lia.
Local Open Scope Qc_scope.

(** C113.  A joint fit: any number of experiments, each with its own configured binned likelihood, summed by a StatisticSum with constraints of its
    own.  Whatever an optimiser or any other program does with the registered sum - setting parameters, reading them back, evaluating any number
    of times, making other calls on the sum or on one of the likelihoods in between, deciding each step by what it has seen -, it ends with the
    answer it would have got from two fixed functions of the parameters it set last: g, which keeps of them what belongs to some experiment, and
    the total of what each experiment's likelihood alone gives there and of the constraints at g. *)
Theorem C113_joint_fit : forall A exps s l c (cl : jclient A) g h, (forall q, In q l -> jgood (exps q)) ->
  h s = Some (TSum l c) -> (forall q, In q l -> h q = Some (TLeaf (jstart (exps q)))) ->
  let P := fun d => forall q, In q l -> jpoint (exps q) d in
  let f := fun d => all_of (map (fun q => jvalue (exps q) d) l ++ [as_real (bind (g d) (cman_eval c))]) in
  picks exps l P g -> jproper l P cl g f ->
  forall fuel, (2 <= fuel)%nat -> on_sum fuel s cl (fst (ts_reg nl_tsops fuel h s)) = on_functions cl g f.
Proof. exact @joint_pkg. Qed.
Print Assumptions C113_joint_fit.

(** the same axes, pdfs and systematics, two data sets; a constraint on "free" in the sum *)
Definition ex_jexp (q : nat) : jexp := let r := match q with 1%nat => ex_fr1 | _ => ex_fr0 end in mkJ ex_sn ex_sp ex_fb ["x"%string] (ex_fops r) (ex_fdat r).
Definition ex_jc : cman := fst (set_single cman_new "free"%string (mk_quad 1 1)).
Definition ex_jh : theap nllh := fun p => match p with 0 => Some (TSum [2; 1] ex_jc) | 1 => Some (TLeaf (jstart (ex_jexp 1))) | 2 => Some (TLeaf (jstart (ex_jexp 2))) | _ => None end%nat.
Definition ex_jclient : jclient (res R * res R) :=
  JPoke (JSet sempty) (JPoke JEval (JLook (ex_fp 1 1) 2 (fun _ v => match v with
    | Ok _ => JPoke (JOne 1 (NPars (ex_fp (qz 2) (qz 2)))) (JPoke (JOne 2 NEval) (JPoke JReg (JLook (ex_fp (qz 2) 1) 0 (fun _ v' => JStop (v, v')))))
    | _ => JStop (v, v) end))).
Definition ex_jg (d : smap Qc) : res (smap Qc) := nl_getParams (at_point ex_sn ex_sp ex_fb (ex_fops ex_fr1) d).
Lemma ex_jgood r : ex_fc r -> configured ex_sn ex_sp ex_fb ["x"%string] (ex_fops r) (ex_fdat r).
Proof. intros Hc. destruct (ex_fhyp _ Hc) as [H1 [H2 [H3 [H4 [H5 [H6 [H7 [H8 [H9 [H10 _]]]]]]]]]]. repeat (split; [assumption|]); assumption. Qed.
Lemma ex_jfc q : ex_fc (match q with 1%nat => ex_fr1 | _ => ex_fr0 end).
Proof. destruct q as [|[|q]]; [right|left|right]; reflexivity. Qed.
Lemma ex_jp r x y : ex_fc r -> (x = 1 \/ x = qz 2) -> (y = 1 \/ y = qz 2) ->
  gives_all ex_sn ex_sp (ex_fops r) (ex_fp x y) /\ responds ex_sn ex_sp ex_fb (ex_fops r) (ex_fp x y).
Proof.
  intros Hc Hx Hy. split; [|apply ex_fresp; [exact Hc|now apply ex_fon]]. split; [unfold swf; cbn; repeat constructor|]. split; [intros n [<-|[<-|[]]]; eexists; reflexivity|].
  intros q n H. apply ex_fis in H as [-> | ->]; intros [<-|[]]; eexists; reflexivity.
Qed.
Lemma ex_jpicks : picks ex_jexp [2; 1]%nat (fun d => forall q, In q [2; 1]%nat -> jpoint (ex_jexp q) d) ex_jg.
Proof.
  intros d P. destruct (P 1%nat (or_intror (or_introl eq_refl))) as [G R].
  destruct (get_at ex_sn ex_sp ex_fb ["x"%string] (ex_fops ex_fr1) (ex_fdat ex_fr1) d (ex_jgood _ (or_introl eq_refl)) G R) as [p [E [W F]]].
  exists p. split; [exact E|]. split; [exact W|]. intros n v. rewrite F. split; intros [A B]; (split; [exact A|]).
  - exists 1%nat. split; [right; left; reflexivity|exact B].
  - destruct B as [q [_ B]]. destruct B as [B|[i [B B']]]; [left; destruct q as [|[|q]]; exact B|right; exists i].
    split; [|destruct q as [|[|q]]; exact B']. destruct B as [gr B]. exists gr. unfold group_in in *. change (jNames (ex_jexp q)) with ex_sn in B.
    change (jOps (ex_jexp q)) with (ex_fops (match q with 1%nat => ex_fr1 | _ => ex_fr0 end)) in B. rewrite ex_facc in B |- *. exact B.
Qed.
Lemma ex_jrun l (P : smap Qc -> Prop) g f x y : In 1%nat l -> In 2%nat l -> P (ex_fp 1 1) -> P (ex_fp (qz 2) 1) -> f (ex_fp 1 1) = Ok x -> f (ex_fp (qz 2) 1) = Ok y ->
  jproper l P ex_jclient g f /\ on_functions ex_jclient g f = (Ok x, Ok y).
Proof. intros I1 I2 P1 P2 V1 V2. split; cbn [jproper on_functions ex_jclient]; rewrite V1; cbn [jproper on_functions tuning]; [repeat split; auto|rewrite V2; reflexivity]. Qed.
Lemma ex_jval x y : (x = 1 \/ x = qz 2) -> (y = 1 \/ y = qz 2) -> exists v,
  all_of (map (fun q => jvalue (ex_jexp q) (ex_fp x y)) [2; 1]%nat ++ [as_real (bind (ex_jg (ex_fp x y)) (cman_eval ex_jc))]) = Ok (qr (qz 19 * (x + y)) + (v + qr ((x - 1) * (x - 1) / qz 2)))%R.
Proof.
  intros Hx Hy. assert (G : on_grid ex_fg (ex_fp x y)) by (now apply ex_fon).
  assert (V0 : jvalue (ex_jexp 2) (ex_fp x y) = Ok (qr (qz 19 * (x + y)))).
  { etransitivity; [exact (ex_fval ex_fr0 x y (or_intror eq_refl) G)|]. f_equal. unfold poisson_nll. cbn [seq map rsum fold_right]. change (cont (bdHist (ex_fdat ex_fr0)) 0) with 0. change (cont (bdHist (ex_fdat ex_fr0)) 1) with 0.
    rewrite qr_0. unfold ex_mu. rewrite !qr_plus, !qr_mult, qr_plus, !qr_z. lra. }
  assert (V1 : jvalue (ex_jexp 1) (ex_fp x y) = _) by exact (ex_fval ex_fr1 x y (or_introl eq_refl) G).
  assert (C : bind (ex_jg (ex_fp x y)) (cman_eval ex_jc) = Ok ((x - 1) * (x - 1) / qz 2)).
  { clear - Hx Hy. destruct Hx as [-> | ->], Hy as [-> | ->]; vm_compute; f_equal; apply Qc_is_canon; reflexivity. }
  eexists. cbn [map app all_of]. rewrite V0, V1, C. cbn [as_real rmap bind all_of]. rewrite Rplus_0_r. reflexivity.
Qed.
(** the program above sees 19 (1 + 1) + a + 0 at its first point and 19 (2 + 1) + b + 1/2 at its second, whatever is called in between *)
Example C113_nonvacuous : let P := fun d => forall q, In q [2; 1]%nat -> jpoint (ex_jexp q) d in
  let f := fun d => all_of (map (fun q => jvalue (ex_jexp q) d) [2; 1]%nat ++ [as_real (bind (ex_jg d) (cman_eval ex_jc))]) in
  (forall q, In q [2; 1]%nat -> jgood (ex_jexp q)) /\ picks ex_jexp [2; 1]%nat P ex_jg /\ jproper [2; 1]%nat P ex_jclient ex_jg f /\
  exists a b, on_sum 2 0 ex_jclient (fst (ts_reg nl_tsops 2 ex_jh 0)) = (Ok (qr (qz 38) + a)%R, Ok (qr (qz 57) + b)%R).
Proof.
  cbv zeta. assert (Hg : forall q, In q [2; 1]%nat -> jgood (ex_jexp q)) by (intros q _; exact (ex_jgood _ (ex_jfc q))).
  split; [exact Hg|]. split; [exact ex_jpicks|].
  assert (PP : forall x y, (x = 1 \/ x = qz 2) -> (y = 1 \/ y = qz 2) -> forall q, In q [2; 1]%nat -> jpoint (ex_jexp q) (ex_fp x y)).
  { intros x y Hx Hy q _. exact (ex_jp _ x y (ex_jfc q) Hx Hy). }
  destruct (ex_jval 1 1 (or_introl eq_refl) (or_introl eq_refl)) as [v V]. destruct (ex_jval (qz 2) 1 (or_intror eq_refl) (or_introl eq_refl)) as [v' V'].
  destruct (ex_jrun [2; 1]%nat (fun d => forall q, In q [2; 1]%nat -> jpoint (ex_jexp q) d) ex_jg
    (fun d => all_of (map (fun q => jvalue (ex_jexp q) d) [2; 1]%nat ++ [as_real (bind (ex_jg d) (cman_eval ex_jc))])) _ _
    (or_intror (or_introl eq_refl)) (or_introl eq_refl) (PP 1 1 (or_introl eq_refl) (or_introl eq_refl)) (PP (qz 2) 1 (or_intror eq_refl) (or_introl eq_refl)) V V') as [X Y].
  split; [exact X|]. exists (v + qr ((1 - 1) * (1 - 1) / qz 2))%R, (v' + qr ((qz 2 - 1) * (qz 2 - 1) / qz 2))%R.
  rewrite (C113_joint_fit _ ex_jexp 0 [2; 1]%nat ex_jc ex_jclient ex_jg ex_jh Hg); [|reflexivity| |exact ex_jpicks|exact X|lia].
  - rewrite Y. f_equal; f_equal; f_equal; f_equal; apply Qc_is_canon; reflexivity.
  - intros q [<-|[<-|[]]]; reflexivity.
Qed.
