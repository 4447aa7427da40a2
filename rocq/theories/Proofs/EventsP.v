(** C108: data given as events and data given as their histogram cannot be told apart. *)
From Coq Require Import ZArith Reals Lia Permutation.
From Verif Require Import Base.Res Base.Num Base.RNum Base.SMap Model.Axis Model.Event Model.Cut Model.Hist Model.ED Model.Param Model.Matrix Model.SystMan Model.Shrink Model.EDMan
  Model.Fill Model.Constraint Model.NLLH Spec.AxisSpec Spec.CutSpec Spec.HistSpec Spec.ParamSpec Spec.FillSpec Spec.EDManSpec Spec.SystManSpec Spec.NLLHSpec Spec.NLLHSysSpec Spec.FitSpec Spec.AsimovSpec Spec.ClientSpec Spec.EventsSpec
  Proofs.HistP Proofs.NLLHP6 Proofs.TwinP Proofs.FitP2.
Local Open Scope Qc_scope.
Local Open Scope res_scope.

(** ** the statistic with other events, cuts and log: nothing looks at them once the data are there *)
Section Fr.
Context (ds : option (list event)) (cs : list cut) (lg : cutlog).
Definition fr (s : nllh) : nllh :=
  mkNl (nlPm s) (nlSh s) (nlData s) (nlShrunk s) (nlGen s) (nlBB s) (nlSm s) (nlCm s) (nlReg s) (nlCalc s) ds cs lg (nlPar s) (nlBuild s).
Lemma fr_onPm (f : nllh -> edman -> edman * res unit) : (forall s, f (fr s) = f s) -> comm fr (fun s => nl_onPm s (f s)).
Proof. intros H s. unfold nl_onPm. rewrite H. change (nlPm (fr s)) with (nlPm s). destruct (f s (nlPm s)); reflexivity. Qed.
Lemma fr_shrinkData : comm fr nl_shrinkData.
Proof.
  intros s. unfold nl_shrinkData. change (nlShrunk (fr s)) with (nlShrunk s). destruct (nlShrunk s); [reflexivity|]. change (nlSh (fr s)) with (nlSh s). change (nlData (fr s)) with (nlData s).
  destruct (sh_setBinMap (nlSh s) (nlData s)) as [x [u| | | |]]; cbn [obind fst snd]; try reflexivity. destruct (sh_shrink x (nlData s)); reflexivity.
Qed.
Lemma fr_construct : comm fr nl_construct.
Proof. intros s. unfold nl_construct. change (nlSm (fr s)) with (nlSm s). destruct (sm_construct (nlSm s)); reflexivity. Qed.
Lemma fr_prepare s : nlCalc s = true -> nl_prepare (fr s) = (fr (fst (nl_prepare s)), snd (nl_prepare s)).
Proof.
  intros C. unfold nl_prepare, nl_needData. change (nlCalc (fr s)) with (nlCalc s). rewrite C. cbn [negb]. cbn [chain].
  change (fun s0 : nllh => nl_onPm s0 (em_reassert false)) with (fun s0 : nllh => nl_onPm s0 ((fun _ => em_reassert false) s0)).
  revert s C. change (forall s, nlCalc s = true -> chain (chain (chain (chain (chain ((fun s => nl_onPm s ((fun _ => em_reassert false) s)) (fr s)) nl_shrinkData) nl_construct)
    (fun s1 => nl_onPm s1 (fun p => em_systematics p (nlSm s1)))) (fun s1 => nl_onPm s1 (fun p => em_dimensions p (osNames (bdObs (nlData s1)))))) (fun s1 => nl_onPm s1 (fun p => em_shrink p (nlSh s1))) =
    (fr (fst (chain (chain (chain (chain (chain ((fun s => nl_onPm s ((fun _ => em_reassert false) s)) s) nl_shrinkData) nl_construct)
    (fun s1 => nl_onPm s1 (fun p => em_systematics p (nlSm s1)))) (fun s1 => nl_onPm s1 (fun p => em_dimensions p (osNames (bdObs (nlData s1)))))) (fun s1 => nl_onPm s1 (fun p => em_shrink p (nlSh s1))))),
     snd (chain (chain (chain (chain (chain ((fun s => nl_onPm s ((fun _ => em_reassert false) s)) s) nl_shrinkData) nl_construct)
    (fun s1 => nl_onPm s1 (fun p => em_systematics p (nlSm s1)))) (fun s1 => nl_onPm s1 (fun p => em_dimensions p (osNames (bdObs (nlData s1)))))) (fun s1 => nl_onPm s1 (fun p => em_shrink p (nlSh s1)))))).
  intros s _. apply (comm_chain fr (fun s => chain (chain (chain (chain (nl_onPm s (em_reassert false)) nl_shrinkData) nl_construct)
    (fun s1 => nl_onPm s1 (fun p => em_systematics p (nlSm s1)))) (fun s1 => nl_onPm s1 (fun p => em_dimensions p (osNames (bdObs (nlData s1))))))).
  - apply (comm_chain fr (fun s => chain (chain (chain (nl_onPm s (em_reassert false)) nl_shrinkData) nl_construct) (fun s1 => nl_onPm s1 (fun p => em_systematics p (nlSm s1))))).
    + apply (comm_chain fr (fun s => chain (chain (nl_onPm s (em_reassert false)) nl_shrinkData) nl_construct)).
      * apply (comm_chain fr (fun s => chain (nl_onPm s (em_reassert false)) nl_shrinkData)); [|apply fr_construct].
        apply (comm_chain fr (fun s => nl_onPm s (em_reassert false))); [|apply fr_shrinkData]. apply (fr_onPm (fun _ => em_reassert false)). reflexivity.
      * apply (fr_onPm (fun s p => em_systematics p (nlSm s))). reflexivity.
    + apply (fr_onPm (fun s p => em_dimensions p (osNames (bdObs (nlData s))))). reflexivity.
  - apply (fr_onPm (fun s p => em_shrink p (nlSh s))). reflexivity.
Qed.
Lemma fr_loop l : forall s acc, nl_loop (fr s) l acc = (fr (fst (nl_loop s l acc)), snd (nl_loop s l acc)).
Proof.
  induction l as [|i l IH]; intros s acc; [reflexivity|]. cbn [nl_loop]. unfold nl_bin. change (nlPm (fr s)) with (nlPm s). destruct (em_binProb (nlPm s) i) as [p r].
  change (nlData (fr s)) with (nlData s). change (nlBB (fr s)) with (nlBB s). change (nlGen (fr s)) with (nlGen s).
  set (R1 := bind r _). destruct R1 as [x| | | |]; cbn [fst snd]; try reflexivity. apply (IH (nl_withPm s p)).
Qed.
Lemma fr_eval s : nlCalc s = true -> nl_eval (fr s) = (fr (fst (nl_eval s)), snd (nl_eval s)).
Proof.
  intros C. unfold nl_eval. rewrite fr_prepare by exact C. destruct (nl_prepare s) as [s1 [u| | | |]]; cbn [fst snd]; try reflexivity.
  change (nlData (fr s1)) with (nlData s1). rewrite fr_loop. destruct (nl_loop s1 _ _) as [s2 [acc| | | |]]; reflexivity.
Qed.
Lemma fr_setParams s d : nl_setParams (fr s) d = (fr (fst (nl_setParams s d)), snd (nl_setParams s d)).
Proof.
  unfold nl_setParams. change (nlReg (fr s)) with (nlReg s). assert (E : map (nl_comp (fr s)) (nlReg s) = map (nl_comp s) (nlReg s)) by (apply map_ext; intros []; reflexivity). rewrite E.
  destruct (cm_setAll _ d) as [c r]. cbn [fst snd]. f_equal. generalize (combine (nlReg s) c). intros l. clear E. revert s. induction l as [|[x c0] l IH]; intros s; [reflexivity|]. cbn [fold_left].
  rewrite <- IH. f_equal. destruct x; [destruct c0; reflexivity|reflexivity].
Qed.
Lemma fr_getParams s : nl_getParams (fr s) = nl_getParams s.
Proof. unfold nl_getParams. change (nlReg (fr s)) with (nlReg s). rewrite (map_ext (nl_comp (fr s)) (nl_comp s)); [reflexivity|]. intros []; reflexivity. Qed.
Lemma fr_do s o : nlCalc s = true -> keeps_data o -> nldo (fr s) o = fr (nldo s o).
Proof.
  intros C K. destruct o as [b g r st| | | | | | | | | | | |]; cbn [nldo keeps_data] in *; try contradiction; try reflexivity.
  - unfold nl_addPdf. change (nlBB (fr s)) with (nlBB s). destruct (match r with Some _ => false | None => nlBB s end); [reflexivity|]. change (nlPm (fr s)) with (nlPm s).
    destruct (em_addPdf (nlPm s) b st) as [p [u| | | |]]; cbn [obind fst]; try reflexivity. change (nlSm (nl_withPm (fr s) p)) with (nlSm s). change (nlSm (nl_withPm s p)) with (nlSm s).
    destruct (sm_addDist (nlSm s) (bdName b) g) as [m [u1| | | |]]; cbn [obind fst]; try reflexivity. destruct r; reflexivity.
  - unfold nl_addSys. change (nlSm (fr s)) with (nlSm s). destruct (sm_add (nlSm s) p g); reflexivity.
  - unfold nl_setNorms. change (nlPm (fr s)) with (nlPm s). destruct (em_setNorms (nlPm s) l); reflexivity.
  - now rewrite fr_setParams.
  - now rewrite fr_eval.
Qed.
End Fr.

(** ** calls keep the flag and the first pdf *)
Lemma calc_prepare s : nlCalc s = true -> nlCalc (fst (nl_prepare s)) = true.
Proof.
  intros C. unfold nl_prepare.
  assert (G : forall x y, (forall s, nlCalc s = true -> nlCalc (fst (y s)) = true) -> nlCalc (fst x) = true -> nlCalc (fst (@chain nllh x y)) = true).
  { intros [s0 [u| | | |]] y Hy Hx; cbn [chain fst] in *; auto. }
  assert (P : forall f s, nlCalc s = true -> nlCalc (fst (nl_onPm s f)) = true) by (intros f s0 H; unfold nl_onPm; destruct (f (nlPm s0)); exact H).
  repeat (apply G; [intros s0 H; try (apply P, H)|]).
  - unfold nl_construct. destruct (sm_construct (nlSm s0)); exact H.
  - unfold nl_shrinkData. destruct (nlShrunk s0); [exact H|]. destruct (sh_setBinMap (nlSh s0) (nlData s0)) as [x [u| | | |]]; cbn [obind fst snd]; try exact H. destruct (sh_shrink x (nlData s0)); exact H.
  - unfold nl_needData. rewrite C. exact C.
Qed.
Lemma calc_loop l : forall s acc, nlCalc (fst (nl_loop s l acc)) = nlCalc s.
Proof.
  induction l as [|i l IH]; intros s acc; [reflexivity|]. cbn [nl_loop]. unfold nl_bin. destruct (em_binProb (nlPm s) i) as [p r]. set (R1 := bind r _). destruct R1 as [x| | | |]; cbn [fst]; try reflexivity. now rewrite IH.
Qed.
Lemma calc_eval s : nlCalc s = true -> nlCalc (fst (nl_eval s)) = true.
Proof.
  intros C. unfold nl_eval. pose proof (calc_prepare s C) as P. destruct (nl_prepare s) as [s1 [u| | | |]]; cbn [fst] in *; try exact P.
  pose proof (calc_loop (seq 0 (hNBins (bdHist (nlData s1)))) s1 (Ok 0%R)) as L. destruct (nl_loop s1 _ _) as [s2 [acc| | | |]]; cbn [fst] in *; congruence.
Qed.
Lemma putComps_keep l : forall s, let t := fold_left nl_putComp l s in nlCalc t = nlCalc s /\ nlSet t = nlSet s /\ nlCuts t = nlCuts s /\ emOrig (nlPm t) = emOrig (nlPm s).
Proof.
  induction l as [|[x c] l IH]; intros s; [repeat split|]. cbn [fold_left]. cbv zeta in *. destruct (IH (nl_putComp s (x, c))) as [A1 [A2 [A3 A4]]]. rewrite A1, A2, A3, A4. destruct x; [destruct c|]; repeat split.
Qed.
Lemma setParams_keep s d : let t := fst (nl_setParams s d) in nlCalc t = nlCalc s /\ nlSet t = nlSet s /\ nlCuts t = nlCuts s /\ emOrig (nlPm t) = emOrig (nlPm s).
Proof. unfold nl_setParams. destruct (cm_setAll _ d) as [c r]. apply putComps_keep. Qed.
Lemma addPdf_orig s b st : emOrig (fst (em_addPdf s b st)) = emOrig s ++ [b].
Proof.
  unfold em_addPdf, em_register. set (s1 := mkEm _ _ _ _ _). destruct (em_regNames s1) as [n| | | |]; try reflexivity. cbn [obind]. destruct (pm_addContainer _ _ _) as [p r]. reflexivity.
Qed.

(** ** the simulation *)
Section Sim.
Context (data : list event) (cs : list cut) (o b0 D : bed) (log : cutlog).
Hypothesis Eb : bed_empty o = (b0, Ok tt).
Hypothesis Ef : fill_distLog b0 data cs (mk_log (map cutName cs)) [] (-1)%Z = ((D, log), Ok tt).
Definition waiting (s : nllh) : Prop := nlCalc s = false /\ nlSet s = Some data /\ nlCuts s = cs /\ nth_error (emOrig (nlPm s)) 0 = Some o.
Inductive sim (s t : nllh) : Prop :=
| sim_in ds cs' lg : nlCalc s = true -> t = fr ds cs' lg s -> sim s t
| sim_wait ds cs' lg : waiting s -> t = fr ds cs' lg (nl_withData s D true) -> sim s t.
Lemma wait_need s : waiting s -> nl_needData s = (nl_withLog (nl_withData s D true) log, Ok tt).
Proof.
  intros [A [B [C E]]]. unfold nl_needData. rewrite A, B. cbn [negb]. unfold nl_binData. unfold vat. rewrite E. cbn [obind]. rewrite Eb. cbn [obind]. rewrite B, C, Ef. reflexivity.
Qed.
Lemma sim_eval s t : sim s t -> snd (nl_eval t) = snd (nl_eval s) /\ sim (fst (nl_eval s)) (fst (nl_eval t)).
Proof.
  intros [ds cs' lg C -> | ds cs' lg W ->].
  - rewrite fr_eval by exact C. split; [reflexivity|]. eapply sim_in; [now apply calc_eval|reflexivity].
  - set (u := nl_withData s D true). rewrite (eval_needData s _ (wait_need s W) eq_refl). fold u.
    assert (E : nl_withLog u log = fr (nlSet u) (nlCuts u) log u) by reflexivity. rewrite E.
    rewrite !fr_eval by reflexivity. cbn [fst snd]. split; [reflexivity|]. eapply sim_in.
    + apply (calc_eval u). reflexivity.
    + reflexivity.
Qed.
Lemma sim_setParams s t d : sim s t -> snd (nl_setParams t d) = snd (nl_setParams s d) /\ sim (fst (nl_setParams s d)) (fst (nl_setParams t d)).
Proof.
  intros [ds cs' lg C -> | ds cs' lg W ->]; rewrite fr_setParams.
  - split; [reflexivity|]. eapply sim_in; [|reflexivity]. rewrite (proj1 (setParams_keep s d)). exact C.
  - assert (E : nl_setParams (nl_withData s D true) d = (nl_withData (fst (nl_setParams s d)) D true, snd (nl_setParams s d))).
    { unfold nl_setParams. change (nlReg (nl_withData s D true)) with (nlReg s).
      assert (E : map (nl_comp (nl_withData s D true)) (nlReg s) = map (nl_comp s) (nlReg s)) by (apply map_ext; intros []; reflexivity). rewrite E.
      destruct (cm_setAll _ d) as [c r]. cbn [fst snd]. f_equal. generalize (combine (nlReg s) c). intros l. clear E W. revert s. induction l as [|[x c0] l IH]; intros s; [reflexivity|]. cbn [fold_left].
      rewrite <- IH. f_equal. destruct x; [destruct c0; reflexivity|reflexivity]. }
    rewrite E. cbn [fst snd]. split; [reflexivity|]. eapply sim_wait; [|reflexivity]. destruct (setParams_keep s d) as [A1 [A2 [A3 A4]]]. destruct W as [B1 [B2 [B3 B4]]]. unfold waiting. now rewrite A1, A2, A3, A4.
Qed.
Lemma sim_getParams s t : sim s t -> nl_getParams t = nl_getParams s.
Proof.
  intros [ds cs' lg C -> | ds cs' lg W ->]; rewrite fr_getParams; [reflexivity|].
  unfold nl_getParams. change (nlReg (nl_withData s D true)) with (nlReg s). rewrite (map_ext (nl_comp (nl_withData s D true)) (nl_comp s)); [reflexivity|]. intros []; reflexivity.
Qed.
Lemma calc_do s c : nlCalc s = true -> keeps_data c -> nlCalc (nldo s c) = true.
Proof.
  intros C K. destruct c as [b g r st| | | | | | | | | | | |]; cbn [nldo keeps_data] in *; try contradiction; try exact C.
  - unfold nl_addPdf. destruct (match r with Some _ => false | None => nlBB s end); [exact C|].
    destruct (em_addPdf (nlPm s) b st) as [p [u| | | |]]; cbn [obind fst]; try exact C.
    destruct (sm_addDist _ (bdName b) g) as [m [u1| | | |]]; cbn [obind fst]; try exact C. destruct r; exact C.
  - unfold nl_addSys. destruct (sm_add (nlSm s) p g); exact C.
  - unfold nl_setNorms. destruct (em_setNorms (nlPm s) l); exact C.
  - rewrite (proj1 (setParams_keep s d)). exact C.
  - now apply calc_eval.
Qed.
Lemma wait_pm s p : waiting s -> (exists l, emOrig p = emOrig (nlPm s) ++ l) -> waiting (nl_withPm s p).
Proof.
  intros [A [B [C E]]] [l H]. repeat split; auto. cbn. rewrite H. destruct (emOrig (nlPm s)); [discriminate|exact E].
Qed.
Lemma sim_do s t c : keeps_data c -> sim s t -> sim (nldo s c) (nldo t c).
Proof.
  intros K [ds cs' lg C -> | ds cs' lg W ->].
  - rewrite fr_do by assumption. eapply sim_in; [now apply calc_do|reflexivity].
  - assert (S0 : sim s (fr ds cs' lg (nl_withData s D true))) by (eapply sim_wait; [exact W|reflexivity]).
    destruct c as [b g r st| | | | | | | | | | | |].
    all: try contradiction.
    all: try (eapply sim_wait; [|reflexivity]; exact W).
    + assert (E : nldo (fr ds cs' lg (nl_withData s D true)) (NAdd b g r st) = fr ds cs' lg (nl_withData (nldo s (NAdd b g r st)) D true)).
      { rewrite fr_do by (reflexivity || exact I). f_equal. cbn [nldo]. unfold nl_addPdf. change (nlBB (nl_withData s D true)) with (nlBB s). destruct (match r with Some _ => false | None => nlBB s end); [reflexivity|].
        change (nlPm (nl_withData s D true)) with (nlPm s). destruct (em_addPdf (nlPm s) b st) as [p [u| | | |]]; cbn [obind fst]; try reflexivity.
        change (nlSm (nl_withPm (nl_withData s D true) p)) with (nlSm s). change (nlSm (nl_withPm s p)) with (nlSm s).
        destruct (sm_addDist (nlSm s) (bdName b) g) as [m [u1| | | |]]; cbn [obind fst]; try reflexivity. destruct r; reflexivity. }
      rewrite E. eapply sim_wait; [|reflexivity]. cbn [nldo]. unfold nl_addPdf. destruct (match r with Some _ => false | None => nlBB s end); [exact W|].
      pose proof (addPdf_orig (nlPm s) b st) as O. destruct (em_addPdf (nlPm s) b st) as [p [u| | | |]]; cbn [obind fst] in *; try (apply wait_pm; [exact W|exists [b]; exact O]).
      assert (W1 : waiting (nl_withPm s p)) by (apply wait_pm; [exact W|exists [b]; exact O]).
      destruct (sm_addDist _ (bdName b) g) as [m [u1| | | |]]; cbn [obind fst]; try exact W1. destruct r; exact W1.
    + cbn [nldo]. unfold nl_addSys. change (nlSm (fr ds cs' lg (nl_withData s D true))) with (nlSm s). destruct (sm_add (nlSm s) p g) as [m r]. eapply sim_wait; [|reflexivity]. exact W.
    + cbn [nldo]. unfold nl_setNorms. change (nlPm (fr ds cs' lg (nl_withData s D true))) with (nlPm s). unfold em_setNorms. destruct (negb _); (eapply sim_wait; [|reflexivity]); [apply wait_pm; [exact W|exists []; now rewrite app_nil_r]|].
      apply wait_pm; [exact W|exists []; now rewrite app_nil_r].
    + apply (sim_setParams s _ d S0).
    + apply (sim_eval s _ S0).
Qed.
Lemma sim_evals n : forall s t, sim s t -> sim (nlrun s (repeat NEval n)) (nlrun t (repeat NEval n)).
Proof. induction n as [|n IH]; intros s t H; [exact H|]. cbn [repeat nlrun fold_left]. apply IH. apply (sim_do s t NEval I H). Qed.
Lemma sim_client {A} (c : client A) : only_keeps_data c -> forall s t, sim s t -> snd (on_statistic c t) = snd (on_statistic c s).
Proof.
  induction c as [a|d n k IH|x c IH]; intros K s t H; cbn [on_statistic only_keeps_data] in *; [reflexivity| |].
  - destruct (sim_setParams s t d H) as [_ H1]. pose proof (sim_evals n _ _ H1) as H2. destruct (sim_eval _ _ H2) as [V H3]. rewrite (sim_getParams _ _ H2), V. apply IH; [apply K|exact H3].
  - destruct K as [K1 K2]. apply IH; [exact K2|]. now apply sim_do.
Qed.
End Sim.

(** ** the first pdf of a history *)
Lemma orig_prepare s : emOrig (nlPm (fst (nl_prepare s))) = emOrig (nlPm s).
Proof.
  unfold nl_prepare.
  assert (G : forall x y, (forall s1, emOrig (nlPm s1) = emOrig (nlPm s) -> emOrig (nlPm (fst (y s1))) = emOrig (nlPm s)) -> emOrig (nlPm (fst x)) = emOrig (nlPm s) -> emOrig (nlPm (fst (@chain nllh x y))) = emOrig (nlPm s)).
  { intros [s0 [u| | | |]] y Hy Hx; cbn [chain fst] in *; auto. }
  assert (P : forall f s1, (forall p, emOrig (fst (f p)) = emOrig p) -> emOrig (nlPm s1) = emOrig (nlPm s) -> emOrig (nlPm (fst (nl_onPm s1 f))) = emOrig (nlPm s)).
  { intros f s1 Hf H. unfold nl_onPm. specialize (Hf (nlPm s1)). destruct (f (nlPm s1)). cbn in *. congruence. }
  assert (It : forall B (f : edman -> B -> edman * res unit) l, (forall p b, emOrig (fst (f p b)) = emOrig p) -> forall p, emOrig (fst (iterS f l p)) = emOrig p).
  { intros B f l Hf. induction l as [|b l IH]; intros p; [reflexivity|]. cbn [iterS]. specialize (Hf p b). destruct (f p b) as [p1 [u| | | |]]; cbn [fst] in *; auto. now rewrite IH. }
  assert (Ob : forall B p (r : res B) k, (forall b, emOrig (fst (k b)) = emOrig p) -> emOrig (fst (obind p r k)) = emOrig p) by (intros B p r k H; destruct r; cbn [obind fst]; auto).
  repeat (apply G; [intros s0 H; try (apply P; [intros p|exact H])|]).
  - unfold em_shrink. destruct (shBuf _); [reflexivity|]. apply Ob. intros w0. apply Ob. intros o0. destruct (Z.eqb _ _); [reflexivity|]. destruct (negb _); [reflexivity|]. apply It. intros q i.
    unfold em_shrink1. apply Ob. intros w. apply Ob. intros a. apply Ob. intros w1. destruct (integral _) as [x| | | |]; cbn [obind fst]; try reflexivity. destruct (vat _ i) as [st| | | |]; cbn [obind fst]; try reflexivity.
    destruct st; [reflexivity|destruct (bed_normalise w1); reflexivity|]. destruct (_ && _)%bool; [reflexivity|]. destruct (qdiv x a); reflexivity.
  - unfold em_dimensions. apply It. intros q i. apply Ob. intros w. destruct (list_eq_dec _ _ _); [reflexivity|]. apply Ob. reflexivity.
  - unfold em_systematics. destruct (Nat.eqb _ _); [reflexivity|]. destruct (emAllDir p); apply Ob; intros r; [reflexivity|]. rewrite It; [reflexivity|]. intros q i. apply Ob. intros st. apply Ob. intros n. destruct st; reflexivity.
  - unfold nl_construct. destruct (sm_construct (nlSm s0)); exact H.
  - unfold nl_shrinkData. destruct (nlShrunk s0); [exact H|]. destruct (sh_setBinMap (nlSh s0) (nlData s0)) as [x [u| | | |]]; cbn [obind fst snd]; try exact H. destruct (sh_shrink x (nlData s0)); exact H.
  - unfold em_reassert. destruct (emAllDir p); [reflexivity|]. set (F := fun (st : edman * nat) i => _).
    assert (Q : forall l st, emOrig (fst (fst (iterS F l st))) = emOrig (fst st)).
    { induction l as [|i l IH]; intros st; [reflexivity|]. cbn [iterS]. unfold F at 1. destruct (vat (emStat p) i) as [x| | | |]; cbn [obind fst]; try reflexivity. destruct (is_indirect x); [|apply IH].
      destruct (vat (emFit p) (snd st)) as [v| | | |]; cbn [obind fst]; try reflexivity. now rewrite IH. }
    specialize (Q (seq 0 (List.length (emNorms p))) (p, 0%nat)). destruct (iterS F _ _) as [st r]. exact Q.
  - unfold nl_needData. destruct (negb (nlCalc s)); [|reflexivity]. destruct (nlSet s) as [d|] eqn:E; [|reflexivity]. unfold nl_binData. destruct (vat _ 0); try reflexivity. cbn [obind].
    destruct (bed_empty a) as [x [u| | | |]]; try reflexivity. cbn [obind]. rewrite E. destruct (fill_distLog _ _ _ _ _ _) as [[b1 lg] [u1| | | |]]; reflexivity.
Qed.
Lemma orig_eval s : emOrig (nlPm (fst (nl_eval s))) = emOrig (nlPm s).
Proof.
  unfold nl_eval. pose proof (orig_prepare s) as P. destruct (nl_prepare s) as [s1 [u| | | |]]; cbn [fst] in *; try exact P.
  assert (L : forall l s acc, emOrig (nlPm (fst (nl_loop s l acc))) = emOrig (nlPm s)).
  { clear. induction l as [|i l IH]; intros s acc; [reflexivity|]. cbn [nl_loop]. unfold nl_bin, em_binProb.
    assert (Q : emOrig (fst (em_reassert true (nlPm s))) = emOrig (nlPm s)).
    { unfold em_reassert. destruct (emAllDir (nlPm s)); [reflexivity|]. set (F := fun (st : edman * nat) i => _). set (p := nlPm s) in *.
      assert (Q : forall l st, emOrig (fst (fst (iterS F l st))) = emOrig (fst st)).
      { clear. induction l as [|i l IH]; intros st; [reflexivity|]. cbn [iterS]. unfold F at 1. destruct (vat (emStat p) i) as [x| | | |]; cbn [obind fst]; try reflexivity. destruct (is_direct x); [|apply IH].
        destruct (vat (emFit p) (snd st)) as [v| | | |]; cbn [obind fst]; try reflexivity. now rewrite IH. }
      specialize (Q (seq 0 (List.length (emNorms p))) (p, 0%nat)). destruct (iterS F _ _) as [st r]. exact Q. }
    destruct (em_reassert true (nlPm s)) as [p [u| | | |]]; cbn [fst] in Q; cbn [bind]; try exact Q.
    set (R1 := bind _ _). destruct R1 as [x| | | |]; cbn [fst]; try exact Q. rewrite IH. exact Q. }
  specialize (L (seq 0 (hNBins (bdHist (nlData s1)))) s1 (Ok 0%R)). destruct (nl_loop s1 _ _) as [s2 [acc| | | |]]; cbn [fst] in *; congruence.
Qed.
Lemma orig_run ops : forall s, emOrig (nlPm (nlrun s ops)) = emOrig (nlPm s) ++ map (fun p => fst (fst p)) (pdfs_from (nlBB s) ops).
Proof.
  assert (BB : forall s o, nlBB (nldo s o) = match o with NBB b => b | _ => nlBB s end).
  { intros s o. destruct o as [b g r st| | | | | | | | | | | |]; cbn [nldo]; try reflexivity.
    - unfold nl_addPdf. destruct (match r with Some _ => false | None => nlBB s end); [reflexivity|]. destruct (em_addPdf (nlPm s) b st) as [p [u| | | |]]; cbn [obind fst]; try reflexivity.
      destruct (sm_addDist _ (bdName b) g) as [m [u1| | | |]]; cbn [obind fst]; try reflexivity. destruct r; reflexivity.
    - unfold nl_addSys. destruct (sm_add (nlSm s) p g); reflexivity.
    - unfold nl_setNorms. destruct (em_setNorms (nlPm s) l); reflexivity.
    - unfold nl_setParams. destruct (cm_setAll _ d) as [c r]. cbn [fst]. generalize (combine (nlReg s) c). intros l. revert s. induction l as [|[x c0] l IH]; intros s; [reflexivity|]. cbn [fold_left]. rewrite IH. destruct x; [destruct c0|]; reflexivity.
    - unfold nl_eval.
      assert (P : nlBB (fst (nl_prepare s)) = nlBB s).
      { unfold nl_prepare.
        assert (G : forall x y, (forall s1, nlBB s1 = nlBB s -> nlBB (fst (y s1)) = nlBB s) -> nlBB (fst x) = nlBB s -> nlBB (fst (@chain nllh x y)) = nlBB s) by (intros [s0 [u| | | |]] y Hy Hx; cbn [chain fst] in *; auto).
        assert (P : forall f s1, nlBB s1 = nlBB s -> nlBB (fst (nl_onPm s1 f)) = nlBB s) by (intros f s1 H; unfold nl_onPm; destruct (f (nlPm s1)); exact H).
        repeat (apply G; [intros s0 H; try (apply P, H)|]).
        - unfold nl_construct. destruct (sm_construct (nlSm s0)); exact H.
        - unfold nl_shrinkData. destruct (nlShrunk s0); [exact H|]. destruct (sh_setBinMap (nlSh s0) (nlData s0)) as [x [u| | | |]]; cbn [obind fst snd]; try exact H. destruct (sh_shrink x (nlData s0)); exact H.
        - unfold nl_needData. destruct (negb (nlCalc s)); [|reflexivity]. destruct (nlSet s) as [d|] eqn:E; [|reflexivity]. unfold nl_binData. destruct (vat _ 0); try reflexivity. cbn [obind].
          destruct (bed_empty a) as [x [u| | | |]]; try reflexivity. cbn [obind]. rewrite E. destruct (fill_distLog _ _ _ _ _ _) as [[b1 lg] [u1| | | |]]; reflexivity. }
      destruct (nl_prepare s) as [s1 [u| | | |]]; cbn [fst] in *; try exact P.
      assert (L : forall l s acc, nlBB (fst (nl_loop s l acc)) = nlBB s).
      { clear. induction l as [|i l IH]; intros s acc; [reflexivity|]. cbn [nl_loop]. unfold nl_bin. destruct (em_binProb (nlPm s) i) as [p r]. set (R1 := bind r _). destruct R1 as [x| | | |]; cbn [fst]; try reflexivity. now rewrite IH. }
      specialize (L (seq 0 (hNBins (bdHist (nlData s1)))) s1 (Ok 0%R)). destruct (nl_loop s1 _ _) as [s2 [acc| | | |]]; cbn [fst] in *; congruence. }
  assert (OO : forall s o, emOrig (nlPm (nldo s o)) = emOrig (nlPm s) ++ match o with NAdd b _ (Some _) _ => [b] | NAdd b _ None _ => if nlBB s then [] else [b] | _ => [] end).
  { intros s o. destruct o as [b g r st| | | | | | | | | | | |]; cbn [nldo]; rewrite ?app_nil_r; try reflexivity.
    - unfold nl_addPdf. pose proof (addPdf_orig (nlPm s) b st) as O. destruct r as [r|]; [|destruct (nlBB s); [cbn; now rewrite app_nil_r|]].
      + destruct (em_addPdf (nlPm s) b st) as [p [u| | | |]]; cbn [obind fst] in *; try exact O. destruct (sm_addDist _ (bdName b) g) as [m [u1| | | |]]; cbn [obind fst]; exact O.
      + destruct (em_addPdf (nlPm s) b st) as [p [u| | | |]]; cbn [obind fst] in *; try exact O. destruct (sm_addDist _ (bdName b) g) as [m [u1| | | |]]; cbn [obind fst]; exact O.
    - unfold nl_addSys. destruct (sm_add (nlSm s) p g); reflexivity.
    - unfold nl_setNorms, em_setNorms. destruct (negb _); reflexivity.
    - apply setParams_keep.
    - apply orig_eval. }
  induction ops as [|o ops IH]; intros s; [cbn; now rewrite app_nil_r|]. cbn [nlrun fold_left]. fold (nlrun (nldo s o) ops). rewrite IH, BB, OO, <- app_assoc. f_equal.
  destruct o as [b g [r|] st| | | | | | x | | | | | |]; try reflexivity. cbn [pdfs_from]. destruct (nlBB s); reflexivity.
Qed.

Lemma events_pkg : forall A names par build ops cs data o (c : client A), hd_error (map fst (NLLHSpec.added ops)) = Some o ->
  h_reach (bdHist o) -> List.length (osNames (bdObs o)) = hNDims (bdHist o) -> Forall cut_built cs -> (Z.of_nat (List.length data) < 2 ^ 31)%Z ->
  (forall e, In e data -> cuttable cs e /\ (passes_all cs e -> exists vals, values (osNames (bdObs o)) e vals)) -> only_keeps_data c ->
  exists D, binned o data cs D /\ h_reach (bdHist D) /\
    snd (on_statistic c (nlrun (nl_new names par build) (ops ++ [NCuts cs; NDataSet data]))) = snd (on_statistic c (nlrun (nl_new names par build) (ops ++ [NData D]))).
Proof.
  intros A names par build ops cs data o c Ho R Hd Hc Hs Hev K. destruct (binned_pkg o data cs R Hd Hc Hs Hev) as [D [log [HB [RD [_ [b0 [Eb Ef]]]]]]].
  exists D. split; [exact HB|]. split; [exact RD|]. rewrite !nlrun_app. set (s := nlrun (nl_new names par build) ops). symmetry.
  apply (sim_client data cs o b0 D log Eb Ef c K). cbn [nlrun fold_left nldo].
  apply (sim_wait data cs o D _ _ (nlSet s) (nlCuts s) (nlLog s)); [|reflexivity]. repeat split.
  unfold s. cbn [nl_setSet nl_setCuts nlPm]. rewrite orig_run. cbn [nl_new nlPm nlBB em_new emOrig app]. unfold NLLHSpec.added in Ho. rewrite map_map in Ho.
  destruct (pdfs_from false ops) as [|x l]; [discriminate|]. exact Ho.
Qed.

(** ** the order of events and of cuts, and repeated cuts, do not matter *)
Lemma has_value_fun e n v v' : has_value e n v -> has_value e n v' -> v = v'.
Proof.
  intros [ns [i [E [Ei [Vi Mi]]]]] [ns' [j [E' [Ej [Vj Mj]]]]]. rewrite E in E'. injection E' as <-.
  destruct (Nat.lt_trichotomy i j) as [L|[->|L]]; [destruct (Mj i L Ei)| congruence |destruct (Mi j L Ej)].
Qed.
Lemma values_fun names e v : forall v', values names e v -> values names e v' -> v = v'.
Proof.
  revert v. induction names as [|n l IH]; intros v v' H H'; inversion H; inversion H'; subst; [reflexivity|]. f_equal; [eapply has_value_fun; eassumption|]. now apply IH.
Qed.
Lemma f2_values_fun names l : forall v v', Forall2 (values names) l v -> Forall2 (values names) l v' -> v = v'.
Proof. induction l as [|e l IH]; intros v v' H H'; inversion H; inversion H'; subst; [reflexivity|]. f_equal; [eapply values_fun; eassumption|]. now apply IH. Qed.
Lemma perm_filter {A} (f : A -> bool) l l' : Permutation l l' -> Permutation (filter f l) (filter f l').
Proof.
  induction 1; cbn [filter]; [constructor|destruct (f x); [now constructor|assumption]|destruct (f x), (f y); try reflexivity; apply perm_swap|etransitivity; eassumption].
Qed.
Lemma perm_f2 {A B} (P : A -> B -> Prop) l l' : Permutation l l' -> forall v, Forall2 P l v -> exists v', Permutation v v' /\ Forall2 P l' v'.
Proof.
  induction 1; intros v F.
  - inversion F. exists []. split; constructor.
  - inversion F as [|? y ? vs P1 P2]; subst. destruct (IHPermutation _ P2) as [v' [Q1 Q2]]. exists (y :: v'). split; now constructor.
  - inversion F as [|? a ? vs P1 P2]; subst. inversion P2 as [|? b ? vs2 P3 P4]; subst. exists (b :: a :: vs2). split; [apply perm_swap|now repeat constructor].
  - destruct (IHPermutation1 _ F) as [v1 [Q1 Q2]]. destruct (IHPermutation2 _ Q2) as [v2 [Q3 Q4]]. exists v2. split; [etransitivity; eassumption|exact Q4].
Qed.
Lemma binned_order o data data' cs cs' D D' : Permutation data data' -> (forall c, In c cs <-> In c cs') -> h_reach (bdHist D) -> h_reach (bdHist D') ->
  binned o data cs D -> binned o data' cs' D' -> D = D'.
Proof.
  intros Pd Pc R R' [N [O [[A1 [A2 A3]] [keep [vals [K [F C]]]]]]] [N' [O' [[A1' [A2' A3']] [keep' [vals' [K' [F' C']]]]]]].
  assert (Ef : filter keep data' = filter keep' data').
  { apply filter_ext_in. intros e He. assert (He' : In e data) by (eapply Permutation_in; [apply Permutation_sym, Pd|exact He]).
    assert (E : keep e = true <-> keep' e = true).
    { rewrite (K e He'), (K' e He). unfold passes_all. split; intros H c Hc; apply H, Pc, Hc. }
    destruct (keep e), (keep' e); intuition congruence. }
  destruct (perm_f2 _ _ _ (perm_filter keep _ _ Pd) _ F) as [v2 [Pv F2]]. rewrite Ef in F2. pose proof (f2_values_fun _ _ _ _ F2 F') as ->.
  assert (Ec : hCont (bdHist D) = hCont (bdHist D')).
  { pose proof (h_reach_ok _ R) as [_ [_ [_ [_ L]]]]. pose proof (h_reach_ok _ R') as [_ [_ [_ [_ L']]]].
    apply (nth_ext _ _ 0 0); [congruence|]. intros k Hk. assert (Hk' : (k < hNBins (bdHist o))%nat) by congruence. specialize (C k Hk'). specialize (C' k Hk'). unfold cont in C, C'. rewrite C, C'.
    f_equal. apply Permutation_length, perm_filter, Pv. }
  destruct D as [n h ob], D' as [n' h' ob']. destruct h, h'. cbn in *. congruence.
Qed.
Lemma events_order_pkg : forall A names par build ops cs cs' data data' o (c : client A), hd_error (map fst (NLLHSpec.added ops)) = Some o ->
  h_reach (bdHist o) -> List.length (osNames (bdObs o)) = hNDims (bdHist o) -> Forall cut_built cs -> (Z.of_nat (List.length data) < 2 ^ 31)%Z ->
  (forall e, In e data -> cuttable cs e /\ (passes_all cs e -> exists vals, values (osNames (bdObs o)) e vals)) ->
  Permutation data data' -> (forall x, In x cs <-> In x cs') -> only_keeps_data c ->
  snd (on_statistic c (nlrun (nl_new names par build) (ops ++ [NCuts cs; NDataSet data]))) = snd (on_statistic c (nlrun (nl_new names par build) (ops ++ [NCuts cs'; NDataSet data']))).
Proof.
  intros A names par build ops cs cs' data data' o c Ho R Hd Hc Hs Hev Pd Pc K.
  destruct (events_pkg A names par build ops cs data o c Ho R Hd Hc Hs Hev K) as [D [B [RD E]]].
  destruct (events_pkg A names par build ops cs' data' o c Ho R Hd) as [D' [B' [RD' E']]]; auto.
  - rewrite Forall_forall in Hc |- *. intros x Hx. now apply Hc, Pc.
  - now rewrite <- (Permutation_length Pd).
  - intros e He. destruct (Hev e) as [H1 H2]; [eapply Permutation_in; [apply Permutation_sym, Pd|exact He]|]. split; [intros x Hx; now apply H1, Pc|].
    intros Hp. apply H2. intros x Hx. now apply Hp, Pc.
  - rewrite E, E'. now rewrite (binned_order o data data' cs cs' D D' Pd Pc RD RD' B B').
Qed.

(** ** cuts set after a first answer *)
Lemma needs_calc s : snd (nl_needData s) = Ok tt -> nlCalc (fst (nl_needData s)) = true.
Proof.
  unfold nl_needData. destruct (nlCalc s) eqn:C; [intros _; exact C|]. cbn [negb]. destruct (nlSet s) as [d|] eqn:E; [|discriminate]. unfold nl_binData. destruct (vat _ 0); try discriminate. cbn [obind].
  destruct (bed_empty a) as [x [u| | | |]]; try discriminate. cbn [obind]. rewrite E. destruct (fill_distLog _ _ _ _ _ _) as [[b1 lg] [u1| | | |]]; try discriminate. reflexivity.
Qed.
Lemma prepared_calc s u : snd (nl_prepare s) = Ok u -> nlCalc (fst (nl_prepare s)) = true.
Proof.
  unfold nl_prepare.
  assert (G : forall x y, (forall s, nlCalc s = true -> nlCalc (fst (y s)) = true) -> ((exists u0, snd x = Ok u0) -> nlCalc (fst x) = true) -> ((exists u0, snd (@chain nllh x y) = Ok u0) -> nlCalc (fst (@chain nllh x y)) = true)).
  { intros [s0 [u0| | | |]] y Hy Hx [u1 E]; cbn [chain fst snd] in *; try discriminate. apply Hy, Hx. now exists u0. }
  assert (P : forall f s, nlCalc s = true -> nlCalc (fst (nl_onPm s f)) = true) by (intros f s0 H; unfold nl_onPm; destruct (f (nlPm s0)); exact H).
  intros E. assert (E' : exists u0, snd (nl_prepare s) = Ok u0) by (exists u; exact E). revert E'. unfold nl_prepare. clear E.
  repeat (apply G; [intros s0 H; try (apply P, H)|]).
  - unfold nl_construct. destruct (sm_construct (nlSm s0)); exact H.
  - unfold nl_shrinkData. destruct (nlShrunk s0); [exact H|]. destruct (sh_setBinMap (nlSh s0) (nlData s0)) as [x [u1| | | |]]; cbn [obind fst snd]; try exact H. destruct (sh_shrink x (nlData s0)); exact H.
  - intros [[] H]. now apply needs_calc.
Qed.
Lemma answered_calc s v : snd (nl_eval s) = Ok v -> nlCalc (fst (nl_eval s)) = true.
Proof.
  unfold nl_eval. pose proof (prepared_calc s) as P. destruct (nl_prepare s) as [s1 [u| | | |]]; cbn [fst snd] in *; try discriminate. specialize (P u eq_refl).
  pose proof (calc_loop (seq 0 (hNBins (bdHist (nlData s1)))) s1 (Ok 0%R)) as L. destruct (nl_loop s1 _ _) as [s2 [acc| | | |]]; cbn [fst snd] in *; intros _; congruence.
Qed.
Lemma fr_client ds cs lg {A} (c : client A) : only_keeps_data c -> forall s, nlCalc s = true -> snd (on_statistic c (fr ds cs lg s)) = snd (on_statistic c s).
Proof.
  induction c as [a|d n k IH|x c IH]; intros K s C; cbn [on_statistic only_keeps_data] in *; [reflexivity| |].
  - rewrite fr_setParams. cbn [fst]. set (s1 := fst (nl_setParams s d)). assert (C1 : nlCalc s1 = true) by (unfold s1; now rewrite (proj1 (setParams_keep s d))).
    assert (E : forall m t, nlCalc t = true -> nlrun (fr ds cs lg t) (repeat NEval m) = fr ds cs lg (nlrun t (repeat NEval m)) /\ nlCalc (nlrun t (repeat NEval m)) = true).
    { induction m as [|m IHm]; intros t Ct; [split; [reflexivity|exact Ct]|]. cbn [repeat nlrun fold_left nldo]. rewrite fr_eval by exact Ct. cbn [fst]. apply IHm. now apply calc_eval. }
    destruct (E n s1 C1) as [E1 E2]. rewrite E1, fr_eval by exact E2. cbn [fst snd]. rewrite fr_getParams. apply IH; [apply K|]. now apply calc_eval.
  - destruct K as [K1 K2]. rewrite fr_do by assumption. apply IH; [exact K2|]. now apply calc_do.
Qed.
Lemma late_cuts_pkg : forall A names par build ops v cs (c : client A), snd (nl_eval (nlrun (nl_new names par build) ops)) = Ok v -> only_keeps_data c ->
  snd (on_statistic c (nlrun (nl_new names par build) (ops ++ [NEval; NCuts cs]))) = snd (on_statistic c (nlrun (nl_new names par build) (ops ++ [NEval]))).
Proof.
  intros A names par build ops v cs c E K. rewrite !nlrun_app. set (s := nlrun _ ops) in *. cbn [nlrun fold_left nldo].
  exact (fr_client (nlSet (fst (nl_eval s))) cs (nlLog (fst (nl_eval s))) c K _ (answered_calc s v E)).
Qed.
