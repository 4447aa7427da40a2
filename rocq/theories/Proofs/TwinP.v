(** Copying a statistic (C94): commutation with a change of parameter pointers, and what an evaluation keeps. *)
From Coq Require Import ZArith Reals Lia.
From Verif Require Import Base.Res Base.Num Base.RNum Base.SMap Model.Axis Model.Event Model.Cut Model.Hist Model.ED
  Model.Param Model.Matrix Model.SystMan Model.Shrink Model.EDMan Model.Fill Model.Constraint Model.NLLH Model.Bulk Model.Twin Spec.NLLHSpec Proofs.BulkP.
Local Open Scope Qc_scope.
Local Open Scope res_scope.

Definition comm {A} (g : A -> A) (f : A -> A * res unit) : Prop := forall s, f (g s) = (g (fst (f s)), snd (f s)).
Lemma comm_iter {A B} (g : A -> A) (f : A -> B -> A * res unit) l : (forall b, comm g (fun s => f s b)) -> comm g (iterS f l).
Proof.
  intros H. induction l as [|b l IH]; intros s; [reflexivity|]. cbn [iterS]. rewrite (H b s). destruct (f s b) as [s1 [u| | | |]]; cbn [fst snd]; try reflexivity. apply IH.
Qed.
Lemma comm_obind {A B} (g : A -> A) (r : A -> res B) (k : A -> B -> A * res unit) :
  (forall s, r (g s) = r s) -> (forall b, comm g (fun s => k s b)) -> comm g (fun s => obind s (r s) (k s)).
Proof. intros H K s. cbn. rewrite H. destruct (r s) as [b| | | |]; cbn [obind fst snd]; try reflexivity. apply (K b s). Qed.
Lemma comm_chain {A} (g : A -> A) (x y : A -> A * res unit) : comm g x -> comm g y -> comm g (fun s => chain (x s) y).
Proof. intros X Y s. cbn. rewrite X. destruct (x s) as [s1 [u| | | |]]; cbn [chain fst snd]; try reflexivity. apply Y. Qed.

Section Re.
Variable t : edman.
Notation g := (em_assign t).
Lemma re_reassert c : comm g (em_reassert c).
Proof. intros s. apply reassert_assign. Qed.
Lemma re_systematics m : comm g (fun s => em_systematics s m).
Proof.
  intros s. unfold em_systematics. destruct (Nat.eqb (sm_count m) 0); [reflexivity|]. change (emAllDir (g s)) with (emAllDir s). change (emOrig (g s)) with (emOrig s). change (emWork (g s)) with (emWork s).
  change (emNorms (g s)) with (emNorms s). destruct (emAllDir s).
  - destruct (sm_distort m (emOrig s) (emWork s) None) as [r| | | |]; reflexivity.
  - destruct (sm_distort m (emOrig s) (emWork s) (Some _)) as [r| | | |]; cbn [obind fst snd]; try reflexivity.
    change (em_setWork (g s) (fst r)) with (g (em_setWork s (fst r))). apply comm_iter. clear. intros i s. cbn. change (emStat (g s)) with (emStat s). destruct (vat (emStat s) i) as [st| | | |]; cbn [obind fst snd]; try reflexivity.
    destruct (vat _ i) as [n| | | |]; cbn [obind fst snd]; try reflexivity. destruct st; reflexivity.
Qed.
Lemma re_dimensions obs : comm g (fun s => em_dimensions s obs).
Proof.
  intros s. unfold em_dimensions. change (emWork (g s)) with (emWork s). apply comm_iter. clear. intros i s. cbn. change (emWork (g s)) with (emWork s).
  destruct (vidx (emWork s) i) as [w| | | |]; cbn [obind fst snd]; try reflexivity. destruct (list_eq_dec _ _ _); [reflexivity|].
  destruct (bed_marginalise w obs); reflexivity.
Qed.
Lemma re_shrink sh : comm g (fun s => em_shrink s sh).
Proof.
  intros s. unfold em_shrink. destruct (shBuf sh); [reflexivity|]. change (emWork (g s)) with (emWork s). change (emOrig (g s)) with (emOrig s).
  destruct (vat (emWork s) 0) as [w0| | | |]; cbn [obind fst snd]; try reflexivity. destruct (vat (emOrig s) 0) as [o0| | | |]; cbn [obind fst snd]; try reflexivity.
  destruct (Z.eqb _ _); [reflexivity|]. destruct (negb _); [reflexivity|]. apply comm_iter. clear. intros i s. unfold em_shrink1. change (emWork (g s)) with (emWork s).
  destruct (vidx (emWork s) i) as [w| | | |]; cbn [obind fst snd]; try reflexivity. destruct (integral (bdHist w)) as [b| | | |]; cbn [obind fst snd]; try reflexivity.
  destruct (sh_shrink sh w) as [w1| | | |]; cbn [obind fst snd]; try reflexivity. destruct (integral (bdHist w1)) as [a| | | |]; cbn [obind fst snd]; try reflexivity.
  change (emStat (g s)) with (emStat s). destruct (vat (emStat s) i) as [st| | | |]; cbn [obind fst snd]; try reflexivity. destruct st; try reflexivity.
  - destruct (bed_normalise w1); reflexivity.
  - destruct (qeqb b 0 && qeqb a 0); [reflexivity|]. destruct (qdiv a b); reflexivity.
Qed.
Lemma re_binProb k s : em_binProb (g s) k = (g (fst (em_binProb s k)), snd (em_binProb s k)).
Proof. unfold em_binProb. rewrite reassert_assign. destruct (em_reassert true s) as [s1 [[]| | | |]]; reflexivity. Qed.

(** the same for a statistic *)
Definition sw (s : nllh) : nllh := nl_withPm s (em_assign t (nlPm s)).
Lemma re_onPm f : comm g f -> comm sw (fun s => nl_onPm s f).
Proof. intros H s. unfold nl_onPm. change (nlPm (sw s)) with (g (nlPm s)). rewrite H. destruct (f (nlPm s)) as [p r]. reflexivity. Qed.
Lemma re_onPm' f : (forall s, f (sw s) = f s) -> (forall s, comm g (f s)) -> comm sw (fun s => nl_onPm s (f s)).
Proof. intros E H s. cbn. rewrite E. unfold nl_onPm. change (nlPm (sw s)) with (g (nlPm s)). rewrite (H s). destruct (f s (nlPm s)) as [p r]. reflexivity. Qed.
Lemma re_needData : comm sw nl_needData.
Proof.
  intros s. unfold nl_needData. change (nlCalc (sw s)) with (nlCalc s). destruct (negb (nlCalc s)); [|reflexivity]. change (nlSet (sw s)) with (nlSet s). destruct (nlSet s) as [d|] eqn:E; [|reflexivity].
  unfold nl_binData. change (emOrig (nlPm (sw s))) with (emOrig (nlPm s)). destruct (vat (emOrig (nlPm s)) 0) as [o| | | |]; cbn [obind fst snd]; try reflexivity.
  destruct (bed_empty o) as [b0 r]. change (nlSet (sw s)) with (nlSet s). rewrite E. destruct r as [u| | | |]; cbn [obind fst snd]; try reflexivity.
  change (nlCuts (sw s)) with (nlCuts s). destruct (fill_distLog _ _ _ _ _ _) as [[b1 log] [u1| | | |]]; reflexivity.
Qed.
Lemma re_shrinkData : comm sw nl_shrinkData.
Proof.
  intros s. unfold nl_shrinkData. change (nlShrunk (sw s)) with (nlShrunk s). destruct (nlShrunk s); [reflexivity|]. change (nlSh (sw s)) with (nlSh s). change (nlData (sw s)) with (nlData s).
  destruct (sh_setBinMap (nlSh s) (nlData s)) as [x [u| | | |]]; cbn [obind fst snd]; try reflexivity. destruct (sh_shrink x (nlData s)); reflexivity.
Qed.
Lemma re_construct : comm sw nl_construct.
Proof. intros s. unfold nl_construct. change (nlSm (sw s)) with (nlSm s). destruct (sm_construct (nlSm s)); reflexivity. Qed.
Lemma re_prepare : comm sw nl_prepare.
Proof.
  unfold nl_prepare. repeat apply comm_chain.
  - apply re_needData.
  - apply re_onPm, re_reassert.
  - apply re_shrinkData.
  - apply re_construct.
  - apply (re_onPm' (fun s p => em_systematics p (nlSm s))); [reflexivity|intros s; apply re_systematics].
  - apply (re_onPm' (fun s p => em_dimensions p (osNames (bdObs (nlData s))))); [reflexivity|intros s; apply re_dimensions].
  - apply (re_onPm' (fun s p => em_shrink p (nlSh s))); [reflexivity|intros s; apply re_shrink].
Qed.
Lemma re_bin s i : nl_bin (sw s) i = (sw (fst (nl_bin s i)), snd (nl_bin s i)).
Proof.
  unfold nl_bin. change (nlPm (sw s)) with (g (nlPm s)). rewrite re_binProb. destruct (em_binProb (nlPm s) i) as [p r]. cbn [fst snd]. reflexivity.
Qed.
Lemma re_loop l : forall s acc, nl_loop (sw s) l acc = (sw (fst (nl_loop s l acc)), snd (nl_loop s l acc)).
Proof.
  induction l as [|i l IH]; intros s acc; [reflexivity|]. cbn [nl_loop]. rewrite re_bin. destruct (nl_bin s i) as [s1 [x| | | |]]; cbn [fst snd]; try reflexivity. apply IH.
Qed.
End Re.

(** what an evaluation keeps *)
Record keeps (p q : edman) : Prop := mkKeeps {
  kpPtrs : pmPtrs (emPm q) = pmPtrs (emPm p); kpAll : emAllDir q = emAllDir p; kpStat : emStat q = emStat p; kpDbl : mDbl (pmMem (emPm q)) = mDbl (pmMem (emPm p));
  kpCnt : forall c, c <> c_norms -> mCnt (pmMem (emPm q)) c = mCnt (pmMem (emPm p)) c; kpNorms : emAllDir p = true -> emNorms q = emNorms p }.
Lemma keeps_refl p : keeps p p.
Proof. constructor; auto. Qed.
Lemma keeps_trans p q r : keeps p q -> keeps q r -> keeps p r.
Proof. intros [A1 A2 A3 A4 A5 A6] [B1 B2 B3 B4 B5 B6]. constructor; try congruence. - intros c Hc. rewrite B5, A5; auto. - intros H. rewrite B6, A6; auto. congruence. Qed.
Lemma keeps_work p w : keeps p (em_setWork p w).
Proof. constructor; auto. Qed.
Lemma keeps_norms p l : emAllDir p = false -> keeps p (em_setNormsC p l).
Proof. intros H. constructor; auto; [|rewrite H; discriminate]. intros c Hc. cbn. destruct (Nat.eqb_spec c c_norms); [contradiction|reflexivity]. Qed.
Lemma keeps_iter {B} (f : edman -> B -> edman * res unit) (Q : edman -> Prop) l : (forall p q, Q p -> keeps p q -> Q q) -> (forall p b, Q p -> keeps p (fst (f p b))) -> forall p, Q p -> keeps p (fst (iterS f l p)).
Proof.
  intros St H. induction l as [|b l IH]; intros p Qp; [apply keeps_refl|]. cbn [iterS]. pose proof (H p b Qp) as K. destruct (f p b) as [p1 [u| | | |]]; cbn [fst] in *; try exact K.
  eapply keeps_trans; [exact K|]. apply IH. eapply St; eauto.
Qed.
Lemma keeps_obind {B} p (r : res B) k : (forall b, r = Ok b -> keeps p (fst (k b))) -> keeps p (fst (obind p r k)).
Proof. intros H. destruct r; cbn [obind fst]; try apply keeps_refl. now apply H. Qed.
(** reachable pdf managers *)
Record pin (p : edman) : Prop := mkPin { pinP : emAllDir p = false -> Forall (fun kv => exists i, snd kv = LElem c_fit i) (pmPtrs (emPm p));
  pinD : emAllDir p = true -> Forall (fun s => s = NDirect) (emStat p) }.
Lemma pin_keeps p q : pin p -> keeps p q -> pin q.
Proof. intros [A B] [K1 K2 K3 _ _ _]. constructor; rewrite K2; [rewrite K1|rewrite K3]; auto. Qed.
Lemma kp_reassert c p : keeps p (fst (em_reassert c p)).
Proof.
  unfold em_reassert. destruct (emAllDir p) eqn:A; [apply keeps_refl|]. set (F := fun (st : edman * nat) i => _). set (l := seq 0 _).
  assert (G : forall l q j, emAllDir q = false -> keeps q (fst (fst (iterS F l (q, j))))).
  { clear l. induction l as [|i l IH]; intros q j Hq; [apply keeps_refl|]. cbn [iterS]. unfold F at 1. cbn [fst snd]. destruct (vat (emStat p) i) as [x| | | |]; cbn [obind fst snd]; try apply keeps_refl.
    destruct (if c then is_direct x else is_indirect x); [|now apply IH]. destruct (vat (emFit p) j) as [v| | | |]; cbn [obind fst snd]; try apply keeps_refl.
    eapply keeps_trans; [apply keeps_norms; exact Hq|]. apply IH. exact Hq. }
  specialize (G l p 0%nat A). destruct (iterS F l (p, 0%nat)) as [[q j] r]. exact G.
Qed.
Lemma kp_systematics m p : keeps p (fst (em_systematics p m)).
Proof.
  unfold em_systematics. destruct (Nat.eqb (sm_count m) 0); [apply keeps_refl|]. destruct (emAllDir p) eqn:A; apply keeps_obind; intros r _; [apply keeps_work|].
  eapply keeps_trans; [apply keeps_work|]. apply (keeps_iter _ (fun q => emAllDir q = false)); [intros q q' H K; rewrite (kpAll _ _ K); exact H| |exact A].
  intros q i Hq. apply keeps_obind. intros st _. apply keeps_obind. intros n _. destruct st; [now apply keeps_norms|apply keeps_refl|now apply keeps_norms].
Qed.
Lemma kp_dimensions obs p : keeps p (fst (em_dimensions p obs)).
Proof.
  unfold em_dimensions. apply (keeps_iter _ (fun _ => True)); auto. intros q i _. apply keeps_obind. intros w _. destruct (list_eq_dec _ _ _); [apply keeps_refl|]. apply keeps_obind. intros w' _. apply keeps_work.
Qed.
Lemma kp_shrink sh p : pin p -> keeps p (fst (em_shrink p sh)).
Proof.
  intros P. unfold em_shrink. destruct (shBuf sh); [apply keeps_refl|]. apply keeps_obind. intros w0 _. apply keeps_obind. intros o0 _. destruct (Z.eqb _ _); [apply keeps_refl|]. destruct (negb _); [apply keeps_refl|].
  apply (keeps_iter _ pin); [apply pin_keeps| |exact P]. clear. intros p i P. unfold em_shrink1. apply keeps_obind. intros w _. apply keeps_obind. intros b _. apply keeps_obind. intros w1 _.
  assert (G : forall (r : res Qc) k, (forall a, keeps p (fst (k a))) -> keeps p (fst (obind (em_setWork p (upd (emWork p) i w1)) r k))) by (intros r k H; destruct r; cbn [obind fst]; try apply keeps_work; apply H).
  apply G. intros a. destruct (vat (emStat p) i) as [st| | | |] eqn:Es; cbn [obind fst]; try apply keeps_work.
  assert (N : st <> NDirect -> emAllDir p = false).
  { intros N. destruct (emAllDir p) eqn:A; [|reflexivity]. exfalso. apply N. pose proof (pinD _ P A) as D. unfold vat in Es. destruct (nth_error (emStat p) i) eqn:En; [|discriminate]. injection Es as <-. rewrite Forall_forall in D. apply D. eapply nth_error_In; eauto. }
  destruct st.
  - eapply keeps_trans; [apply keeps_work|]. apply keeps_norms. apply N. discriminate.
  - destruct (bed_normalise w1) as [w2 r]. cbn [fst]. eapply keeps_trans; apply keeps_work.
  - destruct (qeqb b 0 && qeqb a 0); [eapply keeps_trans; [apply keeps_work|apply keeps_norms, N; discriminate]|]. destruct (qdiv a b); cbn [obind fst]; try apply keeps_work. eapply keeps_trans; [apply keeps_work|apply keeps_norms, N; discriminate].
Qed.
