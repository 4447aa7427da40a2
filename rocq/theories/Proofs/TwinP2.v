(** Copying a statistic (C94): the statistic level. *)
From Coq Require Import ZArith Reals Lia.
From Verif Require Import Base.Res Base.Num Base.RNum Base.SMap Model.Axis Model.Event Model.Cut Model.Hist Model.ED
  Model.Param Model.Matrix Model.SystMan Model.Shrink Model.EDMan Model.Fill Model.Constraint Model.NLLH Model.Bulk Model.Twin Spec.NLLHSpec Proofs.BulkP Proofs.TwinP.
Local Open Scope Qc_scope.
Local Open Scope res_scope.

Record nkeeps (s u : nllh) : Prop := mkNk { nkReg : nlReg u = nlReg s; nkPar : nlPar u = nlPar s; nkCm : nlCm u = nlCm s; nkPm : keeps (nlPm s) (nlPm u) }.
Lemma nk_refl s : nkeeps s s.
Proof. constructor; auto using keeps_refl. Qed.
Lemma nk_trans a b c : nkeeps a b -> nkeeps b c -> nkeeps a c.
Proof. intros [A1 A2 A3 A4] [B1 B2 B3 B4]. constructor; try congruence. eapply keeps_trans; eauto. Qed.
Lemma nk_same s u : nlReg u = nlReg s -> nlPar u = nlPar s -> nlCm u = nlCm s -> nlPm u = nlPm s -> nkeeps s u.
Proof. intros A B C D. constructor; auto. rewrite D. apply keeps_refl. Qed.
Definition npin (s : nllh) : Prop := pin (nlPm s).
Definition kept (f : nllh -> nllh * res unit) : Prop := forall s, npin s -> nkeeps s (fst (f s)).
Lemma kept_chain x y : kept x -> kept y -> kept (fun s => chain (x s) y).
Proof.
  intros X Y s P. specialize (X s P). destruct (x s) as [s1 [u| | | |]]; cbn [chain fst] in *; try exact X. eapply nk_trans; [exact X|]. apply Y. unfold npin. eapply pin_keeps; [exact P|apply X].
Qed.
Lemma kept_onPm (f : nllh -> edman -> edman * res unit) : (forall s p, pin p -> keeps p (fst (f s p))) -> kept (fun s => nl_onPm s (f s)).
Proof. intros H s P. unfold nl_onPm. specialize (H s (nlPm s) P). destruct (f s (nlPm s)) as [p r]. constructor; auto. Qed.
Ltac same := now (apply nk_same).
Lemma prepare_kept : kept nl_prepare.
Proof.
  unfold nl_prepare. repeat apply kept_chain.
  - intros s _. unfold nl_needData. destruct (negb (nlCalc s)); [|apply nk_refl]. destruct (nlSet s) as [d|] eqn:E; [|apply nk_refl]. unfold nl_binData. destruct (vat _ 0) as [o| | | |]; cbn [obind fst]; try apply nk_refl.
    destruct (bed_empty o) as [b0 [u| | | |]]; cbn [obind fst]; try same. rewrite E. destruct (fill_distLog _ _ _ _ _ _) as [[b1 log] [u1| | | |]]; cbn [obind fst]; same.
  - apply (kept_onPm (fun _ => em_reassert false)). intros _ p _. apply kp_reassert.
  - intros s _. unfold nl_shrinkData. destruct (nlShrunk s); [apply nk_refl|]. destruct (sh_setBinMap (nlSh s) (nlData s)) as [x [u| | | |]]; cbn [obind fst]; try same. destruct (sh_shrink x (nlData s)); cbn [obind fst]; same.
  - intros s _. unfold nl_construct. destruct (sm_construct (nlSm s)) as [m r]. same.
  - apply (kept_onPm (fun s p => em_systematics p (nlSm s))). intros s p _. apply kp_systematics.
  - apply (kept_onPm (fun s p => em_dimensions p (osNames (bdObs (nlData s))))). intros s p _. apply kp_dimensions.
  - apply (kept_onPm (fun s p => em_shrink p (nlSh s))). intros s p P. now apply kp_shrink.
Qed.
Lemma bin_kept s i : nkeeps s (fst (nl_bin s i)).
Proof.
  unfold nl_bin. destruct (em_binProb (nlPm s) i) as [p r] eqn:E. cbn [fst]. constructor; auto. cbn. replace p with (fst (em_binProb (nlPm s) i)) by now rewrite E.
  unfold em_binProb. pose proof (kp_reassert true (nlPm s)) as K. destruct (em_reassert true (nlPm s)) as [s1 [u| | | |]]; exact K.
Qed.
Lemma loop_kept l : forall s acc, nkeeps s (fst (nl_loop s l acc)).
Proof.
  induction l as [|i l IH]; intros s acc; [apply nk_refl|]. cbn [nl_loop]. pose proof (bin_kept s i) as K. destruct (nl_bin s i) as [s1 [x| | | |]]; cbn [fst] in *; try exact K. eapply nk_trans; [exact K|apply IH].
Qed.
Lemma eval_kept s : npin s -> nkeeps s (fst (nl_eval s)).
Proof.
  intros P. unfold nl_eval. pose proof (prepare_kept s P) as K. destruct (nl_prepare s) as [s1 [u| | | |]]; cbn [fst] in *; try exact K.
  pose proof (loop_kept (seq 0 (hNBins (bdHist (nlData s1)))) s1 (Ok 0%R)) as L. destruct (nl_loop s1 _ _) as [s2 [acc| | | |]]; cbn [fst] in *; eapply nk_trans; eauto.
Qed.
Lemma getAll_keeps p q : pin p -> keeps p q -> pm_getAll (emPm q) = pm_getAll (emPm p).
Proof.
  intros P K. unfold pm_getAll. rewrite (kpPtrs _ _ K). assert (G : forall l, incl l (pmPtrs (emPm p)) -> mapM (fun nl => do v <- deref (pmMem (emPm q)) (snd nl); Ok (fst nl, v)) l = mapM (fun nl => do v <- deref (pmMem (emPm p)) (snd nl); Ok (fst nl, v)) l).
  { induction l as [|[n x] l IH]; intros Hl; [reflexivity|]. unfold mapM in *. cbn [map seqM]. rewrite IH by (intros y Hy; apply Hl; now right).
    replace (deref (pmMem (emPm q)) (snd (n, x))) with (deref (pmMem (emPm p)) (snd (n, x))); [reflexivity|]. cbn [snd]. destruct x as [a|c i]; cbn [deref]; [now rewrite (kpDbl _ _ K)|].
    replace (mCnt (pmMem (emPm q)) c) with (mCnt (pmMem (emPm p)) c); [reflexivity|]. destruct (Nat.eq_dec c c_norms) as [->|Nc]; [|symmetry; now apply (kpCnt _ _ K)]. symmetry. apply (kpNorms _ _ K).
    destruct (emAllDir p) eqn:A; [reflexivity|]. exfalso. pose proof (pinP _ P A) as F. rewrite Forall_forall in F. destruct (F (n, LElem c_norms i) (Hl _ (or_introl eq_refl))) as [j E]. discriminate E. }
  apply G, incl_refl.
Qed.
Lemma getParams_kept s u : npin s -> nkeeps s u -> nl_getParams u = nl_getParams s.
Proof.
  intros P [K1 K2 K3 K4]. unfold nl_getParams. rewrite K1. clear K1. unfold cm_getAll. generalize (@sempty Qc). induction (nlReg s) as [|c l IH]; intros m; [reflexivity|]. cbn [map foldM].
  replace (c_getAll (nl_comp u c)) with (c_getAll (nl_comp s c)); [destruct (c_getAll (nl_comp s c)); cbn [bind]; auto|]. destruct c as [|p]; cbn [nl_comp c_getAll]; [symmetry; now apply getAll_keeps|now rewrite K2].
Qed.

(** the copy *)
Lemma copy_sw s : nl_copy s = sw em_new s.
Proof. reflexivity. Qed.
Lemma eval_G s : nl_evalG nl_getParams s = nl_eval s.
Proof. reflexivity. Qed.
Lemma comp_alive a b l : nlPar b = nlPar a -> mapM (tw_comp (mkTwin (Some a) b false)) l = Ok (map (nl_comp a) l).
Proof.
  intros H. induction l as [|c l IH]; [reflexivity|]. unfold mapM in *. cbn [map seqM]. rewrite IH. destruct c; cbn; [reflexivity|now rewrite H].
Qed.
Lemma getB_alive a b : nlPar b = nlPar a -> nlReg b = nlReg a -> tw_getB (mkTwin (Some a) b false) = nl_getParams a.
Proof. intros H R. unfold tw_getB. cbn [twB]. rewrite R, (comp_alive a b _ H). reflexivity. Qed.
Lemma evalB_copy s : npin s -> snd (tw_evalB (tw_copy s)) = snd (nl_eval s).
Proof.
  intros P. unfold tw_evalB. cbn [tw_copy twA twB twOwn]. rewrite copy_sw. rewrite <- eval_G. unfold nl_evalG. rewrite re_prepare. pose proof (prepare_kept s P) as K. destruct (nl_prepare s) as [s1 [u| | | |]]; cbn [fst snd] in *; try reflexivity.
  change (nlData (sw em_new s1)) with (nlData s1). rewrite re_loop. pose proof (loop_kept (seq 0 (hNBins (bdHist (nlData s1)))) s1 (Ok 0%R)) as L. destruct (nl_loop s1 _ _) as [s2 [acc| | | |]]; cbn [fst snd] in *; try reflexivity.
  pose proof (nk_trans _ _ _ K L) as KL. rewrite (getB_alive s (sw em_new s2)) by apply KL. rewrite (getParams_kept s s2 P KL). reflexivity.
Qed.
(** once the original is gone, a registered copy that gets as far as the constraints reads its pdf manager *)
Lemma evalB_gone s x : In RPdfs (nlReg s) -> npin s -> snd (nl_eval s) = Ok x -> snd (tw_evalB (tw_gone (tw_copy s))) = UB.
Proof.
  intros R P. unfold tw_evalB. cbn [tw_copy tw_gone twA twB twOwn]. rewrite copy_sw. rewrite <- eval_G. unfold nl_evalG. rewrite re_prepare. pose proof (prepare_kept s P) as K. destruct (nl_prepare s) as [s1 [u| | | |]]; cbn [fst snd] in *; try discriminate.
  change (nlData (sw em_new s1)) with (nlData s1). rewrite re_loop. pose proof (loop_kept (seq 0 (hNBins (bdHist (nlData s1)))) s1 (Ok 0%R)) as L. destruct (nl_loop s1 _ _) as [s2 [acc| | | |]]; cbn [fst snd] in *; try discriminate.
  intros _. pose proof (nk_trans _ _ _ K L) as KL. unfold tw_getB. cbn [twB]. change (nlReg (sw em_new s2)) with (nlReg s2). rewrite (nkReg _ _ KL).
  assert (G : forall l, In RPdfs l -> mapM (tw_comp (mkTwin None (sw em_new s2) false)) l = UB).
  { induction l as [|c l IH]; intros Hl; [destruct Hl|]. unfold mapM in *. cbn [map seqM]. destruct c as [|p]; [reflexivity|]. destruct Hl as [C|Hl]; [discriminate|]. rewrite IH by exact Hl. reflexivity. }
  rewrite G by exact R. reflexivity.
Qed.
Lemma gone_pars s d : In RPdfs (nlReg s) -> tw_getB (tw_gone (tw_copy s)) = UB /\ snd (tw_setB (tw_gone (tw_copy s)) d) = UB.
Proof.
  intros R. assert (G : forall l, In RPdfs l -> mapM (tw_comp (tw_gone (tw_copy s))) l = UB).
  { induction l as [|c l IH]; intros Hl; [destruct Hl|]. unfold mapM in *. cbn [map seqM]. destruct c as [|p]; [reflexivity|]. destruct Hl as [C|Hl]; [discriminate|]. rewrite IH by exact Hl. reflexivity. }
  unfold tw_getB, tw_setB. cbn [twB tw_gone tw_copy]. change (nlReg (nl_copy s)) with (nlReg s). rewrite G by exact R. split; reflexivity.
Qed.
Lemma setB_copy s d : let w := fst (tw_setB (tw_copy s) d) in
  snd (tw_setB (tw_copy s) d) = snd (nl_setParams s d) /\ twA w = Some (fst (nl_setParams s d)) /\ nlPm (twB w) = nlPm (nl_copy s).
Proof.
  unfold tw_setB. cbn [tw_copy twB]. change (nlReg (nl_copy s)) with (nlReg s). unfold tw_copy. rewrite (comp_alive s (nl_copy s)) by reflexivity. cbn [obind]. unfold nl_setParams. destruct (cm_setAll _ d) as [cs r]. cbn [fst snd].
  split; [reflexivity|]. generalize (combine (nlReg s) cs) as l. intros l. 
  assert (G : forall a b, let w := fold_left tw_put l (mkTwin (Some a) b false) in twA w = Some (fold_left nl_putComp l a) /\ nlPm (twB w) = nlPm b /\ twOwn w = false).
  { induction l as [|[c x] l IH]; intros a b; [auto|]. cbn [fold_left]. destruct c as [|p].
    - unfold tw_put at 2. cbn [fst twOwn twA option_map twB]. apply IH.
    - unfold tw_put at 2. cbn [fst twOwn twA option_map twB]. specialize (IH (nl_putComp a (RSys p, x)) (nl_putComp b (RSys p, x))). exact IH. }
  destruct (G s (nl_copy s)) as [G1 [G2 _]]. auto.
Qed.
Lemma sysRefs_sys m c : In c (nl_sysRefs m) -> exists p, c = RSys p.
Proof.
  unfold nl_sysRefs. set (F := fun _ _ => _). assert (G : forall l st, (forall c, In c (fst st) -> exists p, c = RSys p) -> forall c, In c (fst (fold_left F l st)) -> exists p, c = RSys p).
  { induction l as [|p l IH]; intros st H; [exact H|]. cbn [fold_left]. apply IH. unfold F. destruct (inb _ _); [exact H|]. cbn [fst]. intros c' Hc. apply in_app_or in Hc as [Hc|[<-|[]]]; eauto. }
  apply G. intros c' [].
Qed.
Lemma regB_get w : tw_getB (tw_regB (mkTwin (twA w) (nl_copy (twB w)) (twOwn w))) = cm_getAll (map (nl_comp (twB w)) (nl_sysRefs (nlSm (twB w)))).
Proof.
  unfold tw_getB, tw_regB. cbn [twA twB twOwn nl_register nl_withReg nlReg]. change (nlSm (nl_copy (twB w))) with (nlSm (twB w)).
  set (w' := mkTwin (twA w) _ true). assert (G : forall l, (forall c, In c l -> exists p, c = RSys p) -> mapM (tw_comp w') l = Ok (map (nl_comp (twB w)) l)).
  { induction l as [|c l IH]; intros H; [reflexivity|]. unfold mapM in *. cbn [map seqM]. rewrite IH by (intros c' Hc; apply H; now right). destruct (H c (or_introl eq_refl)) as [p ->]. reflexivity. }
  unfold mapM. cbn [map seqM]. unfold mapM in G. rewrite G by apply sysRefs_sys. cbn [tw_comp bind]. unfold cm_getAll. cbn [foldM]. reflexivity.
Qed.

(** every statistic a program can build *)
Lemma sset_in {V} k (v : V) m kv : In kv (sset k v m) -> kv = (k, v) \/ In kv m.
Proof.
  induction m as [|[k' v'] t IH]; cbn [sset]; [intros [<-|[]]; auto|]. destruct (String.compare k k'); cbn [In]; [intros [<-|H]; auto|intros [<-|H]; auto|intros [<-|H]; auto].
  destruct (IH H); auto.
Qed.
Notation fitp := (fun kv : string * loc => exists i, snd kv = LElem c_fit i).
Lemma pin_register p : (emAllDir p = true -> Forall (fun s => s = NDirect) (emStat p)) -> pin (fst (em_register p)).
Proof.
  intros D. assert (Z : pin (em_withPm p (pm_clear (emPm p)))) by (constructor; [intros _; constructor|exact D]).
  unfold em_register. destruct (em_regNames p) as [names| | | |]; cbn [obind]; try exact Z. unfold pm_addContainer. cbn [em_withPm emPm].
  destruct (Nat.eqb _ _); [|exact Z]. constructor; [|exact D]. cbn [em_withPm emAllDir emPm fst]. intros A. rewrite A. unfold pm_addAll.
  assert (G : forall l q, Forall fitp (pmPtrs q) -> Forall fitp (pmPtrs (fold_left (fun q ni => pm_add q (LElem c_fit (snd ni)) (fst ni)) l q))).
  { induction l as [|[n i] l IH]; intros q Hq; [exact Hq|]. cbn [fold_left]. apply IH. cbn [pm_add pmPtrs fst snd]. rewrite Forall_forall in *. intros [k x] Hk. apply sset_in in Hk as [E|Hk]; [injection E as _ ->; cbn; eauto|exact (Hq _ Hk)]. }
  apply G. constructor.
Qed.
Lemma pin_add p b st : pin p -> pin (fst (em_addPdf p b st)).
Proof.
  intros P. unfold em_addPdf. apply pin_register. cbn [emAllDir emStat]. destruct st; cbn [is_direct]; try discriminate. intros A. apply Forall_app. split; [apply (pinD _ P A)|repeat constructor].
Qed.
Definition crel (c c' : comp) : Prop := match c, c' with CPm p, CPm q => pmPtrs q = pmPtrs p | CPm _, _ => False | _, _ => True end.
Lemma crel_refl c : crel c c.
Proof. destruct c; cbn; auto. Qed.
Lemma crel_setAll c d : crel c (fst (c_setAll c d)).
Proof.
  destruct c as [nm w|d0|p|ns h]; cbn [c_setAll].
  - destruct (sfind nm d); exact I.
  - exact I.
  - unfold pm_setAll. destruct (pm_setLoop _ _ _ _) as [m r]. reflexivity.
  - destruct (spec_setLoop _ _ _ _). exact I.
Qed.
Lemma f2_refl {A} (R : A -> A -> Prop) l : (forall x, R x x) -> Forall2 R l l.
Proof. intros H. induction l; constructor; auto. Qed.
Lemma crel_cm cs d : Forall2 crel cs (fst (cm_setAll cs d)).
Proof.
  unfold cm_setAll. destruct d as [|x d]; [apply f2_refl, crel_refl|]. induction cs as [|c cs IH]; [constructor|]. cbn [cm_setLoop]. pose proof (crel_setAll c (x :: d)) as C.
  destruct (c_setAll c (x :: d)) as [c' [u| | | |]]; cbn [fst] in *; try (constructor; [exact C|apply f2_refl, crel_refl]).
  destruct (cm_setLoop cs (x :: d)) as [cs' r]. constructor; [exact C|exact IH].
Qed.
Lemma pin_params s d : npin s -> npin (fst (nl_setParams s d)).
Proof.
  intros P. unfold nl_setParams. pose proof (crel_cm (map (nl_comp s) (nlReg s)) d) as F. destruct (cm_setAll _ d) as [cs r]. cbn [fst] in *.
  assert (G : forall l cs u, Forall2 crel (map (nl_comp s) l) cs -> npin u -> pmPtrs (emPm (nlPm u)) = pmPtrs (emPm (nlPm s)) -> npin (fold_left nl_putComp (combine l cs) u)).
  { clear F cs. induction l as [|c l IH]; intros cs u F Pu E; [exact Pu|]. cbn [map] in F. inversion F as [|? c' ? cs' Hc Hcs]; subst. cbn [combine fold_left]. apply IH; [exact Hcs| |].
    - destruct c as [|p]; cbn [nl_putComp]; [|exact Pu]. destruct c'; try exact Pu. cbn [nl_comp crel] in Hc. destruct Pu as [A B]. constructor; cbn [nlPm nl_withPm em_withPm emAllDir emStat emPm]; [|exact B]. rewrite Hc, <- E. exact A.
    - destruct c as [|p]; cbn [nl_putComp]; [|exact E]. destruct c'; try exact E. exact Hc. }
  apply G; auto.
Qed.
Lemma npin_do s o : npin s -> npin (nldo s o).
Proof.
  intros P. destruct o; cbn [nldo]; try exact P.
  - unfold nl_addPdf. destruct (match rate with None => nlBB s | Some _ => false end); [exact P|]. pose proof (pin_add (nlPm s) b st P) as Q. destruct (em_addPdf (nlPm s) b st) as [p r]. cbn [fst] in Q.
    destruct r; cbn [obind fst]; try exact Q. destruct (sm_addDist _ _ _) as [m r1]. destruct r1; cbn [obind fst]; try exact Q. destruct rate; exact Q.
  - unfold nl_addSys. destruct (sm_add _ _ _); exact P.
  - unfold nl_setNorms, em_setNorms. destruct (negb _); [exact P|]. destruct P as [A B]. constructor; [exact A|exact B].
  - now apply pin_params.
  - unfold npin. eapply pin_keeps; [exact P|]. apply eval_kept. exact P.
Qed.
Lemma npin_run names par build ops : npin (nlrun (nl_new names par build) ops).
Proof.
  unfold nlrun. assert (G : forall l s, npin s -> npin (fold_left nldo l s)) by (induction l as [|o l IH]; intros s H; [exact H|apply IH, npin_do, H]).
  apply G. constructor; constructor.
Qed.
