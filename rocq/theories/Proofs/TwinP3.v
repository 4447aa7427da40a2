(** Copying a statistic (C94): evaluating either of the two does not change what the other evaluates to. *)
From Coq Require Import ZArith Reals Lia.
From Verif Require Import Base.Res Base.Num Base.RNum Base.SMap Model.Axis Model.Event Model.Cut Model.Hist Model.ED
  Model.Param Model.Matrix Model.SystMan Model.Shrink Model.EDMan Model.Fill Model.Constraint Model.NLLH Model.Bulk Model.Twin Spec.NLLHSpec Proofs.BulkP Proofs.TwinP Proofs.TwinP2.
Local Open Scope Qc_scope.
Local Open Scope res_scope.

Definition so (m : sman) (o : nat -> syst) : sman := mkSman o (smNGroups m) (smTotal m) (smGroups m) (smDists m).
(** the same systematics, possibly constructed at different times *)
Definition osame (a b : nat -> syst) : Prop := forall p, syName (b p) = syName (a p) /\ syBuild (b p) = syBuild (a p).
Definition oagree (a b : nat -> syst) (D : nat -> Prop) : Prop := forall p, D p -> syResp (b p) = syResp (a p).
Lemma osame_refl a : osame a a.
Proof. intros p. auto. Qed.
Lemma osame_sym a b : osame a b -> osame b a.
Proof. intros H p. destruct (H p). auto. Qed.
Lemma osame_trans a b c : osame a b -> osame b c -> osame a c.
Proof. intros A B p. destruct (A p), (B p). split; congruence. Qed.
Definition onow (m : sman) (o : nat -> syst) (D : nat -> Prop) : Prop := osame (smObj m) o /\ oagree (smObj m) o D.
Lemma con1_osame m p : osame (smObj m) (smObj (fst (sm_construct1 m p))).
Proof. intros q. cbn. destruct (Nat.eqb_spec q p); subst; auto. Qed.
(** running f on the same manager with other objects gives the same outcome, and objects that now agree on D' as well *)
Definition sims (f : sman -> sman * res unit) (D' : nat -> Prop) : Prop :=
  forall m o D, onow m o D -> exists o', f (so m o) = (so (fst (f m)) o', snd (f m)) /\ osame (smObj (fst (f m))) o' /\ osame (smObj m) (smObj (fst (f m))) /\
    oagree (smObj (fst (f m))) o' D /\ (snd (f m) = Ok tt -> oagree (smObj (fst (f m))) o' D').
Lemma sims_con1 p : sims (fun m => sm_construct1 m p) (fun q => q = p).
Proof.
  intros m o D [A B]. destruct (A p) as [A1 A2]. exists (fun q => if Nat.eqb q p then mkSyst (syName (o p)) (fst (syBuild (o p))) (syBuild (o p)) else o q).
  split; [|split; [|split; [|split]]].
  - unfold sm_construct1. cbn [so smObj fst snd]. rewrite A2. reflexivity.
  - intros q. cbn. destruct (Nat.eqb_spec q p); subst; cbn; [split; congruence|apply A].
  - apply con1_osame.
  - intros q Hq. cbn. destruct (Nat.eqb_spec q p); subst; cbn; [now rewrite A2|now apply B].
  - intros _ q ->. cbn. rewrite Nat.eqb_refl. cbn. now rewrite A2.
Qed.
Lemma sims_iter {B} (f : sman -> B -> sman * res unit) (E : B -> nat -> Prop) l : (forall b, sims (fun m => f m b) (E b)) -> sims (iterS f l) (fun q => exists b, In b l /\ E b q).
Proof.
  intros H. induction l as [|b l IH]; intros m o D On.
  - exists o. cbn. split; [reflexivity|]. split; [apply On|]. split; [apply osame_refl|]. split; [apply On|]. intros _ q [b [[] _]].
  - cbn [iterS]. destruct (H b m o D On) as [o1 [E1 [S1 [S2 [A1 A2]]]]]. rewrite E1. destruct (f m b) as [m1 [[]| | | |]]; cbn [fst snd] in *; try (exists o1; split; [reflexivity|]; split; [exact S1|]; split; [exact S2|]; split; [exact A1|discriminate]).
    destruct (IH m1 o1 (fun q => D q \/ E b q)) as [o2 [F1 [T1 [T2 [B1 B2]]]]]. { split; [exact S1|]. intros q [Hq|Hq]; [now apply A1|now apply A2]. }
    exists o2. split; [exact F1|]. split; [exact T1|]. split; [now apply (osame_trans _ (smObj m1))|]. split; [intros q Hq; apply B1; now left|].
    intros Ok1 q [c [[<-|Hc] He]]; [apply B1; now right|apply B2; [exact Ok1|eauto]].
Qed.
Lemma groupResp_agree m o g : oagree (smObj m) o (fun p => In p g) -> sm_groupResp (so m o) g = sm_groupResp m g.
Proof.
  intros A. unfold sm_groupResp. destruct g as [|p0 g]; [reflexivity|]. cbn [vat nth_error bind tl]. cbn [so smObj]. rewrite (A p0) by now left.
  assert (A' : forall p, In p g -> syResp (o p) = syResp (smObj m p)) by (intros p Hp; apply A; now right). clear A. generalize (syResp (smObj m p0)) as r. induction g as [|p g IH]; intros r; [reflexivity|].
  cbn [foldM]. rewrite A' by now left. destruct (m_mul _ r) as [m1 [u| | | |]]; cbn [bind]; auto. apply IH. intros q Hq. apply A'. now right.
Qed.
Lemma sims_construct : sims sm_construct (fun _ => False).
Proof.
  intros m o D On. unfold sm_construct. change (sm_count (so m o)) with (sm_count m). change (smGroups (so m o)) with (smGroups m). destruct (Nat.eqb (sm_count m) 0).
  { exists o. cbn. split; [reflexivity|]. split; [apply On|]. split; [apply osame_refl|]. split; [apply On|]. intros _ q []. }
  set (f1 := fun s1 (kv : string * list nat) => iterS sm_construct1 (snd kv) s1). set (f2 := fun s2 (kv : string * list nat) => _).
  pose proof (sims_iter f1 (fun kv q => exists b, In b (snd kv) /\ q = b) (smGroups m)) as H1. cbv beta in H1.
  destruct (H1 (fun kv => sims_iter sm_construct1 (fun p q => q = p) (snd kv) sims_con1) m o D On) as [o1 [E1 [S1 [S2 [A1 A2]]]]]. rewrite E1. destruct (iterS f1 (smGroups m) m) as [m1 r]. cbn [fst snd] in *.
  destruct r as [[]| | | |]; try (exists o1; split; [reflexivity|]; split; [exact S1|]; split; [exact S2|]; split; [exact A1|discriminate]).
  specialize (A2 eq_refl). assert (G : forall l u, incl l (smGroups m) -> smObj u = smObj m1 -> iterS f2 l (so u o1) = (so (fst (iterS f2 l u)) o1, snd (iterS f2 l u)) /\ smObj (fst (iterS f2 l u)) = smObj m1).
  { induction l as [|kv l IH]; intros u Hl Eu; [split; [reflexivity|exact Eu]|]. cbn [iterS]. unfold f2 at 1 3 5 7. destruct (String.eqb (fst kv) EmptyString && Nat.eqb (List.length (snd kv)) 0); [apply IH; [intros y Hy; apply Hl; now right|exact Eu]|].
    rewrite groupResp_agree; [|rewrite Eu; intros p Hp; apply A2; exists kv; split; [apply Hl; now left|eauto]]. destruct (sm_groupResp u (snd kv)) as [x| | | |]; cbn [obind fst snd]; try (split; [reflexivity|exact Eu]).
    change (sm_setTotal (so u o1) (fst kv) x) with (so (sm_setTotal u (fst kv) x) o1). apply IH; [intros y Hy; apply Hl; now right|exact Eu]. }
  destruct (G (smGroups m) m1 (incl_refl _) eq_refl) as [G1 G2]. exists o1. rewrite G2. split; [exact G1|]. split; [exact S1|]. split; [exact S2|]. split; [exact A1|]. intros _ q [].
Qed.

(** the statistic with other objects *)
Definition ns (s : nllh) (o : nat -> syst) : nllh := nl_withSm s (so (nlSm s) o).
Definition nsame (s u : nllh) : Prop := osame (smObj (nlSm s)) (smObj (nlSm u)).
Definition csim (f : nllh -> nllh * res unit) : Prop := forall s o, osame (smObj (nlSm s)) o -> exists o', f (ns s o) = (ns (fst (f s)) o', snd (f s)) /\ osame (smObj (nlSm (fst (f s)))) o' /\ nsame s (fst (f s)).
Lemma csim_comm f : (forall o, comm (fun s => ns s o) f) -> (forall s, nlSm (fst (f s)) = nlSm s) -> csim f.
Proof. intros C K s o H. exists o. rewrite (C o s). split; [reflexivity|]. unfold nsame. rewrite K. split; [exact H|apply osame_refl]. Qed.
Lemma csim_chain x y : csim x -> csim y -> csim (fun s => chain (x s) y).
Proof.
  intros X Y s o H. destruct (X s o H) as [o1 [E1 [S1 S2]]]. rewrite E1. destruct (x s) as [s1 [u| | | |]]; cbn [chain fst snd] in *; try (exists o1; now auto).
  destruct (Y s1 o1 S1) as [o2 [E2 [T1 T2]]]. exists o2. split; [exact E2|]. split; [exact T1|]. eapply osame_trans; eauto.
Qed.
Lemma csim_onPm (f : nllh -> edman -> edman * res unit) : (forall s o, f (ns s o) = f s) -> csim (fun s => nl_onPm s (f s)).
Proof.
  intros H. apply csim_comm.
  - intros o s. cbn. rewrite H. unfold nl_onPm. change (nlPm (ns s o)) with (nlPm s). destruct (f s (nlPm s)); reflexivity.
  - intros s. unfold nl_onPm. destruct (f s (nlPm s)); reflexivity.
Qed.
Lemma needData_sm s : nlSm (fst (nl_needData s)) = nlSm s.
Proof.
  unfold nl_needData. destruct (negb (nlCalc s)); [|reflexivity]. destruct (nlSet s) as [d|] eqn:E; [|reflexivity]. unfold nl_binData. destruct (vat _ 0); try reflexivity. cbn [obind].
  destruct (bed_empty a) as [b0 [u| | | |]]; try reflexivity. cbn [obind]. rewrite E. destruct (fill_distLog _ _ _ _ _ _) as [[b1 log] [u1| | | |]]; reflexivity.
Qed.
Lemma systematics_so m o : forall p, em_systematics p (so m o) = em_systematics p m.
Proof. reflexivity. Qed.
Lemma csim_prepare : csim nl_prepare.
Proof.
  unfold nl_prepare. repeat apply csim_chain.
  - apply csim_comm; [|apply needData_sm]. intros o s. unfold nl_needData. change (nlCalc (ns s o)) with (nlCalc s). destruct (negb (nlCalc s)); [|reflexivity]. change (nlSet (ns s o)) with (nlSet s). destruct (nlSet s) as [d|] eqn:E; [|reflexivity].
    unfold nl_binData. change (nlPm (ns s o)) with (nlPm s). destruct (vat (emOrig (nlPm s)) 0) as [x| | | |]; cbn [obind fst snd]; try reflexivity.
    destruct (bed_empty x) as [b0 r]. change (nlSet (ns s o)) with (nlSet s). rewrite E. destruct r as [u| | | |]; cbn [obind fst snd]; try reflexivity.
    change (nlCuts (ns s o)) with (nlCuts s). destruct (fill_distLog _ _ _ _ _ _) as [[b1 log] [u1| | | |]]; reflexivity.
  - apply (csim_onPm (fun _ => em_reassert false)). reflexivity.
  - apply csim_comm.
    + intros o s. unfold nl_shrinkData. change (nlShrunk (ns s o)) with (nlShrunk s). destruct (nlShrunk s); [reflexivity|]. change (nlSh (ns s o)) with (nlSh s). change (nlData (ns s o)) with (nlData s).
      destruct (sh_setBinMap (nlSh s) (nlData s)) as [x [u| | | |]]; cbn [obind fst snd]; try reflexivity. destruct (sh_shrink x (nlData s)); reflexivity.
    + intros s. unfold nl_shrinkData. destruct (nlShrunk s); [reflexivity|]. destruct (sh_setBinMap (nlSh s) (nlData s)) as [x [u| | | |]]; cbn [obind fst snd]; try reflexivity. destruct (sh_shrink x (nlData s)); reflexivity.
  - intros s o H. unfold nl_construct. change (nlSm (ns s o)) with (so (nlSm s) o). destruct (sims_construct (nlSm s) o (fun _ => False)) as [o1 [E [S1 [S2 _]]]]; [split; [exact H|intros q []]|].
    rewrite E. unfold nsame. destruct (sm_construct (nlSm s)) as [m r]. cbn [fst snd] in *. exists o1. auto.
  - apply (csim_onPm (fun s p => em_systematics p (nlSm s))). reflexivity.
  - apply (csim_onPm (fun s p => em_dimensions p (osNames (bdObs (nlData s))))). reflexivity.
  - apply (csim_onPm (fun s p => em_shrink p (nlSh s))). reflexivity.
Qed.
Lemma loop_ns o l : forall s acc, nl_loop (ns s o) l acc = (ns (fst (nl_loop s l acc)) o, snd (nl_loop s l acc)) /\ nlSm (fst (nl_loop s l acc)) = nlSm s.
Proof.
  induction l as [|i l IH]; intros s acc; [split; reflexivity|]. cbn [nl_loop]. unfold nl_bin. change (nlPm (ns s o)) with (nlPm s). destruct (em_binProb (nlPm s) i) as [p r].
  set (R1 := bind r _). change (bind r (fun mu => _)) with R1. destruct R1 as [x| | | |]; cbn [fst snd]; try (split; reflexivity). apply (IH (nl_withPm s p)).
Qed.
Lemma evalG_ns get s o : osame (smObj (nlSm s)) o -> (forall u o', get (ns u o') = get u) ->
  exists o', nl_evalG get (ns s o) = (ns (fst (nl_evalG get s)) o', snd (nl_evalG get s)) /\ nsame s (fst (nl_evalG get s)).
Proof.
  intros H Hg. unfold nl_evalG. destruct (csim_prepare s o H) as [o1 [E [S1 S2]]]. rewrite E. unfold nsame in *. destruct (nl_prepare s) as [s1 [u| | | |]]; cbn [fst snd] in *; try (exists o1; now auto).
  change (nlData (ns s1 o1)) with (nlData s1). destruct (loop_ns o1 (seq 0 (hNBins (bdHist (nlData s1)))) s1 (Ok 0%R)) as [E2 E3]. rewrite E2. destruct (nl_loop s1 _ _) as [s2 [acc| | | |]]; cbn [fst snd] in *; exists o1; rewrite ?E3; auto.
  split; [|exact S2]. f_equal. rewrite Hg. reflexivity.
Qed.
Lemma eval_ns s o : osame (smObj (nlSm s)) o -> snd (nl_eval (ns s o)) = snd (nl_eval s).
Proof. intros H. rewrite <- !eval_G. destruct (evalG_ns nl_getParams s o H) as [o' [E _]]; [reflexivity|]. now rewrite E. Qed.
Lemma eval_nsame s : nsame s (fst (nl_eval s)).
Proof. rewrite <- eval_G. destruct (evalG_ns nl_getParams s _ (osame_refl _)) as [o' [_ S]]; [reflexivity|]. exact S. Qed.
Lemma share_ns u s : nlPar u = nlPar s -> nl_share u s = ns s (smObj (nlSm u)).
Proof. intros H. unfold nl_share, ns, so, nl_withPar, nl_withSm. cbn. now rewrite H. Qed.
(** the twin, either evaluated first *)
Lemma evalB_state s : npin s -> nlPar (twB (fst (tw_evalB (tw_copy s)))) = nlPar s /\ nsame s (twB (fst (tw_evalB (tw_copy s)))) /\
  twA (fst (tw_evalB (tw_copy s))) = Some (nl_share (twB (fst (tw_evalB (tw_copy s)))) s).
Proof.
  intros P. unfold tw_evalB. cbn [tw_copy twA twB twOwn]. set (get := fun b => _). rewrite copy_sw.
  assert (K : nlPar (fst (nl_evalG get (sw em_new s))) = nlPar s /\ nsame s (fst (nl_evalG get (sw em_new s)))).
  { unfold nl_evalG. rewrite re_prepare. pose proof (prepare_kept s P) as K. destruct (csim_prepare s _ (osame_refl _)) as [o1 [_ [_ S]]]. unfold nsame in *. destruct (nl_prepare s) as [s1 [u| | | |]]; cbn [fst snd] in *; try (split; [apply K|exact S]).
    change (nlData (sw em_new s1)) with (nlData s1). rewrite re_loop. pose proof (loop_kept (seq 0 (hNBins (bdHist (nlData s1)))) s1 (Ok 0%R)) as L. destruct (loop_ns (fun p => smObj (nlSm s) p) (seq 0 (hNBins (bdHist (nlData s1)))) s1 (Ok 0%R)) as [_ M].
    destruct (nl_loop s1 _ _) as [s2 [acc| | | |]]; cbn [fst snd] in *; (split; [change (nlPar (sw em_new s2)) with (nlPar s2); rewrite (nkPar _ _ L); apply K|change (nlSm (sw em_new s2)) with (nlSm s2); rewrite M; exact S]). }
  destruct (nl_evalG get (sw em_new s)) as [b r]. cbn [fst twB twA option_map] in *. destruct K as [K1 K2]. auto.
Qed.
Lemma evalA_afterB s : npin s -> snd (tw_evalA (fst (tw_evalB (tw_copy s)))) = snd (nl_eval s).
Proof.
  intros P. destruct (evalB_state s P) as [A [B C]]. unfold tw_evalA. rewrite C. rewrite (share_ns _ _ A). pose proof (eval_ns s _ B) as E. destruct (nl_eval (ns s _)) as [a1 r]. exact E.
Qed.
Lemma evalB_afterA s : npin s -> snd (tw_evalB (fst (tw_evalA (tw_copy s)))) = snd (nl_eval s).
Proof.
  intros P. unfold tw_evalA. cbn [tw_copy twA twB twOwn]. pose proof (eval_nsame s) as B. pose proof (eval_kept s P) as K. rewrite <- (evalB_copy s P). destruct (nl_eval s) as [a1 r]. cbn [fst] in *.
  rewrite (share_ns a1 (nl_copy s)) by apply K. unfold tw_evalB. cbn [tw_copy twA twB twOwn].
  destruct (evalG_ns (fun b => tw_getB (mkTwin (Some a1) b false)) (nl_copy s) (smObj (nlSm a1)) B) as [o' [E _]]; [intros u o'; reflexivity|]. rewrite E. 
  destruct (nl_evalG _ (nl_copy s)) as [b1 r1] eqn:E1 in |- *. cbn [fst snd].
  unfold nl_evalG in *. rewrite copy_sw in *. rewrite re_prepare in *. pose proof (prepare_kept s P) as KP. destruct (nl_prepare s) as [s1 [u| | | |]]; cbn [fst snd] in *; try (now injection E1 as _ <-).
  change (nlData (sw em_new s1)) with (nlData s1) in *. rewrite re_loop in *. pose proof (loop_kept (seq 0 (hNBins (bdHist (nlData s1)))) s1 (Ok 0%R)) as L. destruct (nl_loop s1 _ _) as [s2 [acc| | | |]]; cbn [fst snd] in *; try (now injection E1 as _ <-).
  injection E1 as _ <-. pose proof (nk_trans _ _ _ KP L) as KL. rewrite (getB_alive s (sw em_new s2)) by apply KL.
  rewrite (getB_alive a1 (sw em_new s2)); [|change (nlPar (sw em_new s2)) with (nlPar s2); rewrite (nkPar _ _ KL); symmetry; apply K|change (nlReg (sw em_new s2)) with (nlReg s2); rewrite (nkReg _ _ KL); symmetry; apply K].
  rewrite (getParams_kept s a1 P K). reflexivity.
Qed.

(** packaged for every statistic a program can build *)
Lemma reg_keeps s o : In RPdfs (nlReg s) -> npin s -> In RPdfs (nlReg (nldo s o)).
Proof.
  intros H P. destruct o; cbn [nldo]; try exact H.
  - unfold nl_addPdf. destruct (match rate with None => nlBB s | Some _ => false end); [exact H|]. destruct (em_addPdf (nlPm s) b st) as [p r].
    destruct r; cbn [obind fst]; try exact H. destruct (sm_addDist _ _ _) as [m r1]. destruct r1; cbn [obind fst]; try exact H. destruct rate; exact H.
  - unfold nl_addSys. destruct (sm_add _ _ _); exact H.
  - unfold nl_setNorms. destruct (em_setNorms _ _); exact H.
  - now left.
  - unfold nl_setParams. destruct (cm_setAll _ d) as [cs r]. cbn [fst]. assert (G : forall l u, nlReg (fold_left nl_putComp l u) = nlReg u).
    { induction l as [|[c x] l IH]; intros u; [reflexivity|]. cbn [fold_left]. rewrite IH. destruct c; cbn [nl_putComp]; [destruct x|]; reflexivity. }
    rewrite G. exact H.
  - rewrite (nkReg _ _ (eval_kept s P)). exact H.
Qed.
Lemma reg_run names par build ops : In NReg ops -> In RPdfs (nlReg (nlrun (nl_new names par build) ops)).
Proof.
  intros H. apply in_split in H as [l1 [l2 ->]]. unfold nlrun. rewrite fold_left_app. cbn [fold_left nldo]. pose proof (npin_run names par build l1) as P. unfold nlrun in P. set (s := fold_left nldo l1 _) in *.
  assert (G : forall l u, In RPdfs (nlReg u) -> npin u -> In RPdfs (nlReg (fold_left nldo l u))) by (induction l as [|o l IH]; intros u H1 H2; [exact H1|apply IH; [now apply reg_keeps|now apply npin_do]]).
  apply G; [now left|exact P].
Qed.
Lemma twin_value_pkg : forall names par build ops, let s := nlrun (nl_new names par build) ops in
  snd (tw_evalB (tw_copy s)) = snd (nl_eval s) /\ tw_getB (tw_copy s) = nl_getParams s.
Proof. intros. split; [apply evalB_copy, npin_run|]. apply getB_alive; reflexivity. Qed.
Lemma twin_indep_pkg : forall names par build ops, let s := nlrun (nl_new names par build) ops in
  snd (tw_evalA (fst (tw_evalB (tw_copy s)))) = snd (nl_eval s) /\ snd (tw_evalB (fst (tw_evalA (tw_copy s)))) = snd (nl_eval s).
Proof. intros. split; [apply evalA_afterB|apply evalB_afterA]; apply npin_run. Qed.
Lemma twin_reg_pkg s : tw_getB (tw_regB (tw_copy s)) = cm_getAll (map (nl_comp s) (nl_sysRefs (nlSm s))) /\ (sm_count (nlSm s) = 0%nat -> tw_getB (tw_regB (tw_copy s)) = Ok []).
Proof.
  pose proof (regB_get (mkTwin (Some s) s false)) as H. cbn [twA twB twOwn] in H. unfold tw_copy. rewrite H. split; [reflexivity|]. intros C.
  replace (nl_sysRefs (nlSm s)) with (@nil cref); [reflexivity|]. unfold nl_sysRefs. replace (List.concat (map snd (smGroups (nlSm s)))) with (@nil nat); [reflexivity|].
  unfold sm_count in C. induction (smGroups (nlSm s)) as [|[k l] t IH]; [reflexivity|]. cbn in *. apply Nat.eq_add_0 in C as [C1 C2]. destruct l; [|discriminate]. apply IH, C2.
Qed.
Lemma twin_gone_pkg : forall names par build ops d x, In NReg ops -> let s := nlrun (nl_new names par build) ops in let w := tw_gone (tw_copy s) in
  tw_getB w = UB /\ snd (tw_setB w d) = UB /\ (snd (nl_eval s) = Ok x -> snd (tw_evalB w) = UB).
Proof.
  intros names par build ops d x H s w. pose proof (reg_run names par build ops H) as R. destruct (gone_pars s d R) as [A B]. split; [exact A|]. split; [exact B|]. intros E. eapply evalB_gone; eauto. apply npin_run.
Qed.
(** setting the copy's parameters: the original gets them, the value of the copy does not follow *)
Lemma twin_stale_pkg : forall names par build ops d x p, let s := nlrun (nl_new names par build) ops in let w := fst (tw_setB (tw_copy s) d) in
  nlReg s = [RPdfs] -> nlCm s = cman_new -> snd (nl_eval s) = Ok x -> tw_getB w = Ok p -> snd (tw_evalB w) = Ok x.
Proof.
  intros names par build ops d x p s w R C E G. pose proof (npin_run names par build ops) as P. fold s in P.
  assert (W : exists a, w = mkTwin (Some a) (nl_copy s) false /\ nlPar a = nlPar s /\ nlReg a = nlReg s).
  { unfold w, tw_setB. cbn [tw_copy twB]. change (nlReg (nl_copy s)) with (nlReg s). unfold tw_copy. rewrite (comp_alive s (nl_copy s)) by reflexivity. cbn [obind]. rewrite R. destruct (cm_setAll _ d) as [cs r]. cbn [fst].
    destruct cs as [|c [|c' cs]]; cbn [combine fold_left]; [exists s; auto| |]; (exists (nl_putComp s (RPdfs, c)); split; [reflexivity|destruct c; auto]). }
  destruct W as [a [W [Wp Wr]]]. rewrite W in *. unfold tw_evalB. cbn [twA twB twOwn]. rewrite copy_sw. rewrite <- eval_G in E. unfold nl_evalG in *. rewrite re_prepare. pose proof (prepare_kept s P) as K. destruct (nl_prepare s) as [s1 [u| | | |]]; cbn [fst snd] in *; try discriminate.
  change (nlData (sw em_new s1)) with (nlData s1). rewrite re_loop. pose proof (loop_kept (seq 0 (hNBins (bdHist (nlData s1)))) s1 (Ok 0%R)) as L. destruct (nl_loop s1 _ _) as [s2 [acc| | | |]]; cbn [fst snd] in *; try discriminate.
  pose proof (nk_trans _ _ _ K L) as KL. rewrite (getB_alive a (sw em_new s2)); [|change (nlPar (sw em_new s2)) with (nlPar s2); rewrite (nkPar _ _ KL); now symmetry|change (nlReg (sw em_new s2)) with (nlReg s2); rewrite (nkReg _ _ KL); now symmetry].
  rewrite (getB_alive a (nl_copy s)) in G; [|now symmetry|now symmetry]. rewrite G. cbn [bind]. change (nlCm (sw em_new s2)) with (nlCm s2). rewrite (nkCm _ _ KL), C in *.
  destruct (nl_getParams s2) as [q| | | |]; cbn [bind] in E; try discriminate. exact E.
Qed.
