(** C99: a likelihood whose working pdfs are changed by a last step (projection, buffers) before the bins are read;
    with systematics that rebuild every working pdf, or without any. *)
From Coq Require Import ZArith Reals Lia.
From Verif Require Import Base.Res Base.Num Base.RNum Base.SMap Model.Axis Model.Event Model.Cut Model.Hist Model.ED Model.Param Model.Matrix Model.SystMan Model.Shrink Model.EDMan
  Model.Fill Model.Constraint Model.NLLH Spec.AxisSpec Spec.HistSpec Spec.ParamSpec Spec.EDManSpec Spec.SystManSpec Spec.NLLHSpec Spec.NLLHSysSpec Spec.ShrinkSpec Spec.BufferSpec
  Proofs.AxisP Proofs.HistP Proofs.HistP2 Proofs.HistP4 Proofs.ParamP Proofs.ParamP2 Proofs.ParamP3 Proofs.EDManP Proofs.EDManP2 Proofs.SystManP Proofs.SystManP2 Proofs.SystManP3 Proofs.NLLHP Proofs.NLLHP2
  Proofs.NLLHP3 Proofs.NLLHS1 Proofs.NLLHS2 Proofs.NLLHS3 Proofs.NLLHS4 Proofs.NLLHS5 Proofs.NLLHS6 Proofs.NLLHS8 Proofs.BufferP1 Proofs.BufferP2 Proofs.BufferP3 Proofs.BufferP4 Proofs.BufferP5.
Local Open Scope Qc_scope.
Local Open Scope res_scope.

Lemma grp0 m : sm_count m = 0%nat -> forall g, sm_grp m g = [].
Proof.
  intros H g. unfold sm_grp. destruct (sfind g (smGroups m)) as [l|] eqn:E; [|reflexivity]. unfold sm_count in H. clear -H E.
  revert H E. generalize (smGroups m). induction s as [|[k v] t IH]; cbn [map list_sum fold_right snd sfind]; [discriminate|]. intros H. destruct (String.eqb g k).
  - intros [= ->]. destruct l; [reflexivity|cbn in H; lia].
  - apply IH. unfold list_sum. lia.
Qed.
Lemma act0 m o : sm_count m = 0%nat -> actS m o = [].
Proof. intros H. unfold actS. destruct (sfind (bdName o) (smDists m)); [now apply count0_acting|reflexivity]. Qed.
Lemma resp0 m M o : sm_count m = 0%nat -> respS m M o = o.
Proof. intros H. unfold respS. rewrite (act0 m o H). cbn [map mvs fold_left]. apply with_same. Qed.
Lemma loop_works names par build obs bs D D' x l : forall s acc, calmB names par build obs bs D D' x s -> emWork (nlPm (fst (nl_loop s l acc))) = emWork (nlPm s).
Proof.
  induction l as [|i l IH]; intros s acc C; cbn [nl_loop]; [reflexivity|].
  assert (W : emWork (nlPm (fst (nl_bin s i))) = emWork (nlPm s)).
  { unfold nl_bin, em_binProb. destruct (reassert_loose true _ (cb_loose _ _ _ _ _ _ _ _ _ C)) as [p' [E [K W]]]. rewrite E. cbn. exact W. }
  pose proof (binB names par build obs bs D D' x s i C) as S1. destruct (step_calm names par build obs bs D D' x s _ C S1) as [C1 _].
  destruct (nl_bin s i) as [s1 r]. cbn [fst] in *. destruct r as [y|e| | |]; cbn [fst]; auto. rewrite (IH s1 _ C1). exact W.
Qed.

Section G.
Variables (names : nat -> string) (par : nat -> comp) (build : nat -> comp -> smat * res unit) (obs : list string).
Variables (bs : list shop) (D D' : bed) (x : shrinker) (nk : nat).
Hypothesis Hmap : sh_setBinMap (configured bs) D = (x, Ok tt).
Hypothesis Hsh : sh_shrink x D = Ok D'.
Hypothesis HD' : h_reach (bdHist D') /\ hNBins (bdHist D') = nk.
Variables (pdfs : list (bed * nfs)) (cm : cman) (t : sman).
(** the last step of the preparation, what it makes of a working pdf, and when it can *)
Definition tailG (p : edman) : edman * res unit := chain (em_dimensions p (osNames (bdObs D'))) (fun p => em_shrink p x).
Variables (F : bed -> nfs -> bed) (ok : bed -> nfs -> Prop).
Definition worksG (p : edman) (R : bed -> nfs -> bed) : Prop :=
  forall i o st, nth_error (emOrig p) i = Some o -> nth_error (emStat p) i = Some st -> nth_error (emWork p) i = Some (R o st).
Hypothesis HF : forall w st, h_reach (bdHist w) -> (exists o, In (o, st) pdfs /\ w = with_contents o (hCont (bdHist w))) -> ok w st -> h_reach (bdHist (F w st)) /\ hNBins (bdHist (F w st)) = nk.
Hypothesis Htail : forall p R, loose p -> pairs p = pdfs -> (forall o st, In (o, st) pdfs -> h_reach (bdHist (R o)) /\ R o = with_contents o (hCont (bdHist (R o))) /\ ok (R o) st) ->
  worksG p (fun o _ => R o) -> exists p', tailG p = (p', Ok tt) /\ worksG p' (fun o st => F (R o) st).
Hypothesis Hmode : (sm_count t = 0%nat /\ (forall o st, In (o, st) pdfs -> ok o st) /\
    forall p, loose p -> pairs p = pdfs -> worksG p F -> exists p', tailG p = (p', Ok tt) /\ worksG p' F) \/
  (sm_count t <> 0%nat /\ forall b, In b pdfs -> sfind (bdName (fst b)) (smDists t) <> None).
Notation calmB := (calmB names par build obs bs D D' x).
Notation step := (step bs D D' x).
Record goodG (s : nllh) : Prop := mkGoodG {
  ggCalm : calmB s; ggSkel : skel (nlSm s) t; ggPairs : pairs (nlPm s) = pdfs; ggCm : nlCm s = cm; ggBB : nlBB s = false; ggReg : regs s;
  ggPhase : sm_count t = 0%nat -> worksG (nlPm s) (fun o _ => o) \/ worksG (nlPm s) F }.

Lemma tail_keeps p : loose p -> keeps p (fst (tailG p)) /\ List.length (emWork (fst (tailG p))) = List.length (emWork p).
Proof.
  intros Lo. unfold tailG, chain. destruct (dims_keeps p (osNames (bdObs D'))) as [A B]. destruct (em_dimensions p _) as [p1 r]. cbn [fst] in *.
  destruct r as [[]|e| | |]; cbn [fst]; auto. destruct (shrink_keeps x p1) as [A2 B2]; [eapply keeps_loose; eassumption|]. split; [eapply keeps_trans; eassumption|lia].
Qed.
Lemma in_pairs p o : em_inv (base p) -> In o (emOrig p) -> exists i st, nth_error (emOrig p) i = Some o /\ nth_error (emStat p) i = Some st /\ In (o, st) (pairs p).
Proof.
  intros [L1 _] Ho. cbn [base setOW emStat emOrig] in L1. destruct (In_nth_error _ _ Ho) as [i Hi]. destruct (nth_error (emStat p) i) as [st|] eqn:Es.
  - exists i, st. split; [exact Hi|]. split; [exact Es|]. unfold pairs. apply (nth_error_In _ i). rewrite combine_nth_err, Hi, Es. reflexivity.
  - apply nth_error_None in Es. assert (i < List.length (emOrig p))%nat by (apply nth_error_Some; congruence). lia.
Qed.
Lemma live_of s : loose (nlPm s) -> skel (nlSm s) t -> pairs (nlPm s) = pdfs -> sm_count (nlSm s) = 0%nat \/ live s.
Proof.
  intros [I _] [G [Ds _]] Hp. unfold live. rewrite (count_groups _ _ G), Ds. destruct Hmode as [[Z _]|[Z H]]; [now left|right]. split; [exact Z|].
  intros o Ho. destruct (in_pairs _ o I Ho) as [i [st [_ [_ Hi]]]]. rewrite Hp in Hi. exact (H _ Hi).
Qed.
Lemma orig_reach s o st : calmB s -> pairs (nlPm s) = pdfs -> In (o, st) pdfs -> h_reach (bdHist o).
Proof.
  intros C Hp Hi. rewrite <- Hp in Hi. apply in_combine_l in Hi. pose proof (csOrig _ _ _ _ _ (cbUn _ _ _ _ _ _ _ _ _ C)) as Fo. cbn in Fo. rewrite Forall_forall in Fo. apply (Fo o Hi).
Qed.

Lemma preparedG s : goodG s -> let m := nlSm s in let M := fun q => fst (build q (nlPar s q)) in
  (forall g q, In q (sm_grp m g) -> snd (build q (nlPar s q)) = Ok tt) ->
  (forall g, exists n, Forall (fun q => sized n (M q)) (sm_grp m g)) ->
  (forall o st, In (o, st) pdfs -> Forall (fun q => sized (hNBins (bdHist o)) (M q)) (actS m o)) ->
  (forall o st, In (o, st) pdfs -> ok (respS m M o) st) ->
  exists s2, nl_prepare s = (s2, Ok tt) /\ nlData s2 = D' /\ worksG (nlPm s2) (fun o st => F (respS m M o) st).
Proof.
  intros [C K Hp _ _ _ Ph]. cbv zeta. intros HB HG HS HT. set (M := fun q => fst (build q (nlPar s q))) in *.
  pose proof (cbUn _ _ _ _ _ _ _ _ _ C) as U.
  assert (Eb : forall q, syBuild (smObj (nlSm s) q) = build q (nlPar s q)) by (intros q; apply (csObj _ _ _ _ _ U q)).
  destruct (construct_okI (nlSm s) (csSm _ _ _ _ _ U)) as [m' Ec].
  { intros g q Hq. change (nlSm (un obs s)) with (nlSm s) in *. rewrite Eb. eapply HB; eassumption. }
  { intros g. destruct (HG g) as [n Hn]. exists n. eapply Forall_impl; [|exact Hn]. intros q. cbn beta. now rewrite Eb. }
  pose proof (construct_same (nlSm s)) as Sc. rewrite Ec in Sc. cbn [fst] in Sc.
  destruct (reassert_loose false _ (cb_loose _ _ _ _ _ _ _ _ _ C)) as [p1 [E1 [K1 W1]]].
  assert (C1 : calmB (nl_withPm s p1)).
  { apply (step_calm names par build obs bs D D' x s); [exact C|]. apply (step_pm names par build obs bs D D' x); [exact C|exact K1|now rewrite W1]. }
  destruct (shrinkDataB names par build obs bs D D' x Hmap Hsh (nl_withPm s p1) C1) as [_ [E2 [_ S2]]].
  pose proof K1 as [KO [KS [KA _]]].
  assert (Lo1 : loose p1) by exact (cb_loose _ _ _ _ _ _ _ _ _ C1).
  assert (P1 : pairs p1 = pdfs) by (rewrite <- Hp; unfold pairs; now rewrite KO, KS).
  pose proof Sc as [Sg [Sd _]].
  assert (RR : forall o st, In (o, st) pdfs -> h_reach (bdHist (respS (nlSm s) M o)) /\ respS (nlSm s) M o = with_contents o (hCont (bdHist (respS (nlSm s) M o))) /\ ok (respS (nlSm s) M o) st).
  { intros o st Hi. destruct (respS_reach (nlSm s) M o (orig_reach s o st C Hp Hi)) as [R _]. split; [exact R|]. split; [reflexivity|]. exact (HT o st Hi). }
  assert (Fin : exists p2 p3, em_systematics p1 m' = (p2, Ok tt) /\ tailG p2 = (p3, Ok tt) /\ worksG p3 (fun o st => F (respS (nlSm s) M o) st)).
  { destruct (cbSys _ _ _ _ _ _ _ _ _ C) as [Z|[Lv1 Lv2]].
    - exists p1. pose proof (Z) as Zt. assert (Ct : sm_count t = 0%nat) by (destruct K as [G _]; rewrite <- (count_groups _ _ G); exact Z).
      assert (Es : em_systematics p1 m' = (p1, Ok tt)) by (unfold em_systematics; rewrite (count_groups _ _ Sg), Z; reflexivity).
      assert (Rs : forall o, respS (nlSm s) M o = o) by (intros o; now apply resp0).
      assert (Wg : forall R, worksG (nlPm s) R -> worksG p1 R) by (intros R H i o st Ho Hst; rewrite W1; rewrite KO in Ho; rewrite KS in Hst; exact (H i o st Ho Hst)).
      destruct (Ph Ct) as [P0|P0]; apply Wg in P0.
      + destruct (Htail p1 (fun o => o) Lo1 P1) as [p3 [T1 T2]]; [|exact P0|].
        * intros o st Hi. destruct (RR o st Hi) as [R1 [R2 R3]]. rewrite Rs in R1, R2, R3. auto.
        * exists p3. split; [exact Es|]. split; [exact T1|]. intros i o st Ho Hst. rewrite Rs. exact (T2 i o st Ho Hst).
      + destruct Hmode as [[_ [_ Ha]]|[Zn _]]; [|contradiction]. destruct (Ha p1 Lo1 P1 P0) as [p3 [T1 T2]]. exists p3. split; [exact Es|]. split; [exact T1|].
        intros i o st Ho Hst. rewrite Rs. exact (T2 i o st Ho Hst).
    - assert (Z1 : sized_origs p1) by exact (sized_cb _ _ _ _ _ _ _ _ _ C1).
      destruct (sysB p1 m' Lo1 Z1) as [K2 [L2 Eq2]].
      { intros o Ho. rewrite Sd. apply Lv2. now rewrite <- KO. }
      { rewrite (count_groups _ _ Sg). exact Lv1. }
      destruct (applyS (fst (em_systematics (base p1) m')) (nlSm s) m' (base p1)) as [A B].
      { apply (csSm _ _ _ _ _ U). } { exact Ec. } { now apply base_inv2. } { exact Z1. } { reflexivity. } { cbn. intros j o w H1 H2 _. congruence. }
      { cbn. rewrite KO. intros o Ho. destruct (in_pairs (nlPm s) o (proj1 (cb_loose _ _ _ _ _ _ _ _ _ C)) Ho) as [_ [st [_ [_ Hi]]]]. rewrite Hp in Hi.
        eapply Forall_impl; [|exact (HS o st Hi)]. intros q. cbn beta. now rewrite Eb. }
      assert (Sn : snd (em_systematics p1 m') = Ok tt).
      { destruct (sys_indep p1 m') as [Q _]; [intros o Ho; rewrite Sd; apply Lv2; now rewrite <- KO|rewrite (count_groups _ _ Sg); exact Lv1|apply Lo1|]. rewrite Q. exact A. }
      assert (W2 : emWork (fst (em_systematics p1 m')) = map (respS (nlSm s) M) (emOrig (nlPm s))).
      { rewrite (Eq2 Sn), B. cbn. rewrite KO. apply map_ext. intros o. unfold respS. f_equal. f_equal. apply map_ext. intros q. unfold M. now rewrite Eb. }
      destruct (em_systematics p1 m') as [p2 r2]. cbn [fst snd] in *. subst r2. pose proof K2 as [KO2 [KS2 _]].
      destruct (Htail p2 (respS (nlSm s) M)) as [p3 [T1 T2]].
      { eapply keeps_loose; eassumption. } { rewrite <- P1. unfold pairs. now rewrite KO2, KS2. } { exact RR. }
      { intros i o st Ho Hst. rewrite W2, nth_error_map. rewrite KO2, KO in Ho. rewrite Ho. reflexivity. }
      exists p2, p3. auto. }
  destruct Fin as [p2 [p3 [E3 [E4 W3]]]]. unfold tailG, chain in E4.
  set (sF := nl_withPm (nl_withSm (nl_withShrunk (nl_withPm s p1) x D') m') p3).
  exists sF. split; [|split; [reflexivity|exact W3]].
  unfold nl_prepare, nl_needData. rewrite (cbCalc _ _ _ _ _ _ _ _ _ C). cbn [negb chain]. rewrite (onPm_ok s (em_reassert false) p1 (Ok tt)) by exact E1. cbn [chain]. rewrite E2. cbn [chain].
  unfold nl_construct. cbn [nl_withShrunk nl_withPm nlSm]. rewrite Ec. cbn [chain].
  match goal with |- context [nl_onPm ?t (fun p => em_systematics p (nlSm ?t))] => set (t1 := t) end.
  rewrite (onPm_ok t1 _ p2 (Ok tt)) by exact E3. cbn [chain].
  destruct (em_dimensions p2 (osNames (bdObs D'))) as [pd rd] eqn:Ed. destruct rd as [[]|e| | |]; try discriminate E4.
  rewrite (onPm_ok (nl_withPm t1 p2) _ pd (Ok tt)) by exact Ed. cbn [chain].
  rewrite (onPm_ok (nl_withPm (nl_withPm t1 p2) pd) _ p3 (Ok tt)) by exact E4. reflexivity.
Qed.

(** an evaluation leaves a statistic without systematics in one of its two phases *)
Lemma phaseG s : goodG s -> sm_count t = 0%nat -> worksG (nlPm (fst (nl_eval s))) F.
Proof.
  intros G Z. pose proof G as [C K Hp _ _ _ Ph]. destruct Hmode as [[_ [Hok _]]|[Zn _]]; [|contradiction].
  assert (Zs : sm_count (nlSm s) = 0%nat) by (destruct K as [Gs _]; rewrite (count_groups _ _ Gs); exact Z).
  assert (Rs : forall o, respS (nlSm s) (fun q => fst (build q (nlPar s q))) o = o) by (intros o; now apply resp0).
  destruct (preparedG s G) as [s2 [E2 [D2 W2]]].
  { intros g q Hq. rewrite (grp0 _ Zs) in Hq. destruct Hq. } { intros g. exists 0%nat. rewrite (grp0 _ Zs). constructor. } { intros o st _. rewrite (act0 _ o Zs). constructor. }
  { intros o st Hi. rewrite Rs. exact (Hok o st Hi). }
  pose proof (prepB names par build obs bs D D' x Hmap Hsh s C) as S2. rewrite E2 in S2. cbn [fst] in S2. destruct (step_calm names par build obs bs D D' x s s2 C S2) as [C2 _].
  assert (W2' : worksG (nlPm s2) F) by (intros i o st Ho Hst; rewrite (W2 i o st Ho Hst); now rewrite Rs).
  unfold nl_eval. rewrite E2. pose proof (loopB names par build obs bs D D' x (seq 0 (hNBins (bdHist (nlData s2)))) s2 (Ok 0%R) C2) as [[KO [KS _]] _].
  pose proof (loop_works names par build obs bs D D' x (seq 0 (hNBins (bdHist (nlData s2)))) s2 (Ok 0%R) C2) as Lw.
  destruct (nl_loop s2 _ (Ok 0%R)) as [s3 r]. cbn [fst] in *.
  assert (W3 : worksG (nlPm s3) F) by (intros i o st Ho Hst; rewrite Lw; rewrite KO in Ho; rewrite KS in Hst; exact (W2' i o st Ho Hst)).
  destruct r as [y|e| | |]; exact W3.
Qed.
Lemma eval_good s : goodG s -> goodG (fst (nl_eval s)).
Proof.
  intros G. pose proof G as [C K Hp Hc Hb Hr Ph]. pose proof (evalB names par build obs bs D D' x Hmap Hsh s C) as S1. destruct (step_calm names par build obs bs D D' x s _ C S1) as [C1 _].
  pose proof S1 as [[K1 [K2 _]] [_ [Sh [[E1 [E2 [E3 _]]] _]]]]. assert (K' : skel (nlSm (fst (nl_eval s))) t) by (eapply skel_shape; eassumption).
  constructor; auto; try congruence; [unfold pairs in *; now rewrite K1, K2| |].
  - unfold regs in *. rewrite E3, Hr. f_equal. symmetry. apply refs_eq; apply Sh.
  - intros Z. right. now apply phaseG.
Qed.
Lemma evals_good n : forall s, goodG s -> goodG (nlrun s (repeat NEval n)).
Proof. induction n as [|n IH]; intros s G; cbn [repeat nlrun fold_left nldo]; [exact G|]. apply IH. now apply eval_good. Qed.
Lemma backG s s' : goodG s -> aside s s' -> NLLHS2.calmS names par build obs (un obs s') -> skel (nlSm s') t -> pairs (nlPm s') = pdfs ->
  nlCm s' = cm -> nlBB s' = false -> regs s' -> emOrig (nlPm s') = emOrig (nlPm s) -> emStat (nlPm s') = emStat (nlPm s) -> goodG s'.
Proof.
  intros [C K0 Hp0 _ _ _ Ph] [A1 [A2 [A3 [A4 A5]]]] U K Hp Hcm Hbb Hreg EO ES.
  assert (L : List.length (emWork (nlPm s')) = List.length (emOrig (nlPm s'))) by (rewrite A1, EO; apply C).
  assert (Lo : loose (nlPm s')) by (split; [apply (csInv _ _ _ _ _ U)|exact L]).
  constructor; auto.
  - constructor; auto; [rewrite A5; apply C| |now apply live_of]. destruct (cbStage _ _ _ _ _ _ _ _ _ C) as [B|B]; [left|right]; rewrite A2, A3, A4; exact B.
  - intros Z. unfold worksG. rewrite EO, ES, A1. exact (Ph Z).
Qed.
Lemma tuneG s o : tuning o -> goodG s -> goodG (nldo s o).
Proof.
  intros Ht G. pose proof G as [C K Hp Hc Hb Hr Ph]. pose proof (cbUn _ _ _ _ _ _ _ _ _ C) as U.
  assert (Hst : steady obs o) by (destruct o; cbn in *; auto; contradiction).
  assert (Dec : o = NEval \/ o <> NEval) by (destruct o; auto; right; discriminate). destruct Dec as [->|Hn]; [now apply eval_good|].
  assert (Hcu : nlCalc (un obs s) = true) by exact (cbCalc _ _ _ _ _ _ _ _ _ C).
  destruct (nldoS names par build obs (un obs s) o (Some (mkBed EmptyString hist0 (mk_obsset obs))) t U K Hst (conj Hcu eq_refl)) as [A1 [A2 [A3 [A4 [A5 [A6 A7]]]]]]. cbv zeta in *.
  destruct (tune_un obs s o Ht Hn) as [E As]. rewrite <- E in *. cbn [un nlSm nlPm nlCm nlBB] in *.
  assert (Ec : sys_calls (nlBB s) [o] = []) by (destruct o; cbn in *; auto; contradiction). assert (Epd : pdfs_from (nlBB s) [o] = []) by (destruct o; cbn in *; auto; contradiction).
  rewrite Ec in A2. rewrite Epd in A3. cbn [map smrun] in A2, A3. rewrite app_nil_r in A3. change (pairs (nlPm (nldo s o)) = pairs (nlPm s)) in A3. rewrite Hp in A3.
  assert (EO : emOrig (nlPm (nldo s o)) = emOrig (nlPm s) /\ emStat (nlPm (nldo s o)) = emStat (nlPm s)).
  { destruct o; cbn [tuning] in Ht; try contradiction; try congruence; cbn [nldo].
    - unfold nl_setNorms, em_setNorms. destruct (negb _); cbn [fst]; split; reflexivity.
    - split; reflexivity.
    - unfold nl_setParams. destruct (cm_setAll _ d) as [cs r]. cbn [fst]. clear. generalize (combine (nlReg s) cs). intros l. revert s. induction l as [|rc l IH]; intros s; cbn [fold_left]; [split; reflexivity|].
      destruct (IH (nl_putComp s rc)) as [I1 I2]. rewrite I1, I2. destruct rc as [[|q] c]; [destruct c|]; split; reflexivity. }
  apply (backG s (nldo s o)); auto; try apply EO.
  - rewrite A4. destruct o; cbn in *; auto; contradiction.
  - rewrite A5. destruct o; cbn in *; auto; contradiction.
  - apply A7. right. split; [intros Hy; destruct o; cbn in *; contradiction|exact Hr].
Qed.
Lemma tunesG ts : Forall tuning ts -> forall s, goodG s -> goodG (nlrun s ts).
Proof. unfold nlrun. induction 1 as [|o ts H Fo IH]; intros s G; [exact G|]. cbn [fold_left]. apply IH. now apply tuneG. Qed.

Variable d : smap Qc.
Hypothesis Hnd : NoDup (fitted pdfs).
Hypothesis Hdf : direct_first pdfs.
Lemma eval_gen s p : goodG s -> holds (nlPm s) d -> nl_getParams s = Ok p ->
  (forall s', NLLHS2.calmS names par build obs s' -> nlReg s' = nlReg s -> nlPar s' = nlPar s -> pairs (nlPm s') = pairs (nlPm s) -> holds (nlPm s') d -> nl_getParams s' = Ok p) ->
  let m := nlSm s in let M := fun q => fst (build q (nlPar s q)) in
  (forall g q, In q (sm_grp m g) -> snd (build q (nlPar s q)) = Ok tt) ->
  (forall g, exists n, Forall (fun q => sized n (M q)) (sm_grp m g)) ->
  (forall o st, In (o, st) pdfs -> Forall (fun q => sized (hNBins (bdHist o)) (M q)) (actS m o)) ->
  (forall o st, In (o, st) pdfs -> ok (respS m M o) st) ->
  let mu := fun k => qsum (map (fun b => norm_in d b * cont (bdHist (F (respS m M (fst b)) (snd b))) k) pdfs) in
  snd (nl_eval s) = outcome (cont (bdHist D')) mu (hNBins (bdHist D')) (cman_eval (nlCm s) p).
Proof.
  intros G Hh Eg Sg. cbv zeta. intros HB HG HS HT. set (m := nlSm s) in *. set (M := fun q => fst (build q (nlPar s q))) in *.
  pose proof G as [C K Hp Hc Hb Hr Ph].
  pose proof (cb_loose _ _ _ _ _ _ _ _ _ C) as Lo. pose proof Lo as [[L1 _] L0]. cbn [base setOW emStat emOrig] in L1.
  destruct (preparedG s G HB HG HS HT) as [s2 [E2 [D2 W2]]]. fold m M in W2.
  pose proof (prepB names par build obs bs D D' x Hmap Hsh s C) as S2. rewrite E2 in S2. cbn [fst] in S2. destruct (step_calm names par build obs bs D D' x s s2 C S2) as [C2 _].
  pose proof S2 as [K2 [Lw2 [_ [[F1 [F2 [F3 [F4 [F5 _]]]]] _]]]]. pose proof K2 as [KO [KS _]].
  set (mu := fun k => _).
  set (P := fun s' => step s s' /\ nlData s' = D' /\ emWork (nlPm s') = emWork (nlPm s2)).
  assert (P2 : P s2) by (split; [exact S2|]; split; [exact D2|reflexivity]).
  assert (Fi : forall o st, In (o, st) pdfs -> h_reach (bdHist (F (respS m M o) st)) /\ hNBins (bdHist (F (respS m M o) st)) = nk).
  { intros o st Hi. destruct (respS_reach m M o (orig_reach s o st C Hp Hi)) as [R _]. apply HF; [exact R|exists o; split; [exact Hi|reflexivity]|exact (HT o st Hi)]. }
  assert (W2' : forall i o st, nth_error (emOrig (nlPm s)) i = Some o -> nth_error (emStat (nlPm s)) i = Some st -> nth_error (emWork (nlPm s2)) i = Some (F (respS m M o) st)).
  { intros i o st Ho Hst. apply W2; [now rewrite KO|now rewrite KS]. }
  assert (HP : forall s' k, P s' -> (k < nk)%nat -> snd (nl_bin s' k) = (if qeqb (mu k) 0 then Throw std_runtime_error else Ok (poisson_term (cont (bdHist D') k) (qr (mu k)) 0%R)) /\ P (fst (nl_bin s' k))).
  { intros s' k [Ss [Ds Ws]] Hk. destruct (step_calm names par build obs bs D D' x s s' C Ss) as [Cs _]. pose proof (cb_loose _ _ _ _ _ _ _ _ _ Cs) as Los.
    pose proof Ss as [Ks [_ [_ [[_ [G2 _]] _]]]]. pose proof Ks as [KOs [KSs [KAs _]]].
    assert (Pps : pairs (nlPm s') = pdfs) by (rewrite <- Hp; unfold pairs; now rewrite KOs, KSs).
    destruct (binProb_loose (nlPm s') d k Los) as [B1 [B2 B3]].
    - now rewrite Pps. - now rewrite Pps. - exact (keeps_holds _ _ d Ks Hh).
    - rewrite Ws. intros w Hw. destruct (In_nth_error _ _ Hw) as [i Hi]. assert (Hi2 : (i < List.length (emOrig (nlPm s)))%nat) by (rewrite <- L0, <- Lw2; apply nth_error_Some; congruence).
      destruct (nth_error (emOrig (nlPm s)) i) as [o|] eqn:Eo; [|apply nth_error_None in Eo; lia]. destruct (nth_error (emStat (nlPm s)) i) as [st|] eqn:Es; [|apply nth_error_None in Es; lia].
      rewrite (W2' i o st Eo Es) in Hi. injection Hi as <-. destruct (Fi o st) as [A B]; [rewrite <- Hp; unfold pairs; apply (nth_error_In _ i); rewrite combine_nth_err, Eo, Es; reflexivity|]. split; [exact A|lia].
    - assert (Emu : qsum (map (fun ow => norm_in d (fst (fst ow), snd ow) * cont (bdHist (snd (fst ow))) k) (combine (combine (emOrig (nlPm s')) (emWork (nlPm s'))) (emStat (nlPm s')))) = mu k).
      { rewrite KOs, KSs, Ws. rewrite (mapi_terms D D' nk HD' d (fun o st => F (respS m M o) st)); [|rewrite Lw2; exact L0|exact W2']. unfold mu. f_equal. unfold pairs in Hp. now rewrite Hp. }
      rewrite Emu in B1. split.
      + unfold nl_bin. destruct (em_binProb (nlPm s') k) as [p' r]. cbn [snd] in *. subst r. cbn [bind]. destruct (qeqb (mu k) 0); [reflexivity|].
        destruct HD' as [R1 R2]. rewrite Ds, (data_content D' R1 k) by lia. cbn [bind]. rewrite G2, Hb. reflexivity.
      + unfold nl_bin. destruct (em_binProb (nlPm s') k) as [p' r]. cbn [fst snd] in *. split; [|split; [exact Ds|cbn; now rewrite B3]].
        eapply step_trans; [exact Ss|]. apply (step_pm names par build obs); [exact Cs|exact B2|now rewrite B3]. }
  assert (Nb : hNBins (bdHist D') = nk) by apply HD'.
  pose proof (loop_gen P (cont (bdHist D')) mu nk HP (seq 0 nk) s2 (Ok 0%R) P2) as LL.
  assert (Hl : forall k, In k (seq 0 nk) -> (k < nk)%nat) by (intros k Hk; apply in_seq in Hk; lia). specialize (LL Hl (or_intror (ex_intro _ 0%R eq_refl))).
  unfold nl_eval. rewrite E2, D2, Nb. unfold outcome. destruct (existsb (fun k => qeqb (mu k) 0) (seq 0 nk)).
  - destruct (nl_loop s2 _ (Ok 0%R)) as [s3 r]. cbn [snd] in LL. rewrite LL. reflexivity.
  - destruct LL as [s3 [E3 [S3 _]]]. rewrite E3. cbn [snd]. destruct (step_calm names par build obs bs D D' x s s3 C S3) as [C3 St3].
    pose proof S3 as [K3 [_ [_ [[G1 [G2 [G3 [G4 [G5 _]]]]] _]]]]. pose proof K3 as [KO3 [KS3 _]].
    rewrite <- (getParams_un obs s3). rewrite (Sg (un obs s3)); cbn [un nlReg nlPar nlPm]; auto.
    + cbn [bind]. rewrite G1. unfold accB. destruct (cman_eval (nlCm s) p); try reflexivity. destruct (forallb _ _); cbn [rlift2]; [|reflexivity]. f_equal. ring.
    + apply (cbUn _ _ _ _ _ _ _ _ _ C3).
    + unfold pairs, base. cbn. now rewrite KO3, KS3.
    + exact (keeps_holds _ _ d K3 Hh).
Qed.
End G.
