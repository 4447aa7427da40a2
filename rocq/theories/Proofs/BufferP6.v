(** C98: packaged. *)
From Coq Require Import ZArith Reals Lia.
From Verif Require Import Base.Res Base.Num Base.RNum Base.SMap Model.Axis Model.Event Model.Cut Model.Hist Model.ED Model.Param Model.Matrix Model.SystMan Model.Shrink Model.EDMan
  Model.Fill Model.Constraint Model.NLLH Spec.AxisSpec Spec.HistSpec Spec.ParamSpec Spec.EDManSpec Spec.SystManSpec Spec.NLLHSpec Spec.NLLHSysSpec Spec.ShrinkSpec Spec.BufferSpec
  Proofs.AxisP Proofs.HistP Proofs.HistP2 Proofs.HistP4 Proofs.ParamP Proofs.ParamP2 Proofs.ParamP3 Proofs.EDManP Proofs.EDManP2 Proofs.SystManP Proofs.SystManP2 Proofs.SystManP3 Proofs.NLLHP Proofs.NLLHP2
  Proofs.NLLHP3 Proofs.NLLHS1 Proofs.NLLHS2 Proofs.NLLHS3 Proofs.NLLHS4 Proofs.NLLHS5 Proofs.NLLHS6 Proofs.NLLHS8 Proofs.BufferP1 Proofs.BufferP2 Proofs.BufferP3 Proofs.BufferP4 Proofs.BufferP5.
Local Open Scope Qc_scope.
Local Open Scope res_scope.

Section B6.
Variables (names : nat -> string) (par : nat -> comp) (build : nat -> comp -> smat * res unit) (obs : list string).
Variables (bs : list shop) (D D' : bed) (x : shrinker).
Hypothesis Hmap : sh_setBinMap (configured bs) D = (x, Ok tt).
Hypothesis Hsh : sh_shrink x D = Ok D'.
Hypothesis Hobs : osNames (bdObs D) = obs.
Notation calmB := (calmB names par build obs bs D D' x).
Variables (pdfs : list (bed * nfs)) (cm : cman) (t : sman).
Hypothesis Hregd : forall b, In b pdfs -> sfind (bdName (fst b)) (smDists t) <> None.
Hypothesis Hcount : sm_count t <> 0%nat.
Record goodB (s : nllh) : Prop := mkGoodB {
  gbCalm : calmB s; gbSkel : skel (nlSm s) t; gbPairs : pairs (nlPm s) = pdfs; gbCm : nlCm s = cm; gbBB : nlBB s = false; gbReg : regs s }.
Lemma regd_orig s : loose (nlPm s) -> skel (nlSm s) t -> pairs (nlPm s) = pdfs ->
  (forall o, In o (emOrig (nlPm s)) -> sfind (bdName o) (smDists (nlSm s)) <> None) /\ sm_count (nlSm s) <> 0%nat.
Proof.
  intros [[L1 _] _] [G [Ds _]] Hp. cbn [base setOW emStat emOrig] in L1. split; [|rewrite (count_groups _ _ G); exact Hcount].
  intros o Ho. rewrite Ds. destruct (In_nth_error _ _ Ho) as [i Hi]. destruct (nth_error (emStat (nlPm s)) i) as [st|] eqn:Es.
  - apply (Hregd (o, st)). rewrite <- Hp. unfold pairs. apply (nth_error_In _ i). rewrite combine_nth_err, Hi, Es. reflexivity.
  - apply nth_error_None in Es. assert (i < List.length (emOrig (nlPm s)))%nat by (apply nth_error_Some; congruence). lia.
Qed.
Lemma back s s' : calmB s -> aside s s' -> NLLHS2.calmS names par build obs (un obs s') -> skel (nlSm s') t -> pairs (nlPm s') = pdfs -> pairs (nlPm s) = pdfs -> calmB s'.
Proof.
  intros C [A1 [A2 [A3 [A4 A5]]]] U K Hp Hp0.
  assert (L : List.length (emWork (nlPm s')) = List.length (emOrig (nlPm s'))).
  { pose proof (csInv _ _ _ _ _ U) as [[L1 _] _]. cbn [un nlPm base setOW emStat emOrig] in L1. pose proof (cb_loose _ _ _ _ _ _ _ _ _ C) as [[L2 _] L3]. cbn [base setOW emStat emOrig] in L2.
    rewrite A1, L3. apply (f_equal (@List.length _)) in Hp. apply (f_equal (@List.length _)) in Hp0. unfold pairs in *. rewrite combine_length in Hp, Hp0. lia. }
  assert (Lo : loose (nlPm s')) by (split; [apply (csInv _ _ _ _ _ U)|exact L]).
  destruct (regd_orig s' Lo K Hp) as [R1 R2]. constructor; auto; [rewrite A5; apply C| |right; now split]. destruct (cbStage _ _ _ _ _ _ _ _ _ C) as [B|B]; [left|right]; rewrite A2, A3, A4; exact B.
Qed.
Lemma tuneB s o : tuning o -> goodB s -> goodB (nldo s o).
Proof.
  intros Ht [C K Hp Hc Hb Hr]. pose proof (cbUn _ _ _ _ _ _ _ _ _ C) as U.
  assert (Hst : steady obs o) by (destruct o; cbn in *; auto; contradiction).
  assert (Dec : o = NEval \/ o <> NEval) by (destruct o; auto; right; discriminate). destruct Dec as [->|Hn].
  - cbn [nldo]. pose proof (evalB names par build obs bs D D' x Hmap Hsh s C) as S1. destruct (step_calm names par build obs bs D D' x s _ C S1) as [C1 _].
    destruct S1 as [[K1 [K2 _]] [_ [Sh [[E1 [E2 [E3 _]]] _]]]]. assert (K' : skel (nlSm (fst (nl_eval s))) t) by (eapply skel_shape; eassumption).
    constructor; auto; try congruence; [unfold pairs in *; now rewrite K1, K2|]. unfold regs in *. rewrite E3, Hr. f_equal. symmetry. apply refs_eq; apply Sh.
  - assert (Hcu : nlCalc (un obs s) = true) by exact (cbCalc _ _ _ _ _ _ _ _ _ C).
    destruct (nldoS names par build obs (un obs s) o (Some (mkBed EmptyString hist0 (mk_obsset obs))) t U K Hst (conj Hcu eq_refl)) as [A1 [A2 [A3 [A4 [A5 [A6 A7]]]]]]. cbv zeta in *.
    destruct (tune_un obs s o Ht Hn) as [E As]. rewrite <- E in *. cbn [un nlSm nlPm nlCm nlBB] in *.
    assert (Ec : sys_calls (nlBB s) [o] = []) by (destruct o; cbn in *; auto; contradiction). assert (Epd : pdfs_from (nlBB s) [o] = []) by (destruct o; cbn in *; auto; contradiction).
    rewrite Ec in A2. rewrite Epd in A3. cbn [map smrun] in A2, A3. rewrite app_nil_r in A3. change (pairs (nlPm (nldo s o)) = pairs (nlPm s)) in A3. rewrite Hp in A3.
    constructor; auto.
    + apply (back s (nldo s o)); auto.
    + rewrite A4. destruct o; cbn in *; auto; contradiction.
    + rewrite A5. destruct o; cbn in *; auto; contradiction.
    + apply A7. right. split; [intros Hy; destruct o; cbn in *; contradiction|exact Hr].
Qed.
Lemma tunesB ts : Forall tuning ts -> forall s, goodB s -> goodB (nlrun s ts).
Proof. unfold nlrun. induction 1 as [|o ts H F IH]; intros s G; [exact G|]. cbn [fold_left]. apply IH. now apply tuneB. Qed.
End B6.

Lemma buffer_pkg names par build obs ops ts d D : let pdfs := NLLHSpec.added ops in let bs := buffers ops in
  (forall q, comp_ok (par q)) -> Forall (setting_up obs) ops -> registered ops -> distinct_names names ops -> bb_in ops = false ->
  data_in ops = Some D -> h_reach (bdHist D) -> (Z.of_nat (hNBins (bdHist D)) < 2 ^ 31)%Z ->
  NoDup (fitted pdfs) -> direct_first pdfs -> pdfs <> [] -> (exists q, is_sys names ops q) ->
  (forall b, In b pdfs -> hAxes (bdHist (fst b)) = hAxes (bdHist D) /\ regd (bdName (fst b)) (sys_accepted names ops) <> None) ->
  unsigned_sizes bs -> (sizes bs < 2 ^ 31)%Z -> Forall (fun a => (lower bs a + upper bs a < aNBins a)%nat) (acAxes (hAxes (bdHist D))) ->
  Exists (fun a => (0 < lower bs a + upper bs a)%nat) (acAxes (hAxes (bdHist D))) ->
  swf d -> (forall n, In n (fitted pdfs) -> has_key d n) ->
  (forall q n, is_sys names ops q -> ~ is_dict (par q) -> In n (c_names (par q)) -> has_key d n) -> Forall tuning ts ->
  exists s p D', nl_setParams (nlrun (nl_new names par build) (ops ++ ts)) d = (s, Ok tt) /\ cut_down bs (bdHist D) (bdHist D') /\
    (forall q n v, is_sys names ops q -> In n (c_names (par q)) -> sfind n d = Some v -> c_get (nlPar s q) n = Ok v) /\
    let M := fun q => fst (build q (nlPar s q)) in
    (forall q, is_sys names ops q -> snd (build q (nlPar s q)) = Ok tt) -> fits names ops M pdfs ->
    exists Sh : bed -> hist, (forall b, In b pdfs -> cut_down bs (bdHist (with_contents (fst b) (responded names ops M (fst b)))) (Sh (fst b))) /\
    ((forall b, In b pdfs -> match snd b with NDirect => total (Sh (fst b)) <> 0 | NIndirect => total (bdHist (with_contents (fst b) (responded names ops M (fst b)))) <> 0 \/ total (Sh (fst b)) = 0 | NFalse => True end) ->
     forall m, let s' := nlrun s (repeat NEval m) in
     nl_getParams s' = Ok p /\
     (forall n v, sfind n d = Some v -> In n (fitted pdfs) \/ (exists q, is_sys names ops q /\ In n (c_names (par q))) -> sfind n p = Some v) /\
     snd (nl_eval s') = outcome (cont (bdHist D')) (fun k => qsum (map (fun b => norm_in d b * kept b (Sh (fst b)) k) pdfs)) (hNBins (bdHist D')) (cman_eval (con_in ops) p)).
Proof.
  cbv zeta. intros Hpar F Hreg Hdn Hbb Hdat HD Hsmall Hnd Hdf Hne Hex Hb Hu Hsz Hfit Hsome Wd Hk Hks Ht. set (bs := buffers ops) in *. set (pdfs := NLLHSpec.added ops) in *.
  destruct (shrinks bs D Hu HD Hsmall Hfit Hsome) as [x [nk [Hmap [Hbx [Hbn Hall]]]]]. destruct (Hall D HD eq_refl) as [D' [Hsh [Ho' [Hcd Hnk]]]].
  assert (HO : osNames (bdObs D) = obs).
  { clear -F Hdat. unfold data_in in Hdat. assert (G : forall a, (forall E, a = Some E -> osNames (bdObs E) = obs) -> fold_left (fun a o => match o with NData b => Some b | NDataSet _ => None | _ => a end) ops a = Some D -> osNames (bdObs D) = obs).
    { clear Hdat. induction F as [|o ops H F IH]; intros a Ha; cbn [fold_left]; [apply Ha|]. apply IH. destruct o; cbn [setting_up] in H; auto; try discriminate. intros E [= <-]. exact H. }
    eapply G; [|exact Hdat]. discriminate. }
  assert (Bx : (0 < em_bufferBins x < 2 ^ 31)%Z).
  { apply Exists_exists in Hsome as [a [_ Ha]]. unfold em_bufferBins. rewrite Hbx. exact (bufferBins_pos bs a Hu Hsz Ha). }
  (* set up *)
  assert (K0 : skel (nlSm (nl_new names par build)) (sm_new (obj0 names))) by (repeat split).
  destruct (nlrunS names par build obs (core ops) (nl_new names par build) None _ (calmS_new names par build obs Hpar) K0 (core_steady obs ops F) I) as [A1 [A2 [A3 [A4 [A5 [A6 A7]]]]]]. cbv zeta in *.
  specialize (A7 (or_intror (core_reg ops Hreg))).
  pose proof (run_core obs ops F (nl_new names par build) sh_new) as RC. change (nl_withSh (nl_new names par build) sh_new) with (nl_new names par build) in RC. fold bs in RC. change (fold_left sh_do bs sh_new) with (configured bs) in RC.
  pose proof (run_shrunk obs ops F (nl_new names par build) eq_refl) as RS.
  set (u := nlrun (nl_new names par build) (core ops)) in *. set (s0 := nlrun (nl_new names par build) ops) in *. change (nlBB (nl_new names par build)) with false in *.
  rewrite core_calls in A2. rewrite core_pdfs in A3. rewrite core_fold in A4 by reflexivity. rewrite core_fold in A5 by reflexivity. rewrite core_fold in A6 by reflexivity.
  change (fold_left NLLHP2.dstep ops None) with (data_in ops) in A6. rewrite Hdat in A6. destruct A6 as [Hc Hd].
  destruct (history_pkg (obj0 names) (sys_calls false ops)) as [HG HDs]. cbv zeta in *.
  change (accepted (sm_new (obj0 names)) (sys_calls false ops)) with (sys_accepted names ops) in HG, HDs.
  set (t := smrun (sm_new (obj0 names)) (sys_calls false ops)) in *.
  assert (Gr : forall a, skel a t -> forall g, sm_grp a g = group_in names ops g).
  { intros a [Ga _] g. unfold group_in. rewrite <- HG. unfold sm_grp. now rewrite Ga. }
  assert (Ac : forall a b, skel a t -> actS a b = acting_on names ops b).
  { intros a b Ka. pose proof Ka as [_ [Da _]]. unfold actS, acting_on. rewrite Da, HDs. destruct (regd (bdName b) (sys_accepted names ops)) as [gs|]; [|reflexivity].
    unfold acting. rewrite (Gr a Ka). f_equal. apply flat_map_ext. apply (Gr a Ka). }
  assert (Hregd : forall b, In b pdfs -> sfind (bdName (fst b)) (smDists t) <> None) by (intros b Hi; rewrite HDs; apply Hb, Hi).
  assert (Hcount : sm_count t <> 0%nat).
  { destruct Hex as [q [g Hq]]. unfold group_in in Hq. rewrite <- HG in Hq. unfold sm_grp in Hq. destruct (sfind g (smGroups t)) as [l|] eqn:E; [|destruct Hq]. intros Z. unfold sm_count in Z.
    clear -E Hq Z. induction (smGroups t) as [|[k v] m IH]; cbn [sfind map list_sum fold_right snd] in *; [discriminate|]. destruct (String.eqb g k); [injection E as ->; destruct l; [destruct Hq|cbn in Z; lia]|]. apply IH; auto. unfold list_sum. lia. }
  assert (Pu : pairs (nlPm u) = pdfs) by (rewrite A3; reflexivity).
  assert (Es0 : nlPm s0 = nlPm u /\ nlSm s0 = nlSm u /\ nlCm s0 = nlCm u /\ nlBB s0 = nlBB u /\ nlReg s0 = nlReg u /\ nlCalc s0 = nlCalc u /\ nlData s0 = nlData u /\ nlSh s0 = configured bs /\ nlPar s0 = nlPar u /\ nlBuild s0 = nlBuild u) by (rewrite RC; repeat split).
  destruct Es0 as [Z1 [Z2 [Z3 [Z4 [Z5 [Z6 [Z7 [Z8 [Z9 Z10]]]]]]]]].
  assert (LW : List.length (emWork (nlPm u)) = List.length (emOrig (nlPm u))).
  { pose proof (csInv _ _ _ _ _ A1) as [_ F2]. apply reshaped_names in F2; apply (f_equal (@List.length _)) in F2; rewrite !map_length in F2; exact F2. }
  assert (U0 : NLLHS2.calmS names par build obs (un obs s0)).
  { constructor; cbn [un nlPm nlSh nlSm nlCalc nlData nlReg nlBuild nlPar]; rewrite ?Z1, ?Z2, ?Z5, ?Z9, ?Z10; try apply A1.
    - apply base_inv2. split; [apply (csInv _ _ _ _ _ A1)|exact LW].
    - reflexivity.
    - intros _. reflexivity.
    - cbn. intros j o w H1 H2 _. congruence. }
  assert (G0 : goodB names par build obs bs D D' x pdfs (con_in ops) t s0).
  { assert (Lo0 : loose (nlPm s0)) by (rewrite Z1; split; [apply (csInv _ _ _ _ _ A1)|exact LW]).
    assert (K0' : skel (nlSm s0) t) by (rewrite Z2; exact A2). assert (Pp0 : pairs (nlPm s0) = pdfs) by (rewrite Z1; exact Pu).
    destruct (regd_orig pdfs t Hregd Hcount s0 Lo0 K0' Pp0) as [R1 R2]. constructor; auto.
    - constructor; auto; [apply Lo0|congruence| |right; now split]. left. split; [exact RS|]. split; [congruence|exact Z8].
    - rewrite Z3, A4. reflexivity.
    - rewrite Z4, A5. exact Hbb.
    - unfold regs in *. rewrite Z5, Z2. exact A7. }
  assert (G1 : goodB names par build obs bs D D' x pdfs (con_in ops) t (nlrun (nl_new names par build) (ops ++ ts))).
  { unfold nlrun. rewrite fold_left_app. apply (tunesB names par build obs bs D D' x Hmap Hsh pdfs (con_in ops) t Hregd Hcount ts Ht). exact G0. }
  set (s1 := nlrun (nl_new names par build) (ops ++ ts)) in *. destruct G1 as [C1 K1 Pp1 Cm1 BB1 Rg1]. pose proof (cbUn _ _ _ _ _ _ _ _ _ C1) as U1.
  destruct (refs_shape (nlSm s1)) as [qs [Eqs [Nqs [Iq1 Iq2]]]]. unfold regs in Rg1. rewrite Eqs in Rg1.
  assert (Sys : forall q, In q (List.concat (map snd (smGroups (nlSm s1)))) <-> is_sys names ops q).
  { intros q. rewrite (in_groups _ q (csSm _ _ _ _ _ U1)). unfold is_sys. split; intros [g Hg]; exists g; [rewrite <- (Gr _ K1)|rewrite <- (Gr _ K1) in Hg]; exact Hg. }
  assert (Qs : forall q, In q qs <-> is_sys names ops q).
  { intros q. split; [intros Hq; apply Sys, Iq1, Hq|]. intros Hq. destruct (Iq2 q (proj2 (Sys q) Hq)) as [q' [Hin En]].
    replace q with q'; [exact Hin|]. apply Hdn; [apply Sys, Iq1, Hin|exact Hq|]. rewrite <- (proj1 (csObj _ _ _ _ _ U1 q)), <- (proj1 (csObj _ _ _ _ _ U1 q')). exact En. }
  assert (Pu1 : pairs (nlPm (un obs s1)) = pdfs) by exact Pp1.
  destruct (setP names par build obs (un obs s1) d qs t U1 K1 Rg1 Nqs Wd) as [v [Ev [Cv [Kv [Mo [T [Hh Hq]]]]]]]; [rewrite Pu1; exact Hnd|rewrite Pu1; exact Hk|intros q n Hin; apply Hks, Qs, Hin|].
  destruct (setParams_un obs s1 d) as [Eu As]. rewrite Eu in Ev. destruct (nl_setParams s1 d) as [s r] eqn:Es. cbn [fst snd] in *. injection Ev as Ev ->. subst v.
  assert (Ps : pairs (nlPm (un obs s)) = pdfs) by (rewrite (structure_pairs _ _ T); exact Pp1).
  assert (Cs : calmB names par build obs bs D D' x s) by (apply (back names par build obs bs D D' x pdfs t Hregd Hcount s1 s C1 As Cv Kv Ps Pp1)).
  destruct Mo as [M1 [M2 [M3 [M4 M5]]]]. cbn [un nlCm nlBB nlReg] in M1, M2, M3.
  destruct (getP names par build obs (un obs s) d qs Cv) as [p [Ep [Wp [Sp [P1 P2]]]]]; [cbn [un nlReg]; congruence|rewrite Ps; exact Hnd|rewrite Ps; exact Hk|exact Hh|exact Hq|]. rewrite Ps in P1, P2.
  exists s, p, D'. split; [reflexivity|]. split; [exact Hcd|]. split; [intros q n w Hs; apply (Hq q), Qs, Hs|]. intros HB [HF1 HF2].
  set (M := fun q => fst (build q (nlPar s q))) in *.
  assert (Or : forall b, In b pdfs -> h_reach (bdHist (fst b))).
  { intros b Hi. rewrite <- Ps in Hi. unfold pairs in Hi. destruct b as [o st]. apply in_combine_l in Hi. pose proof (csOrig _ _ _ _ _ Cv) as Fo. rewrite Forall_forall in Fo. apply (Fo o Hi). }
  assert (Ksm : skel (nlSm s) t) by exact Kv.
  assert (Er : forall a b, skel a t -> respS a M b = with_contents b (responded names ops M b)) by (intros a b Ka; unfold respS, responded; now rewrite (Ac a b Ka)).
  exists (fun b => cut_hist x (with_contents b (responded names ops M b))). split.
  { intros b Hi. rewrite <- (Er _ (fst b) Ksm). destruct (respS_reach (nlSm s) M (fst b) (Or b Hi)) as [R _]. destruct (Hall (respS (nlSm s) M (fst b)) R) as [d' [E1 [_ [E2 _]]]]; [cbn; apply (Hb b Hi)|].
    unfold cut_hist. rewrite E1. exact E2. }
  intros HT m. destruct (evalsB names par build obs bs D D' x Hmap Hsh m s Cs) as [C' S'].
  set (s' := nlrun s (repeat NEval m)) in *.
  pose proof S' as [B1 [B2 [B3 [B4 [B5 [B6 [B7 [B8 [[B9 B9'] [B10 B11]]]]]]]]]]. cbn [un nlCm nlBB nlReg nlPar nlSm] in B1, B2, B3, B5, B8.
  assert (K' : skel (nlSm s') t) by (eapply skel_shape; eassumption).
  assert (Ep' : nl_getParams s' = Ok p) by (rewrite <- (getParams_un obs s'); apply Sp; auto; apply (cbUn _ _ _ _ _ _ _ _ _ C')).
  split; [exact Ep'|]. split; [intros n w Hv H; apply P1; [exact Hv|]; destruct H as [H|[q [Hs Hn]]]; [now left|right]; exists q; split; [now apply Qs|exact Hn]|].
  assert (Pp' : pairs (nlPm s') = pdfs) by (change (pairs (nlPm (un obs s')) = pdfs); rewrite B9; exact Ps).
  assert (Mm : (fun q => fst (build q (nlPar s' q))) = M) by (unfold M; rewrite B5; reflexivity).
  assert (Hobs : osNames (bdObs D') = obs) by congruence. assert (HD' : h_reach (bdHist D') /\ hNBins (bdHist D') = nk) by (split; [apply Hcd|exact Hnk]). assert (Hax : forall b, In b pdfs -> hAxes (bdHist (fst b)) = hAxes (bdHist D)) by (intros b Hi; apply Hb, Hi).
  rewrite (eval_bufs names par build obs bs D D' x nk Hmap Hsh Hobs Hbn Bx HD HD' Hsmall Hall d pdfs Hnd Hdf Hne Hax s' p C'); auto; rewrite ?Mm.
  - rewrite B1, M1, Cm1. f_equal. apply FunctionalExtensionality.functional_extensionality. intros k. f_equal. apply map_ext. intros b. now rewrite (Er _ _ K').
  - destruct (regd_orig pdfs t Hregd Hcount s' (cb_loose _ _ _ _ _ _ _ _ _ C') K' Pp') as [R1 R2]. now split.
  - exact (B10 d Hh).
  - rewrite B2, M2. exact BB1.
  - intros s3 C3 R3 P3 Q3 H3. apply Sp; auto; cbn [un nlReg nlPar]; try congruence.
  - intros g q Hq'. rewrite B5. apply HB. exists g. rewrite <- (Gr _ K'). exact Hq'.
  - intros g. destruct (HF1 g) as [n Hn]. exists n. rewrite (Gr _ K'), B5. exact Hn.
  - intros b Hi. rewrite (Ac _ _ K'), B5. apply HF2, Hi.
  - intros b Hi. rewrite (Er _ _ K'). specialize (HT b Hi). destruct (snd b); auto.
Qed.
