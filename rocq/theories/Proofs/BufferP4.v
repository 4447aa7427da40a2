(** C98: preparing an evaluation when buffers and systematics are both in use. *)
From Coq Require Import ZArith Reals Lia.
From Verif Require Import Base.Res Base.Num Base.RNum Base.SMap Model.Axis Model.Event Model.Cut Model.Hist Model.ED Model.Param Model.Matrix Model.SystMan Model.Shrink Model.EDMan
  Model.Fill Model.Constraint Model.NLLH Spec.AxisSpec Spec.HistSpec Spec.ParamSpec Spec.EDManSpec Spec.SystManSpec Spec.NLLHSpec Spec.NLLHSysSpec Spec.ShrinkSpec Spec.BufferSpec
  Proofs.AxisP Proofs.HistP Proofs.HistP2 Proofs.HistP4 Proofs.ParamP Proofs.ParamP2 Proofs.ParamP3 Proofs.EDManP Proofs.EDManP2 Proofs.SystManP Proofs.SystManP2 Proofs.SystManP3 Proofs.NLLHP Proofs.NLLHP2
  Proofs.NLLHP3 Proofs.NLLHS1 Proofs.NLLHS2 Proofs.NLLHS3 Proofs.NLLHS4 Proofs.NLLHS5 Proofs.NLLHS6 Proofs.BufferP1 Proofs.BufferP2 Proofs.BufferP3.
Local Open Scope Qc_scope.
Local Open Scope res_scope.

Lemma dims_same p ob : (forall w, In w (emWork p) -> osNames (bdObs w) = ob) -> em_dimensions p ob = (p, Ok tt).
Proof.
  intros H. unfold em_dimensions.
  assert (G : forall l, (forall i, In i l -> (i < List.length (emWork p))%nat) ->
    iterS (fun s1 i => obind s1 (vidx (emWork s1) i) (fun w =>
           if list_eq_dec string_dec (osNames (bdObs w)) ob then (s1, Ok tt)
           else obind s1 (bed_marginalise w ob) (fun w' => (em_setWork s1 (upd (emWork s1) i w'), Ok tt)))) l p = (p, Ok tt)).
  { induction l as [|i l IH]; intros Hl; cbn [iterS]; [reflexivity|].
    assert (Hi : (i < List.length (emWork p))%nat) by (apply Hl; now left).
    rewrite (vidx_nth _ _ bed0) by exact Hi. cbn [obind]. rewrite (H (nth i (emWork p) bed0)) by (apply nth_In; exact Hi).
    destruct (list_eq_dec string_dec ob ob) as [_|n]; [|congruence]. apply IH. intros j Hj. apply Hl. now right. }
  apply G. intros i Hi. apply in_seq in Hi. lia.
Qed.
(** a working pdf after shrinking *)
Definition final (x : shrinker) (st : nfs) (w : bed) : bed :=
  match sh_shrink x w with Ok w1 => if is_direct st then fst (bed_normalise w1) else w1 | _ => w end.
Definition cut_hist (x : shrinker) (w : bed) : hist := match sh_shrink x w with Ok w1 => bdHist w1 | _ => bdHist w end.
Lemma final_ok bs x nk st w : h_reach (bdHist w) -> (exists d', sh_shrink x w = Ok d' /\ osNames (bdObs d') = osNames (bdObs w) /\ cut_down bs (bdHist w) (bdHist d') /\ hNBins (bdHist d') = nk) ->
  match st with NDirect => total (cut_hist x w) <> 0 | NIndirect => total (bdHist w) <> 0 \/ total (cut_hist x w) = 0 | NFalse => True end ->
  shrunk_pdf x st w (final x st w) /\ h_reach (bdHist (final x st w)) /\ hNBins (bdHist (final x st w)) = nk /\ cut_down bs (bdHist w) (cut_hist x w) /\
  forall k b, cont (bdHist (final x st w)) k = kept (b, st) (cut_hist x w) k.
Proof.
  intros Hr [w1 [E1 [_ [Hc Hn]]]] Ht. unfold shrunk_pdf, final, cut_hist in *. rewrite E1 in *. pose proof Hc as [R1 _].
  pose proof (h_reach_ok _ Hr) as O. pose proof (h_reach_ok _ R1) as O1. destruct st; cbn [is_direct].
  - split; [exists w1; auto|]. split; [exact R1|]. split; [exact Hn|]. split; [exact Hc|]. reflexivity.
  - destruct (normalise_ok _ O1 Ht) as [h' [En [SS [N _]]]]. unfold bed_normalise, bed_on. rewrite En. cbn [fst bdHist].
    split; [exists w1; split; [reflexivity|]; split; [exact O|]; split; [exact O1|]; split; [exact Ht|]; exists h'; auto|].
    split; [apply h_ok_reach; eapply same_shape_ok; eassumption|]. split; [destruct SS as [_ [Hb _]]; rewrite <- Hn; exact Hb|]. split; [exact Hc|]. intros k b. cbn [fst bdHist]. unfold kept. cbn [snd is_direct]. apply N.
  - split; [exists w1; auto|]. split; [exact R1|]. split; [exact Hn|]. split; [exact Hc|]. reflexivity.
Qed.

Section B4.
Variables (names : nat -> string) (par : nat -> comp) (build : nat -> comp -> smat * res unit) (obs : list string).
Variables (bs : list shop) (D D' : bed) (x : shrinker) (nk : nat).
Hypothesis Hmap : sh_setBinMap (configured bs) D = (x, Ok tt).
Hypothesis Hsh : sh_shrink x D = Ok D'.
Hypothesis Hobs : osNames (bdObs D') = obs.
Hypothesis Hbuf : shBuf x <> [].
Hypothesis Hbb : (0 < em_bufferBins x < 2 ^ 31)%Z.
Hypothesis HD : h_reach (bdHist D).
Hypothesis Hsmall : (Z.of_nat (hNBins (bdHist D)) < 2 ^ 31)%Z.
Hypothesis Hall : forall d, h_reach (bdHist d) -> hAxes (bdHist d) = hAxes (bdHist D) ->
    exists d', sh_shrink x d = Ok d' /\ osNames (bdObs d') = osNames (bdObs d) /\ cut_down bs (bdHist d) (bdHist d') /\ hNBins (bdHist d') = nk.
Notation calmB := (calmB names par build obs bs D D' x).

Lemma preparedB s : calmB s -> live s -> emOrig (nlPm s) <> [] -> (forall o, In o (emOrig (nlPm s)) -> hAxes (bdHist o) = hAxes (bdHist D)) ->
  let m := nlSm s in let M := fun q => fst (build q (nlPar s q)) in
  (forall g q, In q (sm_grp m g) -> snd (build q (nlPar s q)) = Ok tt) ->
  (forall g, exists n, Forall (fun q => sized n (M q)) (sm_grp m g)) ->
  (forall o, In o (emOrig (nlPm s)) -> Forall (fun q => sized (hNBins (bdHist o)) (M q)) (actS m o)) ->
  (forall o st, In (o, st) (pairs (nlPm s)) -> match st with NDirect => total (cut_hist x (respS m M o)) <> 0 | NIndirect => total (bdHist (respS m M o)) <> 0 \/ total (cut_hist x (respS m M o)) = 0 | NFalse => True end) ->
  exists s2, nl_prepare s = (s2, Ok tt) /\ nlData s2 = D' /\
    forall i o st, nth_error (emOrig (nlPm s)) i = Some o -> nth_error (emStat (nlPm s)) i = Some st -> nth_error (emWork (nlPm s2)) i = Some (final x st (respS m M o)).
Proof.
  intros C [Lv1 Lv2] Hne Hax. cbv zeta. intros HB HG HS HT. set (M := fun q => fst (build q (nlPar s q))) in *.
  pose proof (cbUn _ _ _ _ _ _ _ _ _ C) as U.
  assert (Eb : forall q, syBuild (smObj (nlSm s) q) = build q (nlPar s q)) by (intros q; apply (csObj _ _ _ _ _ U q)).
  destruct (construct_okI (nlSm s) (csSm _ _ _ _ _ U)) as [m' Ec].
  { intros g q Hq. change (nlSm (un obs s)) with (nlSm s) in *. rewrite Eb. eapply HB; eassumption. }
  { intros g. destruct (HG g) as [n Hn]. exists n. eapply Forall_impl; [|exact Hn]. intros q. cbn beta. now rewrite Eb. }
  pose proof (construct_same (nlSm s)) as Sc. rewrite Ec in Sc. cbn [fst] in Sc.
  destruct (reassert_loose false _ (cb_loose _ _ _ _ _ _ _ _ _ C)) as [p1 [E1 [K1 W1]]].
  assert (C1 : calmB (nl_withPm s p1)).
  { apply (step_calm names par build obs bs D D' x s); [exact C|]. apply (step_pm names par build obs bs D D' x); [exact C|exact K1|now rewrite W1]. }
  destruct (shrinkDataB names par build obs bs D D' x Hmap Hsh (nl_withPm s p1) C1) as [_ [E2 [_ S2]]].
  pose proof K1 as [KO [KS [KA _]]].
  assert (Lo1 : loose p1) by exact (cb_loose _ _ _ _ _ _ _ _ _ C1).
  pose proof Sc as [Sg [Sd _]].
  assert (Z1 : sized_origs p1) by exact (sized_cb _ _ _ _ _ _ _ _ _ C1).
  destruct (sysB p1 m' Lo1 Z1) as [K2 [L2 Eq2]].
  { intros o Ho. rewrite Sd. apply Lv2. now rewrite <- KO. }
  { rewrite (count_groups _ _ Sg). exact Lv1. }
  destruct (applyS (fst (em_systematics (base p1) m')) (nlSm s) m' (base p1)) as [A B].
  { apply (csSm _ _ _ _ _ U). } { exact Ec. } { now apply base_inv2. } { exact Z1. } { reflexivity. } { cbn. intros j o w H1 H2 _. congruence. }
  { cbn. rewrite KO. intros o Ho. eapply Forall_impl; [|exact (HS o Ho)]. intros q. cbn beta. now rewrite Eb. }
  assert (Sn : snd (em_systematics p1 m') = Ok tt).
  { destruct (sys_indep p1 m') as [Q _]; [intros o Ho; rewrite Sd; apply Lv2; now rewrite <- KO|rewrite (count_groups _ _ Sg); exact Lv1|apply Lo1|]. rewrite Q. exact A. }
  assert (W2 : emWork (fst (em_systematics p1 m')) = map (respS (nlSm s) M) (emOrig (nlPm s))).
  { rewrite (Eq2 Sn), B. cbn. rewrite KO. apply map_ext. intros o. unfold respS. f_equal. f_equal. apply map_ext. intros q. unfold M. now rewrite Eb. }
  destruct (em_systematics p1 m') as [p2 r2] eqn:E3. cbn [fst snd] in *. subst r2.
  assert (Or : forall o, In o (emOrig (nlPm s)) -> osNames (bdObs o) = obs /\ h_reach (bdHist o)).
  { intros o Ho. pose proof (csOrig _ _ _ _ _ U) as F. cbn in F. rewrite Forall_forall in F. apply F, Ho. }
  assert (E4 : em_dimensions p2 (osNames (bdObs D')) = (p2, Ok tt)).
  { apply dims_same. rewrite Hobs. intros w Hw. rewrite W2 in Hw. apply in_map_iff in Hw as [o [<- Ho]]. apply (Or o Ho). }
  pose proof K2 as [KO2 [KS2 [KA2 _]]].
  assert (Lo2 : loose p2) by (eapply keeps_loose; eassumption).
  assert (LS : List.length (emStat p2) = List.length (emWork p2)).
  { pose proof Lo2 as [[L0 _] L0']. cbn [base setOW emStat emOrig] in L0. lia. }
  destruct (shrinks_ok x (List.length (emWork p2)) 0 p2 (fun i => match nth_error (emStat p2) i, nth_error (emWork p2) i with Some st, Some w => final x st w | _, _ => bed0 end)) as [p3 [E5 [L5 N5]]].
  { apply Lo2. } { lia. } { exact LS. }
  { intros i st w _ Hs Hw. rewrite Hs, Hw. rewrite W2, nth_error_map in Hw. destruct (nth_error (emOrig (nlPm s)) i) as [o|] eqn:Eo; [|discriminate]. cbn [option_map] in Hw. injection Hw as <-.
    pose proof (nth_error_In _ _ Eo) as Ho. destruct (respS_reach (nlSm s) M o (proj2 (Or o Ho))) as [R _].
    apply (final_ok bs x nk st _ R); [apply Hall; [exact R|]; cbn; now apply Hax|].
    apply (HT o st). apply (nth_error_In _ i). unfold pairs. rewrite combine_nth_err, Eo. rewrite KS2, KS in Hs. now rewrite Hs. }
  assert (E6 : em_shrink p2 x = (p3, Ok tt)).
  { unfold em_shrink. destruct (shBuf x) as [|b0 bt]; [congruence|].
    destruct (emOrig (nlPm s)) as [|o0 ot] eqn:Eo; [congruence|]. unfold vat. rewrite W2. cbn [map nth_error obind]. rewrite KO2, KO. cbn [nth_error obind].
    assert (Hb : (Z.of_nat (hNBins (bdHist o0)) < 2 ^ 31)%Z).
    { destruct (Or o0 (or_introl eq_refl)) as [_ R0]. rewrite (h_ok_nbins _ (h_reach_ok _ R0)). unfold shape_of. rewrite (Hax o0 (or_introl eq_refl)).
      rewrite (h_ok_nbins _ (h_reach_ok _ HD)) in Hsmall. exact Hsmall. }
    change (hNBins (bdHist (respS (nlSm s) M o0))) with (hNBins (bdHist o0)).
    destruct (Z.eqb_spec (Z.of_nat (hNBins (bdHist o0))) (w64 (Z.of_nat (hNBins (bdHist o0)) - em_bufferBins x))) as [Ez|_].
    - exfalso. unfold w64 in Ez. set (a := Z.of_nat (hNBins (bdHist o0))) in *. assert (0 <= a)%Z by (unfold a; lia). clearbody a.
      assert (X : ((a - em_bufferBins x) mod 2 ^ 64 = a - em_bufferBins x \/ (a - em_bufferBins x) mod 2 ^ 64 = a - em_bufferBins x + 2 ^ 64)%Z).
      { destruct (Z.le_gt_cases 0 (a - em_bufferBins x)); [left; apply Z.mod_small; lia|right]. rewrite <- (Z.mod_add _ 1) by lia. rewrite Z.mod_small; lia. }
      lia.
    - rewrite Z.eqb_refl. cbn [negb]. rewrite <- E5. f_equal. f_equal. rewrite W2. reflexivity. }
  set (sF := nl_withPm (nl_withSm (nl_withShrunk (nl_withPm s p1) x D') m') p3).
  exists sF. split; [|split; [reflexivity|]].
  - unfold nl_prepare, nl_needData. rewrite (cbCalc _ _ _ _ _ _ _ _ _ C). cbn [negb chain]. rewrite (onPm_ok s (em_reassert false) p1 (Ok tt)) by exact E1. cbn [chain]. rewrite E2. cbn [chain].
    unfold nl_construct. cbn [nl_withShrunk nl_withPm nlSm]. rewrite Ec. cbn [chain].
    match goal with |- context [nl_onPm ?t (fun p => em_systematics p (nlSm ?t))] => set (t1 := t) end.
    rewrite (onPm_ok t1 _ p2 (Ok tt)) by exact E3. cbn [chain].
    rewrite (onPm_ok (nl_withPm t1 p2) _ p2 (Ok tt)) by exact E4. cbn [chain].
    rewrite (onPm_ok (nl_withPm (nl_withPm t1 p2) p2) _ p3 (Ok tt)) by exact E6. reflexivity.
  - intros i o st Ho Hs. change (nlPm sF) with p3. rewrite N5.
    + cbn [Nat.ltb Nat.leb]. rewrite KS2, KS, Hs, W2, nth_error_map, Ho. reflexivity.
    + rewrite W2, map_length. apply nth_error_Some. congruence.
Qed.
End B4.
