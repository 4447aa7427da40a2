From Coq Require Import ZArith Reals.
From Verif Require Import Base.Res Base.Num Base.RNum Base.SMap Model.Axis Model.Event Model.Cut Model.Hist Model.ED Model.Param
  Model.Matrix Model.SystMan Model.Shrink Model.EDMan Model.Fill Model.Constraint Model.NLLH Spec.AxisSpec Spec.HistSpec Spec.ParamSpec Spec.EDManSpec Spec.NLLHSpec
  Proofs.AxisP Proofs.HistP Proofs.HistP2 Proofs.ParamP Proofs.EDManP Proofs.EDManP2.
Local Open Scope Qc_scope.
Local Open Scope res_scope.

(** ** states without buffers and systematics *)
Record calm (obs : list string) (s : nllh) : Prop := mkCalm {
  cmInv : em_inv (nlPm s);
  cmBuf : shBuf (nlSh s) = [];
  cmGrp : smGroups (nlSm s) = [(EmptyString, [])];
  cmObs : Forall (fun p => osNames (bdObs (fst p)) = obs) (pairs (nlPm s));
  cmDat : nlCalc s = true -> osNames (bdObs (nlData s)) = obs;
  cmReg : nlReg s = [] \/ nlReg s = [RPdfs] }.

Lemma withPm_id s : nl_withPm s (nlPm s) = s. Proof. destruct s; reflexivity. Qed.
Lemma onPm_ok s f p r : f (nlPm s) = (p, r) -> nl_onPm s f = (nl_withPm s p, r).
Proof. unfold nl_onPm. intros ->. reflexivity. Qed.

Lemma works_obs (obs : list string) s : em_inv s -> Forall (fun p => osNames (bdObs (fst p)) = obs) (pairs s) ->
  forall i w, vidx (emWork s) i = Ok w -> osNames (bdObs w) = obs.
Proof.
  intros [H1 [_ [_ [_ [H5 _]]]]] F i w E. rewrite H5 in E.
  assert (Hi : (i < List.length (emOrig s))%nat).
  { unfold vidx in E. destruct (nth_error (emOrig s) i) eqn:N; [|discriminate]. apply nth_error_Some. congruence. }
  rewrite (vidx_nth _ _ bed0) in E by exact Hi. injection E as <-.
  pose proof (pairs_nth s i H1 Hi) as P. apply nth_error_In in P. rewrite Forall_forall in F. apply (F _ P).
Qed.
Lemma dims_id obs s : em_inv s -> Forall (fun p => osNames (bdObs (fst p)) = obs) (pairs s) -> em_dimensions s obs = (s, Ok tt).
Proof.
  intros I F. unfold em_dimensions.
  assert (G : forall l, (forall i, In i l -> (i < List.length (emWork s))%nat) ->
    iterS (fun s1 i => obind s1 (vidx (emWork s1) i) (fun w =>
           if list_eq_dec string_dec (osNames (bdObs w)) obs then (s1, Ok tt)
           else obind s1 (bed_marginalise w obs) (fun w' => (em_setWork s1 (upd (emWork s1) i w'), Ok tt)))) l s = (s, Ok tt)).
  { induction l as [|i l IH]; intros Hl; cbn [iterS]; [reflexivity|].
    assert (Hi : (i < List.length (emWork s))%nat) by (apply Hl; now left).
    rewrite (vidx_nth _ _ bed0) by exact Hi. cbn [obind].
    rewrite (works_obs obs s I F i _ (vidx_nth _ _ bed0 Hi)).
    destruct (list_eq_dec string_dec obs obs) as [_|n]; [|congruence]. apply IH. intros j Hj. apply Hl. now right. }
  apply G. intros i Hi. apply in_seq in Hi. lia.
Qed.

Lemma calm_pm obs s p : calm obs s -> same_structure (nlPm s) p -> calm obs (nl_withPm s p).
Proof.
  intros C T. constructor; cbn.
  - eapply structure_inv; [exact T|apply C].
  - apply C. - apply C.
  - rewrite (structure_pairs _ _ T). apply C.
  - apply C. - apply C.
Qed.
Lemma calm_shrunk obs s : calm obs s -> calm obs (nl_withShrunk s (nlSh s) (nlData s)).
Proof. intros C. constructor; cbn; apply C. Qed.

(** BinData *)
Definition same_setup (s s' : nllh) : Prop :=
  nlPm s' = nlPm s /\ nlSh s' = nlSh s /\ nlSm s' = nlSm s /\ nlCm s' = nlCm s /\ nlReg s' = nlReg s /\ nlBB s' = nlBB s /\
  nlGen s' = nlGen s /\ nlPar s' = nlPar s /\ nlBuild s' = nlBuild s /\ nlSet s' = nlSet s /\ nlCuts s' = nlCuts s /\ nlShrunk s' = nlShrunk s.
Lemma bed_on_obs f b : bdObs (fst (bed_on f b)) = bdObs b.
Proof. unfold bed_on. destruct (f (bdHist b)). reflexivity. Qed.
Lemma fillEvent_obs b e w : bdObs (fst (bed_fillEvent b e w)) = bdObs b.
Proof.
  unfold bed_fillEvent. destruct (toObsSet e (bdObs b)); try reflexivity.
  pose proof (bed_on_obs (fun h => fill h a w) b) as H. destruct (bed_on _ b). exact H.
Qed.
Lemma fillLog_obs b data cs log : bdObs (fst (fst (fill_distLog b data cs log [] (-1)%Z))) = bdObs b.
Proof.
  unfold fill_distLog. generalize (seq 0 (n_events data (-1)%Z)). intros l. revert b log. induction l as [|i l IH]; intros b log; cbn [iterS]; [reflexivity|].
  destruct (do e0 <- get_entry data i; esm_apply [] e0) as [e|x| | |]; cbn [obind fst snd]; try reflexivity.
  destruct (passesCutsLog cs e log) as [l1 r]. destruct r as [b0|x| | |]; cbn [obind fst]; try reflexivity.
  destruct b0; [|apply IH]. pose proof (fillEvent_obs b e 1) as H. destruct (bed_fillEvent b e 1) as [b' r']. cbn [fst] in H.
  destruct r' as [u|x| | |]; cbn [fst]; auto. rewrite <- H. apply IH.
Qed.
Lemma binData_setup s : same_setup s (fst (nl_binData s)) /\
  (nlCalc s = false -> snd (nl_binData s) <> Ok tt -> nlCalc (fst (nl_binData s)) = false) /\
  (snd (nl_binData s) = Ok tt -> nlCalc (fst (nl_binData s)) = true /\
     exists o, nth_error (emOrig (nlPm s)) 0 = Some o /\ osNames (bdObs (nlData (fst (nl_binData s)))) = osNames (bdObs o)).
Proof.
  unfold nl_binData. unfold vat. destruct (nth_error (emOrig (nlPm s)) 0) as [o|] eqn:E0; cbn [obind].
  2: { split; [repeat split|]. split; [auto|intros H; discriminate]. }
  pose proof (bed_on_obs empty_bins o) as H0. unfold bed_empty. destruct (bed_on empty_bins o) as [b0 r]. cbn [fst] in H0.
  destruct r as [u|x| | |]; cbn [obind fst snd]; try (split; [repeat split|split; [auto|intros H; discriminate]]).
  destruct (nlSet s) as [data|]; cbn [obind fst snd]; try (split; [repeat split|split; [auto|intros H; discriminate]]).
  pose proof (fillLog_obs b0 data (nlCuts s) (mk_log (map cutName (nlCuts s)))) as H1.
  destruct (fill_distLog b0 data (nlCuts s) _ [] (-1)%Z) as [[b1 log] r1]. cbn [fst snd] in H1.
  destruct r1 as [u1|x| | |]; cbn [obind fst snd]; try (split; [repeat split|split; [auto|intros H; discriminate]]).
  split; [repeat split|]. split.
  - intros _ C. destruct u1. congruence.
  - intros _. split; [reflexivity|]. exists o. split; [reflexivity|]. cbn. rewrite H1, H0. reflexivity.
Qed.

Lemma needData_calm obs s : calm obs s -> calm obs (fst (nl_needData s)) /\ same_setup s (fst (nl_needData s)) /\
  (snd (nl_needData s) = Ok tt -> nlCalc (fst (nl_needData s)) = true) /\
  (nlCalc s = true -> nl_needData s = (s, Ok tt)).
Proof.
  intros C. unfold nl_needData. destruct (nlCalc s) eqn:E; cbn [negb fst snd].
  - split; [exact C|]. split; [repeat split|]. auto.
  - destruct (nlSet s) as [data|] eqn:Es; cbn [fst snd]; [|split; [exact C|split; [repeat split|split; [discriminate|discriminate]]]].
    destruct (binData_setup s) as [S0 [S1 S2]]. set (t := nl_binData s) in *. split; [|split; [exact S0|split; [|discriminate]]].
    + destruct S0 as [A1 [A2 [A3 [A4 [A5 _]]]]]. constructor; rewrite ?A1, ?A2, ?A3, ?A5; try apply C.
      intros Hc. assert (D : snd t = Ok tt).
      { destruct (snd t) as [[]|x| | |] eqn:E2; [reflexivity| | | |]; rewrite (S1 E) in Hc; discriminate. }
      destruct (S2 D) as [_ [o [Ho ->]]].
      pose proof (cmObs _ _ C) as F. pose proof (cmInv _ _ C) as [L1 _].
      assert (Hl : (0 < List.length (emOrig (nlPm s)))%nat) by (apply nth_error_Some; congruence).
      pose proof (pairs_nth (nlPm s) 0 L1 Hl) as P. apply nth_error_In in P. rewrite Forall_forall in F. specialize (F _ P). cbn [fst] in F.
      rewrite (nth_error_nth _ _ bed0 Ho) in F. exact F.
    + intros D. apply S2, D.
Qed.

Lemma prepare_calm obs s : calm obs s -> exists p, same_structure (nlPm s) p /\ em_reassert false (nlPm s) = (p, Ok tt) /\
  let s0 := fst (nl_needData s) in
  nl_prepare s = match snd (nl_needData s) with
                 | Ok _ => (nl_withShrunk (nl_withPm s0 p) (nlSh s) (nlData s0), Ok tt)
                 | _ => nl_needData s
                 end.
Proof.
  intros C. destruct (needData_calm obs s C) as [C0 [S0 [D0 _]]].
  destruct (reassert_ok false (nlPm s) (cmInv _ _ C)) as [p [E [T _]]]. exists p. split; [exact T|]. split; [exact E|]. cbv zeta.
  unfold nl_prepare. destruct (nl_needData s) as [s0 r] eqn:En. cbn [fst snd] in *.
  destruct r as [[]|x| | |]; cbn [chain]; try reflexivity. specialize (D0 eq_refl).
  destruct S0 as [A1 [A2 [A3 _]]].
  rewrite (onPm_ok s0 (em_reassert false) p (Ok tt)) by (rewrite A1; exact E). cbn [chain].
  assert (Cp : calm obs (nl_withPm s0 p)) by (apply calm_pm; [exact C0|rewrite A1; exact T]).
  assert (Es : nl_shrinkData (nl_withPm s0 p) = (nl_withShrunk (nl_withPm s0 p) (nlSh s) (nlData s0), Ok tt)).
  { unfold nl_shrinkData. destruct (nlShrunk (nl_withPm s0 p)) eqn:Esh.
    - destruct s0. cbn in *. subst. reflexivity.
    - unfold sh_setBinMap, sh_shrink. rewrite (cmBuf _ _ Cp). cbn [obind]. rewrite (cmBuf _ _ Cp). cbn [obind].
      cbn [nlSh nl_withPm]. rewrite A2. reflexivity. }
  rewrite Es. cbn [chain]. set (s1 := nl_withShrunk (nl_withPm s0 p) (nlSh s) (nlData s0)).
  assert (C1 : calm obs s1).
  { unfold s1. pose proof (calm_shrunk obs _ Cp) as H. cbn [nlSh nl_withPm nlData] in H. rewrite A2 in H. exact H. }
  assert (Hc : sm_count (nlSm s1) = 0%nat) by (unfold sm_count; rewrite (cmGrp _ _ C1); reflexivity).
  assert (Ec : nl_construct s1 = (s1, Ok tt)).
  { unfold nl_construct, sm_construct. rewrite Hc. cbn [Nat.eqb]. unfold s1. destruct s0; reflexivity. }
  rewrite Ec. cbn [chain].
  assert (Hid : forall f, f (nlPm s1) = (nlPm s1, Ok tt) -> nl_onPm s1 f = (s1, Ok tt)).
  { intros f Hf. rewrite (onPm_ok _ _ _ _ Hf). now rewrite withPm_id. }
  rewrite Hid by (unfold em_systematics; rewrite Hc; reflexivity). cbn [chain].
  assert (Hcalc : nlCalc s1 = true) by exact D0.
  rewrite Hid. 2: { rewrite (cmDat _ _ C1 Hcalc). apply dims_id; [apply C1|apply C1]. }
  cbn [chain]. rewrite Hid; [reflexivity|]. unfold em_shrink. rewrite (cmBuf _ _ C1). reflexivity.
Qed.

(** ** the loop over the bins *)
Lemma bin_frame obs s i : calm obs s -> exists p, em_reassert true (nlPm s) = (p, Ok tt) /\ same_structure (nlPm s) p /\
  fst (nl_bin s i) = nl_withPm s p.
Proof.
  intros C. destruct (reassert_ok true (nlPm s) (cmInv _ _ C)) as [p [E [T _]]]. exists p. split; [exact E|]. split; [exact T|].
  unfold nl_bin. pose proof (binProb_state (nlPm s) i (cmInv _ _ C)) as H. rewrite E in H. cbn [fst] in H.
  destruct (em_binProb (nlPm s) i) as [q r]. cbn [fst] in *. subst. reflexivity.
Qed.
Definition pmlike (s s' : nllh) : Prop := same_structure (nlPm s) (nlPm s') /\ s' = nl_withPm s (nlPm s') /\
  (forall d, holds (nlPm s) d -> holds (nlPm s') d).
Lemma pmlike_refl s : pmlike s s.
Proof. split; [apply structure_refl|]. split; [symmetry; apply withPm_id|auto]. Qed.
Lemma pmlike_trans a b c : pmlike a b -> pmlike b c -> pmlike a c.
Proof.
  intros [A1 [A2 A3]] [B1 [B2 B3]]. split; [eapply structure_trans; eassumption|]. split; [|auto].
  rewrite B2, A2. reflexivity.
Qed.
Lemma reassert_holds c s s' d : em_inv s -> em_reassert c s = (s', Ok tt) -> holds s d -> holds s' d.
Proof.
  intros I E H. pose proof (asks_holds [EReassert c] s d I) as A. cbn [emrun fold_left emdo] in A. rewrite E in A. apply A; auto.
  repeat constructor.
Qed.
Lemma bin_like obs s i : calm obs s -> pmlike s (fst (nl_bin s i)) /\ calm obs (fst (nl_bin s i)).
Proof.
  intros C. destruct (bin_frame obs s i C) as [p [E [T ->]]]. split; [|apply calm_pm; auto].
  split; [exact T|]. split; [reflexivity|]. intros d H. eapply reassert_holds; [apply C|exact E|exact H].
Qed.
Lemma loop_like obs l : forall s acc, calm obs s -> pmlike s (fst (nl_loop s l acc)) /\ calm obs (fst (nl_loop s l acc)).
Proof.
  induction l as [|i l IH]; intros s acc C; cbn [nl_loop].
  - split; [apply pmlike_refl|exact C].
  - pose proof (bin_like obs s i C) as [P1 C1]. destruct (nl_bin s i) as [s1 r]. cbn [fst] in P1, C1.
    destruct r as [x|x| | |]; cbn [fst]; auto. destruct (IH s1 (rlift2 Rplus acc x) C1) as [P2 C2]. split; [eapply pmlike_trans; eassumption|exact C2].
Qed.
(** what an evaluation does to the state *)
Definition evallike (s s' : nllh) : Prop :=
  nlSh s' = nlSh s /\ nlSm s' = nlSm s /\ nlCm s' = nlCm s /\ nlReg s' = nlReg s /\ nlBB s' = nlBB s /\
  nlGen s' = nlGen s /\ nlPar s' = nlPar s /\ nlBuild s' = nlBuild s /\ nlSet s' = nlSet s /\ nlCuts s' = nlCuts s /\
  same_structure (nlPm s) (nlPm s') /\ (forall d, holds (nlPm s) d -> holds (nlPm s') d) /\
  (nlCalc s = true -> nlCalc s' = true /\ nlData s' = nlData s).
Lemma eval_calm obs s : calm obs s -> calm obs (fst (nl_eval s)) /\ evallike s (fst (nl_eval s)).
Proof.
  intros C. destruct (needData_calm obs s C) as [C0 [S0 [D0 K0]]].
  destruct (prepare_calm obs s C) as [p [T [Er Ep]]]. cbv zeta in Ep. unfold nl_eval. rewrite Ep. clear Ep.
  destruct (nl_needData s) as [s0 r] eqn:En. cbn [fst snd] in *.
  assert (Q : calm obs s0 /\ evallike s s0).
  { split; [exact C0|]. destruct S0 as [A1 [A2 [A3 [A4 [A5 [A6 [A7 [A8 [A9 [A10 [A11 _]]]]]]]]]]].
    repeat (split; [assumption|]). rewrite A1. split; [apply structure_refl|]. split; [auto|].
    intros H. specialize (K0 H). injection K0 as -> _. auto. }
  destruct r as [[]|x| | |]; cbn [fst]; try exact Q. clear Q.
  set (s1 := nl_withShrunk (nl_withPm s0 p) (nlSh s) (nlData s0)).
  pose proof S0 as [A1 [A2 _]].
  assert (C1 : calm obs s1).
  { assert (Cp : calm obs (nl_withPm s0 p)) by (apply calm_pm; [exact C0|rewrite A1; exact T]).
    pose proof (calm_shrunk obs _ Cp) as H. cbn [nlSh nl_withPm nlData] in H. rewrite A2 in H. exact H. }
  assert (R1 : evallike s s1).
  { destruct S0 as [_ [_ [A3 [A4 [A5 [A6 [A7 [A8 [A9 [A10 [A11 _]]]]]]]]]]]. unfold s1.
    split; [reflexivity|]. repeat (split; [assumption|]). cbn. split; [|intros H; specialize (K0 H); injection K0 as ->; auto].
    intros d H. eapply reassert_holds; [apply C|exact Er|exact H]. }
  pose proof (loop_like obs (seq 0 (hNBins (bdHist (nlData s1)))) s1 (Ok 0%R) C1) as [P2 C2].
  destruct (nl_loop s1 _ (Ok 0%R)) as [s2 acc]. cbn [fst] in P2, C2.
  assert (R2 : evallike s s2).
  { destruct P2 as [B1 [B2 B3]]. destruct R1 as [A3 [A4 [A5 [A6 [A7 [A8 [A9 [A10 [A11 [A12 [A13 [A14 A15]]]]]]]]]]]]. rewrite B2.
    repeat (split; [assumption|]). cbn. split; [eapply structure_trans; eassumption|]. auto. }
  destruct acc as [x|x| | |]; cbn [fst]; auto.
Qed.
