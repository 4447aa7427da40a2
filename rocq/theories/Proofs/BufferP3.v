(** C98: what every call keeps when buffers and systematics are both in use. *)
From Coq Require Import ZArith Reals Lia.
From Verif Require Import Base.Res Base.Num Base.RNum Base.SMap Model.Axis Model.Event Model.Cut Model.Hist Model.ED Model.Param Model.Matrix Model.SystMan Model.Shrink Model.EDMan
  Model.Fill Model.Constraint Model.NLLH Spec.AxisSpec Spec.HistSpec Spec.ParamSpec Spec.EDManSpec Spec.SystManSpec Spec.NLLHSpec Spec.NLLHSysSpec Spec.ShrinkSpec Spec.BufferSpec
  Proofs.AxisP Proofs.HistP Proofs.HistP2 Proofs.ParamP Proofs.ParamP2 Proofs.ParamP3 Proofs.EDManP Proofs.EDManP2 Proofs.SystManP Proofs.SystManP2 Proofs.SystManP3 Proofs.NLLHP Proofs.NLLHP2
  Proofs.NLLHS1 Proofs.NLLHS2 Proofs.NLLHS3 Proofs.NLLHS4 Proofs.NLLHS5 Proofs.NLLHS6 Proofs.BufferP1 Proofs.BufferP2.
Local Open Scope Qc_scope.
Local Open Scope res_scope.

(** the statistic as if there were no buffers and no evaluation had happened *)
Definition un (obs : list string) (s : nllh) : nllh :=
  mkNl (base (nlPm s)) sh_new (mkBed EmptyString hist0 (mk_obsset obs)) false (nlGen s) (nlBB s) (nlSm s) (nlCm s) (nlReg s) (nlCalc s) (nlSet s) (nlCuts s) (nlLog s) (nlPar s) (nlBuild s).
Lemma dims_keeps p ob : keeps p (fst (em_dimensions p ob)) /\ List.length (emWork (fst (em_dimensions p ob))) = List.length (emWork p).
Proof.
  unfold em_dimensions. generalize (seq 0 (List.length (emWork p))). intros l. revert p. induction l as [|i l IH]; intros p; cbn [iterS]; [split; [apply keeps_refl|reflexivity]|].
  destruct (vidx (emWork p) i) as [w| | | |]; cbn [obind fst]; try (split; [apply keeps_refl|reflexivity]).
  destruct (list_eq_dec string_dec (osNames (bdObs w)) ob); [apply IH|].
  destruct (bed_marginalise w ob) as [w'| | | |]; cbn [obind fst]; try (split; [apply keeps_refl|reflexivity]).
  destruct (IH (em_setWork p (upd (emWork p) i w'))) as [A B]. split; [eapply keeps_trans; [|exact A]; repeat split|]. rewrite B. cbn. apply upd_length.
Qed.

Section B3.
Variables (names : nat -> string) (par : nat -> comp) (build : nat -> comp -> smat * res unit) (obs : list string).
Variables (bs : list shop) (D D' : bed) (x : shrinker).
Hypothesis Hmap : sh_setBinMap (configured bs) D = (x, Ok tt).
Hypothesis Hsh : sh_shrink x D = Ok D'.
Notation calmS := (calmS names par build obs).

Definition stage (s : nllh) : Prop :=
  (nlShrunk s = false /\ nlData s = D /\ nlSh s = configured bs) \/ (nlShrunk s = true /\ nlData s = D' /\ nlSh s = x).
(** there is a systematic and every pdf is registered *)
Definition live (s : nllh) : Prop := sm_count (nlSm s) <> 0%nat /\ forall o, In o (emOrig (nlPm s)) -> sfind (bdName o) (smDists (nlSm s)) <> None.
Record calmB (s : nllh) : Prop := mkCalmB {
  cbUn : calmS (un obs s);
  cbLen : List.length (emWork (nlPm s)) = List.length (emOrig (nlPm s));
  cbCalc : nlCalc s = true;
  cbStage : stage s;
  cbSys : sm_count (nlSm s) = 0%nat \/ live s }.
Lemma cb_loose s : calmB s -> loose (nlPm s).
Proof. intros C. split; [|apply C]. apply (csInv _ _ _ _ _ (cbUn _ C)). Qed.
(** one step of an evaluation *)
Definition step (s s' : nllh) : Prop :=
  keeps (nlPm s) (nlPm s') /\ List.length (emWork (nlPm s')) = List.length (emWork (nlPm s)) /\ same_shape (nlSm s) (nlSm s') /\
  (nlCm s' = nlCm s /\ nlBB s' = nlBB s /\ nlReg s' = nlReg s /\ nlGen s' = nlGen s /\ nlPar s' = nlPar s /\ nlSet s' = nlSet s /\ nlCuts s' = nlCuts s /\ nlCalc s' = nlCalc s /\ nlBuild s' = nlBuild s) /\
  stage s'.
Lemma step_refl s : stage s -> step s s.
Proof. intros H. split; [apply keeps_refl|]. split; [reflexivity|]. split; [apply same_refl|]. split; [repeat split|exact H]. Qed.
Lemma step_trans a b c : step a b -> step b c -> step a c.
Proof.
  intros [A1 [A2 [A3 [[A4 [A5 [A6 [A7 [A8 [A9 [A10 [A11 A12]]]]]]]] _]]]] [B1 [B2 [B3 [[B4 [B5 [B6 [B7 [B8 [B9 [B10 [B11 B12]]]]]]]] B13]]]].
  split; [eapply keeps_trans; eassumption|]. split; [lia|]. split; [eapply same_trans; eassumption|]. split; [repeat split; congruence|exact B13].
Qed.
Lemma step_calm s s' : calmB s -> step s s' -> calmB s' /\ stays (un obs s) (un obs s').
Proof.
  intros C [K [L [Sh [[E1 [E2 [E3 [E4 [E5 [E6 [E7 [E8 E9]]]]]]]] St]]]].
  pose proof (keeps_loose _ _ (cb_loose _ C) K) as Lo. assert (Lw : List.length (emWork (nlPm s')) = List.length (emWork (nlPm s))) by exact L. specialize (Lo Lw).
  pose proof K as [K1 [K2 [K3 [K4 [K5 [K6 K7]]]]]]. pose proof Sh as [G [Ds [N B]]]. pose proof (cbUn _ C) as U. split.
  - constructor; auto.
    + constructor; cbn [un nlPm nlSh nlSm nlCalc nlData nlReg nlBuild nlPar]; auto.
      * now apply base_inv2.
      * eapply same_inv; [exact Sh|apply (csSm _ _ _ _ _ U)].
      * cbn. rewrite K1. apply (csOrig _ _ _ _ _ U).
      * rewrite E3. apply (csReg _ _ _ _ _ U).
      * rewrite E9. apply (csBuild _ _ _ _ _ U).
      * intros p. rewrite N, B, E5. apply (csObj _ _ _ _ _ U).
      * intros p. rewrite E5. apply (csPar _ _ _ _ _ U).
      * cbn. intros j o w H1 H2 _. congruence.
    + rewrite K1. rewrite L. apply C.
    + rewrite E8. apply C.
    + unfold live. rewrite Ds, K1, (count_groups _ _ G). exact (cbSys _ C).
  - unfold stays. cbn [un nlCm nlBB nlReg nlGen nlPar nlSet nlCuts nlSm nlPm nlCalc nlData]. repeat (split; [assumption|]). split; [|split].
    + split; [|exact K3]. unfold pairs, base. cbn. now rewrite K1, K2.
    + intros d Hd. assert (Hd' : holds (nlPm s) d) by exact Hd. exact (keeps_holds _ _ d K Hd').
    + intros _. split; [rewrite E8; apply C|reflexivity].
Qed.
Lemma step_pm s p : calmB s -> keeps (nlPm s) p -> List.length (emWork p) = List.length (emWork (nlPm s)) -> step s (nl_withPm s p).
Proof. intros C K L. split; [exact K|]. split; [exact L|]. split; [apply same_refl|]. split; [repeat split|]. exact (cbStage _ C). Qed.
Lemma step_onPm s f : calmB s -> keeps (nlPm s) (fst (f (nlPm s))) /\ List.length (emWork (fst (f (nlPm s)))) = List.length (emWork (nlPm s)) -> step s (fst (nl_onPm s f)).
Proof. intros C [K L]. unfold nl_onPm. destruct (f (nlPm s)) as [p r]. cbn [fst] in *. now apply step_pm. Qed.
Lemma chain_step s y f : calmB s -> step s (fst y) -> (forall s1, calmB s1 -> step s s1 -> step s1 (fst (f s1))) -> step s (fst (chain y f)).
Proof.
  intros C H Hf. unfold chain. destruct y as [s1 [[]|e| | |]]; cbn [fst] in *; auto. eapply step_trans; [exact H|]. apply Hf; [|exact H]. apply (step_calm s s1 C H).
Qed.
Lemma sysB p m : loose p -> sized_origs p -> (forall o, In o (emOrig p) -> sfind (bdName o) (smDists m) <> None) -> sm_count m <> 0%nat ->
  keeps p (fst (em_systematics p m)) /\ List.length (emWork (fst (em_systematics p m))) = List.length (emWork p) /\
  (snd (em_systematics p m) = Ok tt -> em_systematics p m = em_systematics (base p) m).
Proof.
  intros Lo Z H H0. pose proof Lo as [_ L]. destruct (sys_indep p m H H0 L) as [E1 E2].
  destruct (systematics_keep (base p) m (base_inv2 p Lo)) as [K [I2 _]]; [exact Z|]. cbv zeta in *.
  destruct E2 as [E2|[E2 E3]].
  - rewrite E2. split; [eapply keeps_trans; [apply (keeps_base p)|exact K]|]. split.
    + pose proof I2 as [_ F]. apply reshaped_names in F. apply (f_equal (@List.length _)) in F. rewrite !map_length in F. rewrite F. destruct K as [K1 _]. rewrite K1. cbn. now symmetry.
    + intros _. destruct (em_systematics p m), (em_systematics (base p) m). cbn [fst snd] in *. congruence.
  - rewrite E2. split; [apply keeps_refl|]. split; [reflexivity|]. intros E. contradiction.
Qed.
Lemma sized_cb s : calmB s -> sized_origs (nlPm s).
Proof. intros C. exact (sized_of _ _ _ _ _ (cbUn _ C)). Qed.
Lemma shrinkDataB s : calmB s -> exists p, nl_shrinkData s = (nl_withShrunk s x D', Ok tt) /\ p = nlPm s /\ step s (nl_withShrunk s x D').
Proof.
  intros C. exists (nlPm s). split; [|split; [reflexivity|]].
  - unfold nl_shrinkData. destruct (cbStage _ C) as [[E1 [E2 E3]]|[E1 [E2 E3]]]; rewrite E1.
    + rewrite E2, E3, Hmap. cbn [obind]. rewrite Hsh. cbn [obind]. reflexivity.
    + unfold nl_withShrunk. rewrite <- E2, <- E3. destruct s. cbn in *. subst. reflexivity.
  - split; [apply keeps_refl|]. split; [reflexivity|]. split; [apply same_refl|]. split; [repeat split|]. right. repeat split.
Qed.
Lemma prepB s : calmB s -> step s (fst (nl_prepare s)).
Proof.
  intros C. unfold nl_prepare. repeat (apply chain_step; [exact C| |]).
  - unfold nl_needData. rewrite (cbCalc _ C). cbn [negb fst]. apply step_refl, C.
  - intros s1 C1 _. apply step_onPm; [exact C1|]. destruct (reassert_loose false _ (cb_loose _ C1)) as [p' [E [K W]]]. rewrite E. cbn [fst]. split; [exact K|now rewrite W].
  - intros s1 C1 _. destruct (shrinkDataB s1 C1) as [p [E [_ St]]]. rewrite E. exact St.
  - intros s1 C1 _. unfold nl_construct. pose proof (construct_same (nlSm s1)) as Sc. destruct (sm_construct (nlSm s1)) as [m r]. cbn [fst] in *.
    split; [apply keeps_refl|]. split; [reflexivity|]. split; [exact Sc|]. split; [repeat split|exact (cbStage _ C1)].
  - intros s1 C1 _. apply step_onPm; [exact C1|]. destruct (cbSys _ C1) as [Z|[Z1 Z2]].
    + unfold em_systematics. rewrite Z. cbn [Nat.eqb fst]. split; [apply keeps_refl|reflexivity].
    + destruct (sysB (nlPm s1) (nlSm s1) (cb_loose _ C1) (sized_cb _ C1) Z2 Z1) as [K [L _]]. auto.
  - intros s1 C1 _. apply step_onPm; [exact C1|]. apply dims_keeps.
  - intros s1 C1 _. apply step_onPm; [exact C1|]. apply shrink_keeps. now apply cb_loose.
Qed.
Lemma binB s i : calmB s -> step s (fst (nl_bin s i)).
Proof.
  intros C. unfold nl_bin, em_binProb. destruct (reassert_loose true _ (cb_loose _ C)) as [p' [E [K W]]]. rewrite E. cbn [fst]. apply step_pm; [exact C|exact K|now rewrite W].
Qed.
Lemma loopB l : forall s acc, calmB s -> step s (fst (nl_loop s l acc)).
Proof.
  induction l as [|i l IH]; intros s acc C; cbn [nl_loop]; [apply step_refl, C|].
  pose proof (binB s i C) as S1. destruct (nl_bin s i) as [s1 r]. cbn [fst] in S1. destruct r as [y|e| | |]; cbn [fst]; auto.
  eapply step_trans; [exact S1|]. apply IH. apply (step_calm s s1 C S1).
Qed.
Lemma evalB s : calmB s -> step s (fst (nl_eval s)).
Proof.
  intros C. unfold nl_eval. pose proof (prepB s C) as S1. destruct (nl_prepare s) as [s1 r]. cbn [fst] in S1. destruct r as [[]|e| | |]; cbn [fst]; auto.
  pose proof (loopB (seq 0 (hNBins (bdHist (nlData s1)))) s1 (Ok 0%R) (proj1 (step_calm s s1 C S1))) as S2. destruct (nl_loop s1 _ (Ok 0%R)) as [s2 r]. cbn [fst] in S2.
  destruct r as [y|e| | |]; cbn [fst]; eapply step_trans; eassumption.
Qed.
Lemma evalsB n : forall s, calmB s -> calmB (nlrun s (repeat NEval n)) /\ stays (un obs s) (un obs (nlrun s (repeat NEval n))).
Proof.
  induction n as [|n IH]; intros s C; cbn [repeat nlrun fold_left nldo]; [split; [exact C|apply stays_refl]|].
  destruct (step_calm s _ C (evalB s C)) as [C1 S1]. destruct (IH _ C1) as [C2 S2]. split; [exact C2|eapply stays_trans; eassumption].
Qed.

(** tuning calls other than Evaluate do the same to the statistic without buffers *)
Definition aside (s s' : nllh) : Prop := emWork (nlPm s') = emWork (nlPm s) /\ nlSh s' = nlSh s /\ nlData s' = nlData s /\ nlShrunk s' = nlShrunk s /\ nlCalc s' = nlCalc s.
Lemma put_un s rc : un obs (nl_putComp s rc) = nl_putComp (un obs s) rc /\ aside s (nl_putComp s rc).
Proof. destruct rc as [[|q] c]; [destruct c|]; split; try reflexivity; repeat split. Qed.
Lemma puts_un l : forall s, un obs (fold_left nl_putComp l s) = fold_left nl_putComp l (un obs s) /\ aside s (fold_left nl_putComp l s).
Proof.
  induction l as [|rc l IH]; intros s; cbn [fold_left]; [split; [reflexivity|repeat split]|]. destruct (put_un s rc) as [A [A1 [A2 [A3 [A4 A5]]]]].
  destruct (IH (nl_putComp s rc)) as [B [B1 [B2 [B3 [B4 B5]]]]]. rewrite <- A. split; [exact B|]. repeat split; congruence.
Qed.
Lemma comps_un s : map (nl_comp (un obs s)) (nlReg (un obs s)) = map (nl_comp s) (nlReg s).
Proof. cbn [un nlReg]. apply map_ext. intros [|q]; reflexivity. Qed.
Lemma setParams_un s d : nl_setParams (un obs s) d = (un obs (fst (nl_setParams s d)), snd (nl_setParams s d)) /\ aside s (fst (nl_setParams s d)).
Proof.
  unfold nl_setParams. rewrite comps_un. destruct (cm_setAll _ d) as [cs r]. cbn [fst snd un nlReg]. destruct (puts_un (combine (nlReg s) cs) s) as [A B]. split; [|exact B]. f_equal. symmetry. exact A.
Qed.
Lemma getParams_un s : nl_getParams (un obs s) = nl_getParams s.
Proof. unfold nl_getParams. now rewrite comps_un. Qed.
Lemma tune_un s o : tuning o -> o <> NEval -> un obs (nldo s o) = nldo (un obs s) o /\ aside s (nldo s o).
Proof.
  intros H Hn. destruct o; cbn [tuning] in H; try contradiction; try congruence; cbn [nldo].
  - unfold nl_setNorms, em_setNorms. cbn [un nlPm base setOW emOrig]. destruct (negb _); cbn [fst]; (split; [reflexivity|repeat split]).
  - split; [reflexivity|repeat split].
  - destruct (setParams_un s d) as [A B]. rewrite A. split; [reflexivity|exact B].
Qed.
End B3.
