(** Evaluating again gives the same answer. *)
From Coq Require Import ZArith Reals Lra.
From Verif Require Import Base.Res Base.Num Base.RNum Base.SMap Model.Axis Model.Event Model.Cut Model.Hist Model.ED Model.Param
  Model.Matrix Model.SystMan Model.Shrink Model.EDMan Model.Fill Model.Constraint Model.NLLH Spec.AxisSpec Spec.CutSpec Spec.HistSpec Spec.ParamSpec Spec.FillSpec Spec.EDManSpec Spec.NLLHSpec
  Proofs.AxisP Proofs.HistP Proofs.HistP2 Proofs.HistP4 Proofs.ParamP Proofs.ParamP3 Proofs.EDManP Proofs.EDManP2 Proofs.NLLHP Proofs.NLLHP2 Proofs.NLLHP3 Proofs.NLLHP6.
Local Open Scope Qc_scope.
Local Open Scope res_scope.

Definition dir_at (s : edman) (m : nat) : bool := match nth_error (emStat s) m with Some NDirect => true | _ => false end.
Definition weq (s t : edman) : Prop :=
  same_structure s t /\ emFit t = emFit s /\
  forall m, emAllDir s = true \/ dir_at s m = false -> nth m (emNorms t) 0 = nth m (emNorms s) 0.
Lemma weq_refl s : weq s s. Proof. split; [apply structure_refl|]. auto. Qed.
Lemma weq_trans a b c : weq a b -> weq b c -> weq a c.
Proof.
  intros [A1 [A2 A3]] [B1 [B2 B3]]. split; [eapply structure_trans; eassumption|]. split; [congruence|]. intros m H.
  rewrite B3, A3; auto. destruct A1 as [_ [_ [E1 [E2 _]]]]. unfold dir_at in *. rewrite E1, E2. exact H.
Qed.
Lemma weq_sym a b : weq a b -> weq b a.
Proof.
  intros [A1 [A2 A3]]. destruct A1 as [E1 [E2 [E3 [E4 [E5 [E6 E7]]]]]]. split; [repeat split; congruence|]. split; [congruence|].
  intros m H. symmetry. apply A3. unfold dir_at in *. rewrite E3, E4 in H. exact H.
Qed.
Lemma weq_inv s t : weq s t -> em_inv s -> em_inv t.
Proof. intros [A _]. apply structure_inv, A. Qed.
Lemma weq_true s p : em_inv s -> em_reassert true s = (p, Ok tt) -> weq s p.
Proof.
  intros I E. destruct (reassert_ok true s I) as [p' [E' [T [F [D N]]]]]. rewrite E in E'. injection E' as <-.
  split; [exact T|]. split; [exact F|]. intros m H. destruct (emAllDir s) eqn:Ea; [rewrite D; auto|].
  rewrite (N eq_refl m). destruct H as [H|H]; [discriminate|]. unfold dir_at in H. destruct (nth_error (emStat s) m) as [[]|]; try reflexivity. discriminate.
Qed.
(** same up to everything *)
Definition veq (s t : edman) : Prop := same_structure s t /\ emFit t = emFit s /\ emNorms t = emNorms s.
Lemma true_veq s t p q : em_inv s -> weq s t -> em_reassert true s = (p, Ok tt) -> em_reassert true t = (q, Ok tt) -> veq p q.
Proof.
  intros I W Ep Eq. pose proof (weq_inv _ _ W I) as It.
  destruct (reassert_ok true s I) as [p' [E' [T [F [D N]]]]]. rewrite Ep in E'. injection E' as <-.
  destruct (reassert_ok true t It) as [q' [E' [T' [F' [D' N']]]]]. rewrite Eq in E'. injection E' as <-.
  pose proof (weq_trans _ _ _ (weq_sym _ _ (weq_true _ _ I Ep)) (weq_trans _ _ _ W (weq_true _ _ It Eq))) as [V1 [V2 V3]].
  split; [exact V1|]. split; [exact V2|]. apply (nth_ext _ _ 0 0); [apply V1|]. intros m _. destruct W as [W1 [W2 W3]].
  pose proof T as [_ [_ [TS [TA _]]]]. pose proof W1 as [_ [_ [WS [WA _]]]].
  destruct (emAllDir s) eqn:Ea; [apply V3; left; congruence|].
  destruct (dir_at s m) eqn:Ed; [|apply V3; right; unfold dir_at in *; rewrite TS; exact Ed].
  rewrite N, N' by congruence. rewrite WS, W2. unfold dir_at in Ed. destruct (nth_error (emStat s) m) as [[]|]; try discriminate. reflexivity.
Qed.
Lemma false_weq s t p q : em_inv s -> weq s t -> em_reassert false s = (p, Ok tt) -> em_reassert false t = (q, Ok tt) -> weq p q.
Proof.
  intros I W Ep Eq. pose proof (weq_inv _ _ W I) as It.
  destruct (reassert_ok false s I) as [p' [E' [T [F [D N]]]]]. rewrite Ep in E'. injection E' as <-.
  destruct (reassert_ok false t It) as [q' [E' [T' [F' [D' N']]]]]. rewrite Eq in E'. injection E' as <-.
  pose proof W as [W1 [W2 W3]]. pose proof T as [_ [_ [TS [TA _]]]]. pose proof W1 as [_ [_ [WS [WA _]]]].
  assert (SS : same_structure p q).
  { destruct T as [a1 [a2 [a3 [a4 [a5 [a6 a7]]]]]], T' as [b1 [b2 [b3 [b4 [b5 [b6 b7]]]]]], W1 as [c1 [c2 [c3 [c4 [c5 [c6 c7]]]]]]. repeat split; congruence. }
  split; [exact SS|]. split; [congruence|]. intros m H. unfold dir_at in H. rewrite TA, TS in H. fold (dir_at s m) in H.
  destruct (emAllDir s) eqn:Ea; [rewrite D, D' by congruence; apply W3; auto|].
  rewrite N, N' by congruence. rewrite WS, W2. rewrite (W3 m H). reflexivity.
Qed.
Lemma false_again s p q : em_inv s -> em_reassert false s = (p, Ok tt) -> em_reassert false p = (q, Ok tt) -> weq p q.
Proof.
  intros I Ep Eq. destruct (reassert_ok false s I) as [p' [E' [T [F [D N]]]]]. rewrite Ep in E'. injection E' as <-.
  pose proof (structure_inv _ _ T I) as Ip. destruct (reassert_ok false p Ip) as [q' [E' [T' [F' [D' N']]]]]. rewrite Eq in E'. injection E' as <-.
  split; [exact T'|]. split; [exact F'|]. intros m H. pose proof T as [_ [_ [TS [TA _]]]].
  destruct (emAllDir s) eqn:Ea; [rewrite D' by congruence; reflexivity|].
  rewrite N' by congruence. rewrite TS, F. rewrite (N eq_refl m). destruct (match nth_error (emStat s) m with Some x => sel false x | None => false end); reflexivity.
Qed.

Lemma foldM_ext' {A B} (f g : B -> A -> res B) l : (forall a b, f a b = g a b) -> forall b, foldM f l b = foldM g l b.
Proof. intros H. induction l as [|x l IH]; intros b; cbn; [reflexivity|]. rewrite H. destruct (g b x); cbn; auto. Qed.
Lemma veq_term p q v acc i : veq p q -> em_term q v acc i = em_term p v acc i.
Proof. intros [[A1 [A2 [A3 [A4 [A5 [A6 A7]]]]]] [B C]]. unfold em_term. rewrite A2, A3, B, C. reflexivity. Qed.

Definition nleq (s t : nllh) : Prop := weq (nlPm s) (nlPm t) /\ t = nl_withPm s (nlPm t).
Lemma nleq_refl s : nleq s s. Proof. split; [apply weq_refl|symmetry; apply withPm_id]. Qed.
Lemma nleq_trans a b c : nleq a b -> nleq b c -> nleq a c.
Proof. intros [A1 A2] [B1 B2]. split; [eapply weq_trans; eassumption|]. rewrite B2, A2. reflexivity. Qed.
Lemma nleq_sym a b : nleq a b -> nleq b a.
Proof. intros [A1 A2]. split; [apply weq_sym, A1|]. rewrite A2. cbn. destruct a; reflexivity. Qed.

Lemma bin_nleq s t i : em_inv (nlPm s) -> nleq s t ->
  snd (nl_bin t i) = snd (nl_bin s i) /\ nleq (fst (nl_bin s i)) (fst (nl_bin t i)) /\ nleq s (fst (nl_bin s i)).
Proof.
  intros I [W E]. pose proof (weq_inv _ _ W I) as It.
  destruct (reassert_ok true (nlPm s) I) as [p [Ep [Tp _]]]. destruct (reassert_ok true (nlPm t) It) as [q [Eq [Tq _]]].
  pose proof (true_veq _ _ _ _ I W Ep Eq) as V. unfold nl_bin, em_binProb. rewrite Ep, Eq. cbn [fst snd].
  assert (Es : foldM (em_term q (fun w => getBinContent (bdHist w) i)) (seq 0 (List.length (emWork q))) (0, 0%nat) =
               foldM (em_term p (fun w => getBinContent (bdHist w) i)) (seq 0 (List.length (emWork p))) (0, 0%nat)).
  { destruct V as [[A1 [A2 A3]] B]. rewrite A2. apply foldM_ext'. intros a b. apply veq_term. split; [split; [exact A1|split; [exact A2|exact A3]]|exact B]. }
  rewrite Es. destruct V as [V1 [V2 V3]]. rewrite E. cbn. rewrite V3. split; [reflexivity|]. split.
  - split; [|reflexivity]. cbn. split; [exact V1|]. split; [exact V2|]. intros m _. now rewrite V3.
  - split; [|reflexivity]. cbn. apply weq_true; auto.
Qed.
Lemma loop_nleq l : forall s t acc, em_inv (nlPm s) -> nleq s t ->
  snd (nl_loop t l acc) = snd (nl_loop s l acc) /\ nleq (fst (nl_loop s l acc)) (fst (nl_loop t l acc)) /\ nleq s (fst (nl_loop s l acc)).
Proof.
  induction l as [|i l IH]; intros s t acc I W.
  - cbn. split; [reflexivity|]. split; [exact W|apply nleq_refl].
  - rewrite !loop_step. destruct (bin_nleq s t i I W) as [E [W1 W2]]. rewrite E.
    destruct (snd (nl_bin s i)) as [x|x| | |]; cbn [fst snd]; auto.
    assert (I1 : em_inv (nlPm (fst (nl_bin s i)))) by (eapply weq_inv; [apply W2|exact I]).
    destruct (IH (fst (nl_bin s i)) (fst (nl_bin t i)) (rlift2 Rplus acc x) I1 W1) as [F1 [F2 F3]].
    split; [exact F1|]. split; [exact F2|]. eapply nleq_trans; eassumption.
Qed.

Lemma getAll_weq s t : em_inv s -> weq s t -> pm_getAll (emPm t) = pm_getAll (emPm s).
Proof.
  intros I W. pose proof (weq_inv _ _ W I) as It. pose proof I as [_ [_ [_ [_ [_ [Ws [H7 _]]]]]]]. pose proof It as [_ [_ [_ [_ [_ [Wt [H7t _]]]]]]].
  destruct (pm_getAll_ok _ Ws) as [m [E [Wm [Km Fm]]]]. destruct (pm_getAll_ok _ Wt) as [m' [E' [Wm' [Km' Fm']]]]. rewrite E, E'. f_equal.
  destruct W as [[A1 [A2 [A3 [A4 [A5 [A6 A7]]]]]] [B C]].
  assert (G : forall n, pm_get (emPm t) n = pm_get (emPm s) n).
  { intros n. destruct (sfind n (pmPtrs (emPm s))) as [l|] eqn:Eb.
    - pose proof (proj2 Ws n l Eb) as Ls. assert (Ebt : sfind n (pmPtrs (emPm t)) = Some l) by (rewrite A5; exact Eb). pose proof (proj2 Wt n l Ebt) as Lt.
      rewrite (pm_get_bound _ _ _ Eb Ls), (pm_get_bound _ _ _ Ebt Lt). destruct (H7 n l Eb) as [i [_ ->]]. cbn [deref].
      unfold cont_of in *. destruct (emAllDir s) eqn:Ea.
      + change (mCnt (pmMem (emPm t)) c_norms) with (emNorms t). change (mCnt (pmMem (emPm s)) c_norms) with (emNorms s).
        assert (Q : emNorms t = emNorms s) by (apply (nth_ext _ _ 0 0); [exact A6|]; intros k _; apply C; auto). rewrite Q. reflexivity.
      + change (mCnt (pmMem (emPm t)) c_fit) with (emFit t). change (mCnt (pmMem (emPm s)) c_fit) with (emFit s). rewrite B. reflexivity.
    - rewrite !pm_get_unbound; [reflexivity|exact Eb|rewrite A5; exact Eb]. }
  apply swf_ext; auto. intros k. destruct (sfind k m') as [v|] eqn:Q.
  - apply Fm' in Q. rewrite G in Q. apply Fm in Q. symmetry. exact Q.
  - destruct (sfind k m) as [v|] eqn:Q'; [|reflexivity]. apply Fm in Q'. rewrite <- G in Q'. apply Fm' in Q'. congruence.
Qed.
Lemma getParams_nleq obs s t : calm obs s -> nleq s t -> nl_getParams t = nl_getParams s.
Proof.
  intros C [W E]. unfold nl_getParams. rewrite E. cbn [nlReg nl_withPm]. destruct (cmReg _ _ C) as [-> | ->]; [reflexivity|].
  cbn [map nl_comp nlPm nl_withPm]. unfold cm_getAll. cbn [foldM bind c_getAll]. rewrite (getAll_weq _ _ (cmInv _ _ C) W). reflexivity.
Qed.

Lemma nleq_calm obs s t : calm obs s -> nleq s t -> calm obs t.
Proof. intros C [[T _] E]. rewrite E. apply calm_pm; auto. Qed.

(** with the data in place *)
Lemma again_data obs s : calm obs s -> nlCalc s = true -> snd (nl_eval (fst (nl_eval s))) = snd (nl_eval s).
Proof.
  intros C Hc. destruct (needData_calm obs s C) as [_ [_ [_ K0]]]. specialize (K0 Hc).
  destruct (prepare_calm obs s C) as [p [T [Er Ep]]]. cbv zeta in Ep. rewrite K0 in Ep. cbn [fst snd] in Ep.
  set (s1 := nl_withShrunk (nl_withPm s p) (nlSh s) (nlData s)) in *.
  assert (C1 : calm obs s1) by (apply (calm_shrunk obs (nl_withPm s p)); apply calm_pm; auto).
  set (bins := seq 0 (hNBins (bdHist (nlData s1)))).
  (* the state after an evaluation *)
  set (s2 := fst (nl_loop s1 bins (Ok 0%R))).
  assert (Es2 : fst (nl_eval s) = s2).
  { unfold nl_eval. rewrite Ep. fold s1. fold bins. unfold s2. destruct (nl_loop s1 bins (Ok 0%R)) as [x []]; reflexivity. }
  destruct (loop_nleq bins s1 s1 (Ok 0%R) (cmInv _ _ C1) (nleq_refl _)) as [_ [_ W2]]. fold s2 in W2.
  pose proof (nleq_calm _ _ _ C1 W2) as C2.
  assert (Hc2 : nlCalc s2 = true) by (destruct W2 as [_ ->]; exact Hc).
  destruct (needData_calm obs s2 C2) as [_ [_ [_ K2]]]. specialize (K2 Hc2).
  destruct (prepare_calm obs s2 C2) as [p' [T' [Er' Ep']]]. cbv zeta in Ep'. rewrite K2 in Ep'. cbn [fst snd] in Ep'.
  set (s1' := nl_withShrunk (nl_withPm s2 p') (nlSh s2) (nlData s2)) in *.
  assert (Q : nleq s1 s1').
  { split.
    - change (nlPm s1) with p. change (nlPm s1') with p'.
      assert (Ip : em_inv p) by (apply (cmInv _ _ C1)).
      destruct (reassert_ok false p Ip) as [p'' [E'' _]].
      eapply weq_trans; [eapply false_again; [apply (cmInv _ _ C)|exact Er|exact E'']|].
      eapply false_weq; [exact Ip| |exact E''|exact Er']. apply W2.
    - unfold s1'. destruct W2 as [_ E2]. rewrite E2. reflexivity. }
  destruct (loop_nleq bins s1 s1' (Ok 0%R) (cmInv _ _ C1) Q) as [L1 [L2 _]].
  rewrite Es2. unfold nl_eval. rewrite Ep, Ep'.
  assert (Eb : seq 0 (hNBins (bdHist (nlData s1'))) = bins) by (unfold bins; destruct Q as [_ ->]; reflexivity).
  rewrite Eb. fold bins. unfold s2 in C2. destruct (nl_loop s1 bins (Ok 0%R)) as [a ra]. destruct (nl_loop s1' bins (Ok 0%R)) as [b rb]. cbn [fst snd] in *. subst rb.
  destruct ra as [acc|x| | |]; cbn [snd]; try reflexivity.
  rewrite (getParams_nleq obs a b C2 L2). destruct L2 as [_ ->]. reflexivity.
Qed.

Lemma binData_again s b o : nth_error (emOrig (nlPm s)) 0 = Some o -> nl_binData (nl_withData s b (nlCalc s)) = nl_binData s.
Proof.
  intros E0. unfold nl_binData. cbn [nlPm nl_withData]. unfold vat. rewrite E0. cbn [obind].
  destruct (bed_empty o) as [b0 r]. cbn. destruct r; reflexivity.
Qed.
Lemma needData_fail s s0 r : nl_needData s = (s0, r) -> r <> Ok tt -> nl_needData s0 = (s0, r).
Proof.
  unfold nl_needData. destruct (nlCalc s) eqn:Ec; cbn [negb]; [intros [= <- <-] H; congruence|].
  destruct (nlSet s) as [data|] eqn:Es; [|intros [= <- <-] _; rewrite Ec; cbn [negb]; rewrite Es; reflexivity].
  intros E Hr. assert (Hs : (exists b o, s0 = nl_withData s b (nlCalc s) /\ nth_error (emOrig (nlPm s)) 0 = Some o) \/ s0 = s).
  { revert E. unfold nl_binData. unfold vat. destruct (nth_error (emOrig (nlPm s)) 0) as [o|] eqn:E0; cbn [obind]; [|intros [= <- <-]; now right]. left.
    revert E. destruct (bed_empty o) as [b0 r0]. destruct r0 as [u|x| | |]; cbn [obind]; try (intros [= <- <-]; exists b0, o; auto; fail). rewrite Es.
    destruct (fill_distLog b0 data (nlCuts s) (mk_log (map cutName (nlCuts s))) [] (-1)%Z) as [[b1 lg] r1].
    destruct r1 as [u1|x| | |]; cbn [obind]; try (intros [= <- <-]; exists b1, o; split; auto; fail).
    intros [= <- <-]. congruence. }
  destruct Hs as [[b [o [-> N]]] | ->].
  - cbn [nlCalc nl_withData]. rewrite Ec. cbn [negb nlSet nl_withData]. rewrite Es. pose proof (binData_again s b o N) as B. rewrite Ec in B. rewrite Ec in E. rewrite B. exact E.
  - rewrite Ec. cbn [negb]. rewrite Es. exact E.
Qed.
Lemma unit_ok (r : res unit) : r = Ok tt \/ r <> Ok tt.
Proof. destruct r as [[]| | | |]; auto; right; discriminate. Qed.
Lemma again obs s : calm obs s -> snd (nl_eval (fst (nl_eval s))) = snd (nl_eval s).
Proof.
  intros C. destruct (needData_calm obs s C) as [C0 [_ [D0 _]]]. destruct (nl_needData s) as [s0 r] eqn:E. cbn [fst snd] in *.
  destruct (unit_ok r) as [-> | Hr].
  - specialize (D0 eq_refl). rewrite (eval_needData s s0 E D0). apply (again_data obs); auto.
  - assert (P : forall x, nl_needData x = (s0, r) -> nl_eval x = (s0, match r with Throw e => Throw e | UB => UB | NonFinite => NonFinite | _ => Diverge end)).
    { intros x Ex. unfold nl_eval, nl_prepare. rewrite Ex. destruct r as [[]|e| | |]; try reflexivity. congruence. }
    rewrite (P s E). cbn [fst snd]. rewrite (P s0 (needData_fail s s0 r E Hr)). reflexivity.
Qed.
Lemma again_pkg names par build obs ops m : Forall (plain obs) ops -> let s := nlrun (nl_new names par build) ops in
  snd (nl_eval (nlrun s (repeat NEval m))) = snd (nl_eval s).
Proof.
  intros F. cbv zeta. destruct (nlrun_calm obs ops (nl_new names par build) None (calm_new obs names par build) F I) as [C _]. cbv zeta in C.
  set (s := nlrun _ ops) in *. clearbody s. revert s C. induction m as [|m IH]; intros s C; [reflexivity|].
  cbn [repeat nlrun fold_left nldo]. unfold nlrun in IH. rewrite IH by (apply (eval_calm obs s C)). apply (again obs s C).
Qed.

Lemma fresh_pkg names par build obs ops fresh d D m : let pdfs := added ops in let nbins := hNBins (bdHist D) in
  Forall (plain obs) ops -> In NReg ops -> bb_in ops = false -> data_in ops = Some D ->
  Forall (plain obs) fresh -> In NReg fresh -> bb_in fresh = false -> data_in fresh = Some D ->
  added fresh = pdfs -> con_in fresh = con_in ops ->
  h_reach (bdHist D) -> NoDup (fitted pdfs) -> direct_first pdfs -> covers D pdfs -> (forall n, In n (fitted pdfs) -> has_key d n) ->
  (exists k, (k < nbins)%nat /\ expected d pdfs k = 0) \/
  ((forall k, (k < nbins)%nat -> 0 < expected d pdfs k) /\ forall p, restriction p d (fitted pdfs) -> exists c, cman_eval (con_in ops) p = Ok c) ->
  let start := fun h => fst (nl_setParams (nlrun (nl_new names par build) h) d) in
  snd (nl_eval (nlrun (start ops) (repeat NEval m))) = snd (nl_eval (start fresh)).
Proof.
  cbv zeta. intros F1 F2 F3 F4 G1 G2 G3 G4 Ea Ec HD Hnd Hdf Hcov Hk Hcase.
  destruct (value_swf names par build obs ops d D m F1 F2 F3 F4 HD Hnd Hdf Hcov Hk) as [s [p [A [B [Wp [Rp [V0 V1]]]]]]].
  destruct (value_swf names par build obs fresh d D 0 G1 G2 G3 G4 HD) as [s' [p' [A' [B' [Wp' [Rp' [V0' V1']]]]]]]; try (rewrite Ea; assumption).
  rewrite Ea in *. rewrite Ec in *. rewrite A, A'. cbn [fst]. cbn [repeat nlrun fold_left] in V0', V1'.
  destruct Hcase as [Z|[Pz Hc]].
  - rewrite (V0 Z), (V0' Z). reflexivity.
  - assert (p' = p) as ->.
    { apply swf_ext; auto. intros k. destruct (sfind k p') as [v|] eqn:E.
      - symmetry. apply Rp. apply Rp'. exact E.
      - destruct (sfind k p) as [v|] eqn:E'; [|reflexivity]. apply Rp in E'. apply Rp' in E'. congruence. }
    destruct (Hc p Rp) as [c Hcc]. rewrite (V1 c Pz Hcc), (V1' c Pz Hcc). reflexivity.
Qed.
