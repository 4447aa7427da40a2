(** C89: setting parameters and evaluating. *)
From Coq Require Import ZArith Reals Lia.
From Verif Require Import Base.Res Base.Num Base.RNum Base.SMap Model.Axis Model.Event Model.Cut Model.Hist Model.ED Model.Param Model.Matrix Model.SystMan Model.Shrink Model.EDMan
  Model.Fill Model.Constraint Model.NLLH Spec.AxisSpec Spec.HistSpec Spec.ParamSpec Spec.EDManSpec Spec.SystManSpec Spec.NLLHSpec Spec.NLLHSysSpec
  Proofs.AxisP Proofs.HistP Proofs.HistP2 Proofs.ParamP Proofs.ParamP2 Proofs.ParamP3 Proofs.EDManP Proofs.EDManP2 Proofs.SystManP Proofs.SystManP2 Proofs.SystManP3 Proofs.NLLHP Proofs.NLLHP2 Proofs.NLLHS1 Proofs.NLLHS2.
Local Open Scope Qc_scope.
Local Open Scope res_scope.

Lemma setAll_rel d cs : Forall2 (fun c c' => c' = c \/ c' = fst (c_setAll c d)) cs (fst (cm_setAll cs d)).
Proof.
  assert (R : forall l, Forall2 (fun c c' => c' = c \/ c' = fst (c_setAll c d)) l l) by (induction l; constructor; auto).
  unfold cm_setAll. destruct d as [|kv d]; [apply R|]. set (dd := kv :: d) in *.
  induction cs as [|c cs IH]; cbn [cm_setLoop]; [constructor|]. destruct (c_setAll c dd) as [c' r] eqn:E.
  assert (E' : c' = fst (c_setAll c dd)) by now rewrite E.
  destruct r as [[]|e| | |]; cbn [fst]; try (constructor; [right; exact E'|apply R]).
  destruct (cm_setLoop cs dd) as [t r] eqn:Et. cbn [fst] in *. constructor; [right; exact E'|exact IH].
Qed.

Section Calm3.
Variables (names : nat -> string) (par : nat -> comp) (build : nat -> comp -> smat * res unit) (obs : list string).
Notation calmS := (calmS names par build obs).

(** what the calls below leave alone *)
Definition stays (s s' : nllh) : Prop :=
  nlCm s' = nlCm s /\ nlBB s' = nlBB s /\ nlReg s' = nlReg s /\ nlGen s' = nlGen s /\ nlPar s' = nlPar s /\ nlSet s' = nlSet s /\ nlCuts s' = nlCuts s /\
  same_shape (nlSm s) (nlSm s') /\ (pairs (nlPm s') = pairs (nlPm s) /\ emAllDir (nlPm s') = emAllDir (nlPm s)) /\ (forall d, holds (nlPm s) d -> holds (nlPm s') d) /\
  (nlCalc s = true -> nlCalc s' = true /\ nlData s' = nlData s).
Lemma stays_refl s : stays s s. Proof. repeat (split; [reflexivity|]). split; [apply same_refl|]. repeat split; auto. Qed.
Lemma stays_trans a b c : stays a b -> stays b c -> stays a c.
Proof.
  intros [A1 [A2 [A3 [A4 [A5 [A6 [A7 [A8 [[A9 A9'] [A10 A11]]]]]]]]]] [B1 [B2 [B3 [B4 [B5 [B6 [B7 [B8 [[B9 B9'] [B10 B11]]]]]]]]]].
  repeat (split; [congruence|]). split; [eapply same_trans; eassumption|]. split; [split; congruence|]. split; [auto|].
  intros H. destruct (A11 H) as [H1 H2]. destruct (B11 H1) as [H3 H4]. split; [exact H3|congruence].
Qed.
Lemma stays_pm s p : same_structure (nlPm s) p -> (forall d, holds (nlPm s) d -> holds p d) -> stays s (nl_withPm s p).
Proof. intros T H. repeat (split; [reflexivity|]). split; [apply same_refl|]. split; [split; [apply structure_pairs; exact T|apply T]|]. split; [exact H|auto]. Qed.

Lemma works_obs2 s : calmS s -> forall i w, vidx (emWork (nlPm s)) i = Ok w -> osNames (bdObs w) = obs.
Proof.
  intros C i w E. unfold vidx in E. destruct (nth_error (emWork (nlPm s)) i) as [w'|] eqn:Ew; [|discriminate]. injection E as ->.
  pose proof (csInv _ _ _ _ _ C) as [_ F]. pose proof (csOrig _ _ _ _ _ C) as G. clear -F G Ew. revert i Ew. induction F as [|o x os ws [c [-> _]] F IH]; intros [|i] Ew; cbn in Ew; try discriminate.
  - injection Ew as <-. inversion G as [|? ? [A _] _]; subst. exact eq_refl.
  - inversion G; subst. eapply IH; eauto.
Qed.
Lemma dims2 s : calmS s -> em_dimensions (nlPm s) obs = (nlPm s, Ok tt).
Proof.
  intros C. unfold em_dimensions.
  assert (G : forall l, (forall i, In i l -> (i < List.length (emWork (nlPm s)))%nat) ->
    iterS (fun s1 i => obind s1 (vidx (emWork s1) i) (fun w =>
           if list_eq_dec string_dec (osNames (bdObs w)) obs then (s1, Ok tt)
           else obind s1 (bed_marginalise w obs) (fun w' => (em_setWork s1 (upd (emWork s1) i w'), Ok tt)))) l (nlPm s) = (nlPm s, Ok tt)).
  { induction l as [|i l IH]; intros Hl; cbn [iterS]; [reflexivity|].
    assert (Hi : (i < List.length (emWork (nlPm s)))%nat) by (apply Hl; now left).
    rewrite (vidx_nth _ _ bed0) by exact Hi. cbn [obind].
    rewrite (works_obs2 s C i _ (vidx_nth _ _ bed0 Hi)).
    destruct (list_eq_dec string_dec obs obs) as [_|n]; [|congruence]. apply IH. intros j Hj. apply Hl. now right. }
  apply G. intros i Hi. apply in_seq in Hi. lia.
Qed.

(** parameters *)
Lemma put_sys s q c t : calmS s -> skel (nlSm s) t -> comp_ok c -> evolves (par q) c ->
  let s' := nl_putComp s (RSys q, c) in calmS s' /\ skel (nlSm s') t /\ same_mode s s' /\ nlPm s' = nlPm s /\ (forall p, nlPar s' p = if Nat.eqb p q then c else nlPar s p).
Proof.
  intros C K Hc He. cbv zeta. cbn [nl_putComp]. split; [|split; [|split; [repeat split|split; reflexivity]]].
  - constructor; cbn; try apply C.
    + intros p. destruct (Nat.eqb_spec p q) as [->|Hn]; cbn; [|apply C]. split; [apply C|]. now rewrite (csBuild _ _ _ _ _ C).
    + intros p. destruct (Nat.eqb_spec p q) as [->|Hn]; [auto|apply C].
  - destruct K as [A [B D]]. split; [exact A|]. split; [exact B|]. cbn. intros p. destruct (Nat.eqb_spec p q) as [->|Hn]; cbn; apply D.
Qed.
Lemma put_all l : forall s t, calmS s -> skel (nlSm s) t -> Forall (fun qc => comp_ok (snd qc) /\ evolves (par (fst qc)) (snd qc)) l ->
  let s' := fold_left nl_putComp (map (fun qc => (RSys (fst qc), snd qc)) l) s in
  calmS s' /\ skel (nlSm s') t /\ same_mode s s' /\ nlPm s' = nlPm s /\
  (NoDup (map fst l) -> forall q c, In (q, c) l -> nlPar s' q = c) /\ (forall q, ~ In q (map fst l) -> nlPar s' q = nlPar s q).
Proof.
  induction l as [|[q c] l IH]; intros s t C K F; cbv zeta; cbn [map fold_left fst snd].
  - split; [exact C|]. split; [exact K|]. split; [repeat split|]. split; [reflexivity|]. split; [intros _ q c []|reflexivity].
  - inversion F as [|? ? [F1 F2] F3]; subst. cbn [fst snd] in *. destruct (put_sys s q c t C K F1 F2) as [C1 [K1 [M1 [P1 Q1]]]]. cbv zeta in *.
    set (s1 := nl_putComp s (RSys q, c)) in *. destruct (IH s1 t C1 K1 F3) as [C2 [K2 [M2 [P2 [Q2 Q3]]]]]. cbv zeta in *.
    split; [exact C2|]. split; [exact K2|]. split; [destruct M1 as [? [? [? [? ?]]]], M2 as [? [? [? [? ?]]]]; repeat split; congruence|]. split; [congruence|]. split.
    + intros Hnd q' c' [E|Hin]; inversion Hnd as [|? ? Hn Hnd']; subst.
      * injection E as <- <-. rewrite Q3 by exact Hn. rewrite Q1, Nat.eqb_refl. reflexivity.
      * apply Q2; auto.
    + intros q' Hq. cbn [In] in Hq. rewrite Q3 by tauto. rewrite Q1. destruct (Nat.eqb_spec q' q) as [->|]; [exfalso; tauto|reflexivity].
Qed.
Lemma combine_sys qs : forall cs : list comp, combine (map RSys qs) cs = map (fun qc => (RSys (fst qc), snd qc)) (combine qs cs).
Proof. induction qs as [|q qs IH]; intros [|c cs]; cbn; auto. now rewrite IH. Qed.
Lemma paramsS s d t : calmS s -> skel (nlSm s) t -> let s' := fst (nl_setParams s d) in
  calmS s' /\ skel (nlSm s') t /\ same_mode s s' /\ same_structure (nlPm s) (nlPm s').
Proof.
  intros C K. cbv zeta. unfold nl_setParams. pose proof (setAll_rel d (map (nl_comp s) (nlReg s))) as R.
  destruct (cm_setAll (map (nl_comp s) (nlReg s)) d) as [cs r]. cbn [fst] in *.
  destruct (csReg _ _ _ _ _ C) as [E|[qs E]]; rewrite E in *.
  - cbn. split; [exact C|]. split; [exact K|]. split; [repeat split|apply structure_refl].
  - cbn [map] in R. inversion R as [|c0 c1 l0 cs1 R0 R1]; subst. cbn [combine fold_left]. rewrite combine_sys.
    assert (P0 : exists p, c1 = CPm p /\ same_structure (nlPm s) (em_withPm (nlPm s) p)).
    { cbn [nl_comp] in R0. destruct R0 as [->|R0].
      - exists (emPm (nlPm s)). split; [reflexivity|]. destruct (nlPm s); apply structure_refl.
      - cbn [c_setAll] in R0. pose proof (setAll_structure (nlPm s) d) as T. unfold em_setAll in T. destruct (pm_setAll (emPm (nlPm s)) d) as [p r']. cbn [fst] in *.
        exists p. split; [exact R0|exact T]. }
    destruct P0 as [p [-> T]]. cbn [nl_putComp]. set (s1 := nl_withPm s (em_withPm (nlPm s) p)).
    assert (C1 : calmS s1) by (apply calmS_pm; auto).
    assert (F : Forall (fun qc => comp_ok (snd qc) /\ evolves (par (fst qc)) (snd qc)) (combine qs cs1)).
    { rewrite map_map in R1. clear -C R1. revert cs1 R1. induction qs as [|q qs IH]; intros cs1 R1; cbn [map] in R1; inversion R1 as [|? c ? cs' H1 H2]; subst; cbn [combine]; constructor; auto.
      cbn [fst snd]. cbn [nl_comp] in H1. destruct (csPar _ _ _ _ _ C q) as [A B]. destruct H1 as [->| ->]; [auto|].
      destruct (setAll_keep (nlPar s q) d A) as [A1 B1]. split; [exact A1|eapply evolves_trans; eassumption]. }
    destruct (put_all (combine qs cs1) s1 t C1 K F) as [C2 [K2 [M2 [P2 _]]]]. cbv zeta in *. split; [exact C2|]. split; [exact K2|]. split; [exact M2|]. rewrite P2. exact T.
Qed.

(** evaluation *)
Lemma needS s : calmS s -> let s0 := fst (nl_needData s) in calmS s0 /\ stays s s0 /\ (snd (nl_needData s) = Ok tt -> nlCalc s0 = true) /\ (nlCalc s = true -> nl_needData s = (s, Ok tt)).
Proof.
  intros C. cbv zeta. unfold nl_needData. destruct (nlCalc s) eqn:E; cbn [negb fst snd].
  { split; [exact C|]. split; [apply stays_refl|auto]. }
  destruct (nlSet s) as [data|] eqn:Es; cbn [fst snd]; [|split; [exact C|split; [apply stays_refl|split; discriminate]]].
  destruct (binData_setup s) as [S0 [S1 S2]]. set (t := nl_binData s) in *. pose proof S0 as [A1 [A2 [A3 [A4 [A5 [A6 [A7 [A8 [A9 [A10 [A11 A12]]]]]]]]]]].
  split; [|split; [|split; [intros D; apply S2, D|discriminate]]].
  - constructor; rewrite ?A1, ?A2, ?A3, ?A5, ?A8, ?A9; try apply C.
    intros Hc. assert (D : snd t = Ok tt).
    { destruct (snd t) as [[]|x| | |] eqn:E2; [reflexivity| | | |]; rewrite (S1 E) in Hc; discriminate. }
    destruct (S2 D) as [_ [o [Ho ->]]]. pose proof (csOrig _ _ _ _ _ C) as F. rewrite Forall_forall in F. apply (F o). eapply nth_error_In. exact Ho.
  - repeat (split; [assumption|]). rewrite A3, A1. split; [apply same_refl|]. split; [auto|]. split; [auto|]. congruence.
Qed.
Definition preS (s : nllh) (p : edman) (m : sman) : nllh := nl_withSm (nl_withShrunk (nl_withPm s p) (nlSh s) (nlData s)) m.
Lemma calmS_sm s m : calmS s -> same_shape (nlSm s) m -> calmS (nl_withSm s m).
Proof.
  intros C T. pose proof T as [A [B [D E]]]. constructor; cbn; try apply C.
  - eapply same_inv; [exact T|apply C].
  - intros p. rewrite D, E. apply C.
  - rewrite B, (count_groups _ _ A). apply C.
Qed.
Lemma preS_ok s p m : calmS s -> same_structure (nlPm s) p -> (forall d, holds (nlPm s) d -> holds p d) -> same_shape (nlSm s) m -> calmS (preS s p m) /\ stays s (preS s p m).
Proof.
  intros C T H K. pose proof (calmS_pm _ _ _ _ s p C T) as C1. split.
  - unfold preS. apply calmS_sm; [|exact K]. constructor; cbn; apply C1.
  - unfold preS. repeat (split; [reflexivity|]). split; [exact K|]. split; [split; [apply structure_pairs; exact T|apply T]|]. split; [exact H|]. auto.
Qed.
Lemma prepareS s : calmS s -> nlCalc s = true -> exists p, em_reassert false (nlPm s) = (p, Ok tt) /\ same_structure (nlPm s) p /\ (forall d, holds (nlPm s) d -> holds p d) /\
  nl_prepare s = match sm_construct (nlSm s) with
                 | (m, Ok _) => (nl_withPm (preS s p m) (fst (em_systematics p m)), snd (em_systematics p m))
                 | (m, r) => (preS s p m, r)
                 end.
Proof.
  intros C Hc. destruct (reassert2 false (nlPm s) (csInv _ _ _ _ _ C)) as [p [E [T H]]]. exists p. split; [exact E|]. split; [exact T|]. split; [exact H|].
  destruct (needS s C) as [_ [_ [_ K0]]]. unfold nl_prepare. rewrite (K0 Hc). cbn [chain].
  rewrite (onPm_ok s (em_reassert false) p (Ok tt)) by exact E. cbn [chain].
  assert (Es : nl_shrinkData (nl_withPm s p) = (nl_withShrunk (nl_withPm s p) (nlSh s) (nlData s), Ok tt)).
  { unfold nl_shrinkData. destruct (nlShrunk (nl_withPm s p)) eqn:Esh.
    - destruct s. cbn in *. subst. reflexivity.
    - unfold sh_setBinMap, sh_shrink. cbn [nlSh nl_withPm nlData]. rewrite (csBuf _ _ _ _ _ C). cbn [obind]. rewrite (csBuf _ _ _ _ _ C). reflexivity. }
  rewrite Es. cbn [chain]. unfold nl_construct. cbn [nlSm nl_withShrunk nl_withPm].
  pose proof (construct_same (nlSm s)) as Sc. destruct (sm_construct (nlSm s)) as [m r] eqn:Ec. cbn [fst] in Sc. change (nl_withSm (nl_withShrunk (nl_withPm s p) (nlSh s) (nlData s)) m) with (preS s p m).
  destruct r as [[]|e| | |]; cbn [chain]; try reflexivity.
  destruct (preS_ok s p m C T H Sc) as [C1 S1].
  rewrite (onPm_ok (preS s p m) (fun p0 => em_systematics p0 (nlSm (preS s p m))) (fst (em_systematics p m)) (snd (em_systematics p m))) by (cbn; destruct (em_systematics p m); reflexivity).
  set (s2 := nl_withPm (preS s p m) (fst (em_systematics p m))).
  destruct (snd (em_systematics p m)) as [[]|e| | |] eqn:Er; cbn [chain]; try reflexivity.
  assert (C2 : calmS s2).
  { pose proof (csInv _ _ _ _ _ C1) as I1. cbn in I1. pose proof (sized_of _ _ _ _ _ C1) as Z1. cbn in Z1.
    destruct (systematics_keep p m I1 Z1) as [Kp [Ip [W0 W1]]]. cbv zeta in *. pose proof Kp as [KO [KS [KA _]]].
    constructor; cbn; try apply C1; auto.
    - rewrite KO. apply C1.
    - rewrite KO. intros j o w Ho Hw Hr. apply (csWork _ _ _ _ _ C1 j o w); cbn; [exact Ho| |exact Hr].
      destruct Hr as [Hr|Hr]; [rewrite <- (W1 j o Ho Hr); exact Hw|rewrite <- (W0 Hr); exact Hw]. }
  assert (Hd : osNames (bdObs (nlData s2)) = obs) by (apply (csDat _ _ _ _ _ C2); exact Hc).
  rewrite (onPm_ok s2 _ (nlPm s2) (Ok tt)) by (rewrite Hd; apply dims2; exact C2). rewrite withPm_id. cbn [chain].
  rewrite (onPm_ok s2 _ (nlPm s2) (Ok tt)) by (unfold em_shrink; rewrite (csBuf _ _ _ _ _ C2); reflexivity). rewrite withPm_id. reflexivity.
Qed.
Lemma keeps_pairs p p' : keeps p p' -> pairs p' = pairs p.
Proof. intros [A [B _]]. unfold pairs. now rewrite A, B. Qed.
Lemma afterSys s p m : calmS s -> same_structure (nlPm s) p -> (forall d, holds (nlPm s) d -> holds p d) -> same_shape (nlSm s) m ->
  let s2 := nl_withPm (preS s p m) (fst (em_systematics p m)) in calmS s2 /\ stays s s2.
Proof.
  intros C T H Sc. cbv zeta. destruct (preS_ok s p m C T H Sc) as [C1 S1].
  pose proof (csInv _ _ _ _ _ C1) as I1. cbn in I1. pose proof (sized_of _ _ _ _ _ C1) as Z1. cbn in Z1.
  destruct (systematics_keep p m I1 Z1) as [Kp [Ip [W0 W1]]]. cbv zeta in *. pose proof Kp as [KO [KS [KA _]]]. split.
  - constructor; cbn; try apply C1; auto.
    + rewrite KO. apply C1.
    + rewrite KO. intros j o w Ho Hw Hr. apply (csWork _ _ _ _ _ C1 j o w); cbn; [exact Ho| |exact Hr].
      destruct Hr as [Hr|Hr]; [rewrite <- (W1 j o Ho Hr); exact Hw|rewrite <- (W0 Hr); exact Hw].
  - destruct S1 as [B1 [B2 [B3 [B4 [B5 [B6 [B7 [B8 [[B9 B9'] [B10 B11]]]]]]]]]]. cbn in *.
    repeat (split; [assumption|]). cbn. split; [|split].
    + split; [rewrite (keeps_pairs _ _ Kp); exact B9|rewrite KA; exact B9'].
    + intros d Hd. eapply keeps_holds; [exact Kp|]. auto.
    + exact B11.
Qed.
Lemma binS s i : calmS s -> calmS (fst (nl_bin s i)) /\ stays s (fst (nl_bin s i)) /\ same_structure (nlPm s) (nlPm (fst (nl_bin s i))).
Proof.
  intros C. unfold nl_bin. destruct (binProb_view (nlPm s) i (csInv _ _ _ _ _ C)) as [_ [T H]]. destruct (em_binProb (nlPm s) i) as [p r]. cbn [fst] in *.
  split; [apply calmS_pm; auto|]. split; [apply stays_pm; auto|exact T].
Qed.
Lemma loopS l : forall s acc, calmS s -> calmS (fst (nl_loop s l acc)) /\ stays s (fst (nl_loop s l acc)).
Proof.
  induction l as [|i l IH]; intros s acc C; cbn [nl_loop]; [split; [exact C|apply stays_refl]|].
  destruct (binS s i C) as [C1 [S1 _]]. destruct (nl_bin s i) as [s1 r]. cbn [fst] in C1, S1. destruct r as [x|e| | |]; cbn [fst]; auto.
  destruct (IH s1 (rlift2 Rplus acc x) C1) as [C2 S2]. split; [exact C2|eapply stays_trans; eassumption].
Qed.
Lemma prepare_good s : calmS s -> nlCalc s = true -> calmS (fst (nl_prepare s)) /\ stays s (fst (nl_prepare s)).
Proof.
  intros C Hc. destruct (prepareS s C Hc) as [p [_ [T [H E]]]]. rewrite E. pose proof (construct_same (nlSm s)) as Sc.
  destruct (sm_construct (nlSm s)) as [m r]. cbn [fst] in Sc. destruct r as [[]|e| | |]; cbn [fst]; try (apply preS_ok; assumption). apply afterSys; assumption.
Qed.
Lemma evalS s : calmS s -> calmS (fst (nl_eval s)) /\ stays s (fst (nl_eval s)).
Proof.
  intros C. destruct (needS s C) as [C0 [S0 [D0 K0]]]. cbv zeta in *.
  assert (P : calmS (fst (nl_prepare s)) /\ stays s (fst (nl_prepare s))).
  { destruct (nl_needData s) as [s0 r] eqn:En. cbn [fst snd] in *. destruct r as [[]|e| | |].
    2-5: unfold nl_prepare; rewrite En; cbn [chain fst]; auto.
    assert (Ep : nl_prepare s = nl_prepare s0).
    { destruct (needS s0 C0) as [_ [_ [_ K1]]]. unfold nl_prepare. rewrite En, (K1 (D0 eq_refl)). reflexivity. }
    rewrite Ep. destruct (prepare_good s0 C0 (D0 eq_refl)) as [C1 S1]. split; [exact C1|eapply stays_trans; eassumption]. }
  unfold nl_eval. destruct (nl_prepare s) as [s1 r]. cbn [fst] in P. destruct P as [C1 S1]. destruct r as [[]|e| | |]; cbn [fst]; auto.
  destruct (loopS (seq 0 (hNBins (bdHist (nlData s1)))) s1 (Ok 0%R) C1) as [C2 S2]. destruct (nl_loop s1 _ (Ok 0%R)) as [s2 r]. cbn [fst] in *.
  assert (Q : calmS s2 /\ stays s s2) by (split; [exact C2|eapply stays_trans; eassumption]). destruct r as [x|e| | |]; cbn [fst]; exact Q.
Qed.
End Calm3.
