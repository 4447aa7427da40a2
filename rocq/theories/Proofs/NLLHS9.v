(** C106: the generated rates and the normalisations of a likelihood with systematics. *)
From Coq Require Import ZArith Reals Lia.
From Verif Require Import Base.Res Base.Num Base.RNum Base.SMap Model.Axis Model.Event Model.Cut Model.Hist Model.ED Model.Param Model.Matrix Model.SystMan Model.Shrink Model.EDMan
  Model.Fill Model.Constraint Model.NLLH Spec.AxisSpec Spec.HistSpec Spec.ParamSpec Spec.EDManSpec Spec.SystManSpec Spec.NLLHSpec Spec.NLLHSysSpec
  Proofs.AxisP Proofs.HistP Proofs.HistP2 Proofs.ParamP Proofs.ParamP2 Proofs.ParamP3 Proofs.EDManP Proofs.EDManP2 Proofs.SystManP Proofs.SystManP2 Proofs.SystManP3 Proofs.NLLHP Proofs.NLLHP2 Proofs.NLLHP3 Proofs.NLLHP5 Proofs.NLLHS1 Proofs.NLLHS2 Proofs.NLLHS3 Proofs.NLLHS4 Proofs.NLLHS5 Proofs.NLLHS6.
Local Open Scope Qc_scope.
Local Open Scope res_scope.

(** generated rates *)
Lemma accepted_le l : forall t, (List.length (filter is_pdf (accepted t l)) <= List.length (filter is_pdf l))%nat.
Proof.
  induction l as [|o l IH]; intros t; cbn [accepted]; [auto|]. rewrite filter_app, app_length. specialize (IH (fst (smcall t o))).
  cbn [filter]. destruct (snd (smcall t o)); cbn [filter]; destruct (is_pdf o); cbn [List.length] in *; lia.
Qed.
Lemma accepted_app a : forall b t, accepted t (a ++ b) = accepted t a ++ accepted (smrun t a) b.
Proof. induction a as [|o a IH]; intros b t; cbn [app accepted smrun]; [reflexivity|]. rewrite IH, app_assoc. reflexivity. Qed.
Lemma fold_put_gen l : forall s, nlGen (fold_left nl_putComp l s) = nlGen s.
Proof.
  induction l as [|[c x] l IH]; intros s; cbn [fold_left]; [reflexivity|]. rewrite IH. destruct c; cbn [nl_putComp]; [destruct x; reflexivity|reflexivity].
Qed.
Section Gen9.
Variables (names : nat -> string) (par : nat -> comp) (build : nat -> comp -> smat * res unit) (obs : list string).
Notation calmS := (calmS names par build obs).
Definition full (t : sman) (l : list smop) : Prop := List.length (filter is_pdf (accepted t l)) = List.length (filter is_pdf l).
Lemma full_app t a b : full t (a ++ b) -> full t a /\ full (smrun t a) b.
Proof.
  unfold full. rewrite accepted_app, !filter_app, !app_length. pose proof (accepted_le a t). pose proof (accepted_le b (smrun t a)). lia.
Qed.
Lemma genS s o t : calmS s -> skel (nlSm s) t -> steady obs o -> full t (sys_calls (nlBB s) [o]) ->
  nlGen (nldo s o) = nlGen s ++ rates_of (pdfs_from (nlBB s) [o]).
Proof.
  intros C K P Hf. destruct o; cbn [steady] in P; try contradiction; cbn [nldo]; try (cbn [pdfs_from rates_of flat_map]; now rewrite app_nil_r).
  - unfold nl_addPdf. destruct rate as [g|].
    + destruct (addPdf2 (nlPm s) b st (csInv _ _ _ _ _ C)) as [p [E _]]. rewrite E. cbn [obind].
      destruct (skel_dist (nlSm s) t (bdName b) groups K) as [_ E2]. cbn [nl_withPm nlSm].
      destruct (sm_addDist (nlSm s) (bdName b) groups) as [m r]. cbn [snd] in E2.
      unfold full in Hf. cbn [sys_calls accepted filter is_pdf List.length] in Hf. cbn [smcall] in Hf. rewrite <- E2 in Hf.
      destruct r as [[]| | | |]; cbn in Hf; try discriminate. cbn [obind fst]. reflexivity.
    + cbn [pdfs_from]. destruct (nlBB s) eqn:B; [cbn; now rewrite app_nil_r|].
      destruct (addPdf2 (nlPm s) b st (csInv _ _ _ _ _ C)) as [p [E _]]. rewrite E. cbn [obind].
      cbn [rates_of flat_map snd app]. rewrite app_nil_r. destruct (sm_addDist (nlSm (nl_withPm s p)) (bdName b) groups) as [m r]. destruct r as [[]| | | |]; reflexivity.
  - cbn [pdfs_from rates_of flat_map]. rewrite app_nil_r. unfold nl_addSys. destruct (sm_add (nlSm s) p g). reflexivity.
  - cbn [pdfs_from rates_of flat_map]. rewrite app_nil_r. unfold nl_setNorms. destruct (em_setNorms (nlPm s) l). reflexivity.
  - cbn [pdfs_from rates_of flat_map]. rewrite app_nil_r. unfold nl_setParams. destruct (cm_setAll (map (nl_comp s) (nlReg s)) d) as [cs r]. cbn [fst]. apply fold_put_gen.
  - cbn [pdfs_from rates_of flat_map]. rewrite app_nil_r. destruct (evalS names par build obs s C) as [_ [_ [_ [_ [E _]]]]]. exact E.
Qed.
Lemma rates_app a b : rates_of (a ++ b) = rates_of a ++ rates_of b.
Proof. unfold rates_of. apply flat_map_app. Qed.
Lemma genrun ops : forall s a t, calmS s -> skel (nlSm s) t -> Forall (steady obs) ops -> has_data s a -> full t (sys_calls (nlBB s) ops) ->
  nlGen (nlrun s ops) = nlGen s ++ rates_of (pdfs_from (nlBB s) ops).
Proof.
  induction ops as [|o ops IH]; intros s a t C K F HD Hf; [cbn; now rewrite app_nil_r|]. apply Forall_cons_iff in F as [F1 F2].
  rewrite calls_cons in Hf. apply full_app in Hf as [Hf1 Hf2]. destruct (nldoS names par build obs s o a t C K F1 HD) as [A1 [A2 [_ [_ [A5 [A6 _]]]]]]. cbv zeta in *.
  cbn [nlrun fold_left]. unfold nlrun in IH. rewrite (IH (nldo s o) _ _ A1 A2 F2 A6) by (rewrite A5; exact Hf2). rewrite (genS s o t C K F1 Hf1), A5, <- app_assoc, <- rates_app, <- pdfs_from_cons. reflexivity.
Qed.
End Gen9.

(** normalisations *)
Lemma norms_after2 s d p : em_inv2 s -> holds s d -> uniform (pairs s) -> em_reassert false s = (p, Ok tt) -> emNorms p = map (norm_in d) (pairs s).
Proof.
  intros [I _] H U E. pose proof (reassert_swap false (emOrig s) (emOrig s) s) as Q. rewrite E in Q. cbn [fst snd] in Q.
  apply (norms_after (setOW (emOrig s) (emOrig s) s) d _ I H U Q).
Qed.
Lemma norms_keep2 s p : em_inv2 s -> uniform (pairs s) -> em_reassert true s = (p, Ok tt) -> emNorms p = emNorms s.
Proof.
  intros [I _] U E. pose proof (reassert_swap true (emOrig s) (emOrig s) s) as Q. rewrite E in Q. cbn [fst snd] in Q.
  apply (norms_keep (setOW (emOrig s) (emOrig s) s) _ I U Q).
Qed.
Lemma norms_mul ns : forall l s, (forall x, In x (emStat s) -> x = NIndirect) -> NoDup l -> (forall i, In i l -> (i < List.length (emStat s))%nat /\ (i < List.length ns)%nat /\ (i < List.length (emNorms s))%nat) ->
  let r := iterS (fun s2 i =>
               obind s2 (vat (emStat s2) i) (fun st =>
               obind s2 (vat ns i) (fun n =>
               match st with
               | NFalse => (em_setNormsC s2 (upd (emNorms s2) i n), Ok tt)
               | NIndirect => (em_setNormsC s2 (upd (emNorms s2) i (nth i (emNorms s2) 0 * n)), Ok tt)
               | NDirect => (s2, Ok tt)
               end))) l s in
  forall i, nth i (emNorms (fst r)) 0 = if in_dec Nat.eq_dec i l then nth i (emNorms s) 0 * nth i ns 0 else nth i (emNorms s) 0.
Proof.
  induction l as [|j l IH]; intros s Hs Nd Hl; cbv zeta; cbn [iterS]; intros i; [reflexivity|].
  destruct (Hl j (or_introl eq_refl)) as [L1 [L2 L3]]. rewrite (vat_nth (emStat s) j NFalse) by exact L1. cbn [obind]. rewrite (vat_nth ns j 0) by exact L2. cbn [obind].
  rewrite (Hs (nth j (emStat s) NFalse)) by (apply nth_In; exact L1). cbv iota.
  inversion Nd as [|? ? Nj Nd']; subst. set (s1 := em_setNormsC s _).
  assert (E1 : emNorms s1 = upd (emNorms s) j (nth j (emNorms s) 0 * nth j ns 0)) by reflexivity.
  rewrite (IH s1 Hs Nd'). 2: { intros k Hk. destruct (Hl k (or_intror Hk)) as [A [B D]]. split; [exact A|]. split; [exact B|]. rewrite E1, upd_length. exact D. }
  rewrite E1, nth_upd by exact L3. destruct (Nat.eqb_spec i j) as [<-|Hn].
  - destruct (in_dec Nat.eq_dec i l) as [C|_]; [contradiction|]. destruct (in_dec Nat.eq_dec i (i :: l)) as [_|C]; [reflexivity|]. exfalso. apply C. now left.
  - destruct (in_dec Nat.eq_dec i l) as [C|C]; destruct (in_dec Nat.eq_dec i (j :: l)) as [C'|C']; try reflexivity; exfalso; [apply C'; now right|destruct C' as [->|C']; contradiction].
Qed.
Lemma normsS m m' (p : edman) : sm_inv m -> sm_construct m = (m', Ok tt) -> em_inv2 p -> sized_origs p ->
  let M := fun q => fst (syBuild (smObj m q)) in
  (forall o, In o (emOrig p) -> Forall (fun q => sized (hNBins (bdHist o)) (M q)) (actS m o)) ->
  (forall o, In o (emOrig p) -> sfind (bdName o) (smDists m) <> None) -> sm_count m <> 0%nat -> (forall x, In x (emStat p) -> x = NIndirect) ->
  emNorms (fst (em_systematics p m')) = map (fun no => fst no * qsum (hCont (bdHist (respS m M (snd no))))) (combine (emNorms p) (emOrig p)).
Proof.
  cbv zeta. intros Inv Ec I L HS HR E0 Hst. pose proof I as [[L1 [L2 [L3 [L4 _]]]] F2]. cbn [setOW emOrig emStat emAllDir] in *.
  change (emNorms (setOW (emOrig p) (emOrig p) p)) with (emNorms p) in L2.
  pose proof (construct_same m) as Sc. rewrite Ec in Sc. cbn [fst] in Sc. pose proof Sc as [Sg [Sd _]].
  assert (LW : List.length (emWork p) = List.length (emOrig p)) by (apply reshaped_names in F2; apply (f_equal (@List.length _)) in F2; rewrite !map_length in F2; exact F2).
  unfold em_systematics. rewrite (count_groups m' m Sg). destruct (Nat.eqb_spec (sm_count m) 0) as [C|_]; [contradiction|].
  destruct (emAllDir p) eqn:Ea.
  { assert (Es : emStat p = []). { destruct (emStat p) as [|x l] eqn:Es; [reflexivity|]. exfalso. symmetry in L4. rewrite forallb_forall in L4. specialize (L4 x (or_introl eq_refl)). rewrite (Hst x (or_introl eq_refl)) in L4. discriminate. }
    rewrite Es in L1. cbn in L1. assert (En : emNorms p = []) by (destruct (emNorms p); [reflexivity|cbn in L2; lia]).
    destruct (sm_distort m' (emOrig p) (emWork p) None) as [[w n]| | | |]; cbn [obind fst]; change (emNorms (em_setWork p w)) with (emNorms p) || idtac; rewrite ?En; try reflexivity. }
  destruct (distort_gen m m' (emOrig p) (emWork p) (Some (repeat 0 (List.length (emNorms p)))) Inv Ec) as [works' [norms' [E [Hl [Hw Hx]]]]].
  { lia. } { intros ns [= <-]. rewrite repeat_length. lia. }
  { intros o gs Hin Hg. split; [unfold sized_origs in L; rewrite Forall_forall in L; now apply L|]. specialize (HS o Hin). unfold actS in HS. rewrite Hg in HS. exact HS. }
  rewrite E. cbn [obind fst snd]. destruct Hx as [ns' [-> [Hn' Hx]]]. rewrite repeat_length in Hn'.
  apply list_nth_eq.
  { pose proof (norms_loop_keeps (seq 0 (List.length ns')) (em_setWork p works') ns') as K. cbv zeta in K. destruct (K Ea) as [[_ [_ [_ [_ [K5 _]]]]] _].
    rewrite map_length, combine_length. change (emNorms (em_setWork p works')) with (emNorms p) in K5. etransitivity; [exact K5|]. lia. }
  intros i Hi.
  pose proof (norms_mul ns' (seq 0 (List.length ns')) (em_setWork p works') Hst (seq_NoDup _ _)) as N. cbv zeta in N. rewrite N.
  2: { intros j Hj. apply in_seq in Hj. cbn [em_setWork emStat]. change (emNorms (em_setWork p works')) with (emNorms p). lia. }
  assert (Hi' : (i < List.length (emNorms p))%nat).
  { pose proof (norms_loop_keeps (seq 0 (List.length ns')) (em_setWork p works') ns') as K. cbv zeta in K. destruct (K Ea) as [[_ [_ [_ [_ [K5 _]]]]] _].
    change (emNorms (em_setWork p works')) with (emNorms p) in K5. rewrite <- K5. exact Hi. }
  destruct (in_dec Nat.eq_dec i (seq 0 (List.length ns'))) as [_|C]; [|exfalso; apply C; apply in_seq; lia].
  change (emNorms (em_setWork p works')) with (emNorms p).
  assert (Ho : nth_error (emOrig p) i = Some (nth i (emOrig p) bed0)) by (apply nth_error_nth'; lia).
  assert (Hwk : exists w, nth_error (emWork p) i = Some w) by (destruct (nth_error (emWork p) i) eqn:Ew; [eauto|apply nth_error_None in Ew; lia]). destruct Hwk as [w Hwk].
  assert (H0 : nth_error (repeat 0 (List.length (emNorms p))) i = Some 0) by (apply nth_error_repeat; exact Hi').
  specialize (Hx i 0 H0). rewrite Hwk, Ho in Hx. apply nth_error_nth with (d := 0) in Hx. rewrite Hx.
  set (f := fun no : Qc * bed => fst no * qsum (hCont (bdHist (respS m (fun q => fst (syBuild (smObj m q))) (snd no))))).
  rewrite (nth_indep (map f _) 0 (f (0, bed0))) by (rewrite map_length, combine_length; lia).
  rewrite (map_nth f). rewrite combine_nth by lia. unfold f. cbn [fst snd]. f_equal.
  unfold respS, actS, distorted. destruct (sfind (bdName (nth i (emOrig p) bed0)) (smDists m)) as [gs|] eqn:Eg; [reflexivity|].
  exfalso. apply (HR (nth i (emOrig p) bed0)); [apply nth_In; lia|exact Eg].
Qed.
