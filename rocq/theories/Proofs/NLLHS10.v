(** C106: Barlow-Beeston with systematics. *)
From Coq Require Import ZArith Reals Lia.
From Verif Require Import Base.Res Base.Num Base.RNum Base.SMap Model.Axis Model.Event Model.Cut Model.Hist Model.ED Model.Param Model.Matrix Model.SystMan Model.Shrink Model.EDMan
  Model.Fill Model.Constraint Model.NLLH Spec.AxisSpec Spec.HistSpec Spec.ParamSpec Spec.EDManSpec Spec.SystManSpec Spec.NLLHSpec Spec.NLLHSysSpec
  Proofs.AxisP Proofs.HistP Proofs.HistP2 Proofs.ParamP Proofs.ParamP2 Proofs.ParamP3 Proofs.EDManP Proofs.EDManP2 Proofs.SystManP Proofs.SystManP2 Proofs.SystManP3 Proofs.NLLHP Proofs.NLLHP2 Proofs.NLLHP3 Proofs.NLLHP4 Proofs.NLLHP5 Proofs.NLLHS1 Proofs.NLLHS2 Proofs.NLLHS3 Proofs.NLLHS4 Proofs.NLLHS5 Proofs.NLLHS6 Proofs.NLLHS9.
From Coq Require Import Lra Psatz.
Local Open Scope Qc_scope.
Local Open Scope res_scope.

Definition yieldS (m : sman) (M : nat -> smat) (d : smap Qc) (b : bed * nfs) : Qc :=
  match snd b with NIndirect => norm_in d b * qsum (hCont (bdHist (respS m M (fst b)))) | _ => norm_in d b end.
Lemma combine_pairs s : List.length (emStat s) = List.length (emOrig s) -> map fst (pairs s) = emOrig s.
Proof. intros L. unfold pairs. apply map_fst_combine. lia. Qed.
Lemma combine_map_pairs (f : bed * nfs -> Qc) (l : list (bed * nfs)) (h : Qc * bed -> Qc) :
  map h (combine (map f l) (map fst l)) = map (fun b => h (f b, fst b)) l.
Proof. induction l as [|x l IH]; cbn; [reflexivity|]. now rewrite IH. Qed.

Section Prep10.
Variables (names : nat -> string) (par : nat -> comp) (build : nat -> comp -> smat * res unit) (obs : list string).
Notation calmS := (calmS names par build obs).
Lemma preparedN s d : calmS s -> nlCalc s = true -> holds (nlPm s) d -> uniform (pairs (nlPm s)) ->
  let m := nlSm s in let M := fun q => fst (build q (nlPar s q)) in
  (forall g q, In q (sm_grp m g) -> snd (build q (nlPar s q)) = Ok tt) ->
  (forall g, exists n, Forall (fun q => sized n (M q)) (sm_grp m g)) ->
  (forall o, In o (emOrig (nlPm s)) -> Forall (fun q => sized (hNBins (bdHist o)) (M q)) (actS m o)) ->
  (forall o, In o (emOrig (nlPm s)) -> sfind (bdName o) (smDists m) <> None) -> sm_count m <> 0%nat ->
  exists s2, nl_prepare s = (s2, Ok tt) /\ calmS s2 /\ stays s s2 /\ emWork (nlPm s2) = map (respS m M) (emOrig (nlPm s)) /\
    emNorms (nlPm s2) = map (yieldS m M d) (pairs (nlPm s)).
Proof.
  intros C Hc Hh Hu. cbv zeta. intros HB HG HS HR H0.
  destruct (prepared names par build obs s C Hc HB HG HS) as [s2 [E2 [C2 [S2 W2]]]]. exists s2. split; [exact E2|]. split; [exact C2|]. split; [exact S2|]. split; [exact W2|].
  assert (Eb : forall q, syBuild (smObj (nlSm s) q) = build q (nlPar s q)) by (intros q; apply (csObj _ _ _ _ _ C)).
  destruct (construct_okI (nlSm s) (csSm _ _ _ _ _ C)) as [m' Ec].
  { intros g q Hq. rewrite Eb. eapply HB; eassumption. }
  { intros g. destruct (HG g) as [n Hn]. exists n. eapply Forall_impl; [|exact Hn]. intros q. cbn beta. now rewrite Eb. }
  destruct (prepareS names par build obs s C Hc) as [p [Er [T [H E]]]]. rewrite Ec, E2 in E.
  assert (Ep : nlPm s2 = fst (em_systematics p m')) by (injection E as -> _; reflexivity). rewrite Ep. clear E E2 Ep.
  pose proof (csInv _ _ _ _ _ C) as I. pose proof (inv2_structure _ _ I T) as Ip. pose proof T as [TO [TW [TS [TA _]]]].
  pose proof (norms_after2 _ _ _ I Hh Hu Er) as Np. pose proof I as [[L1 [L2 [L3 [L4 _]]]] _]. cbn [setOW emStat emOrig emAllDir] in *.
  assert (Lz : sized_origs p) by (unfold sized_origs; rewrite TO; apply (sized_of names par build obs); exact C).
  destruct Hu as [U|U]; pose proof (stats_of (nlPm s) _ L1 U) as Hst.
  - rewrite (normsS (nlSm s) m' p (csSm _ _ _ _ _ C) Ec Ip Lz).
    + rewrite Np, TO, <- (combine_pairs (nlPm s) L1), combine_map_pairs. apply map_ext_in. intros b Hb. rewrite Forall_forall in U. unfold yieldS. rewrite (U b Hb). cbn [fst snd].
      replace (respS (nlSm s) (fun q => fst (syBuild (smObj (nlSm s) q))) (fst b)) with (respS (nlSm s) (fun q => fst (build q (nlPar s q))) (fst b)); [reflexivity|].
      unfold respS. f_equal. f_equal. apply map_ext. intros q. now rewrite Eb.
    + rewrite TO. intros o Ho. eapply Forall_impl; [|exact (HS o Ho)]. intros q. cbn beta. now rewrite Eb.
    + rewrite TO. exact HR.
    + exact H0.
    + rewrite TS. exact Hst.
  - assert (Ea : emAllDir p = true). { rewrite TA, L4. apply forallb_forall. intros x Hx. rewrite (Hst x Hx). reflexivity. }
    destruct (systematics_keep p m' Ip Lz) as [[_ [_ [_ [_ [_ [_ K]]]]]] _]. rewrite (K Ea), Np. apply map_ext_in. intros b Hb. rewrite Forall_forall in U. unfold yieldS. rewrite (U b Hb). reflexivity.
Qed.
End Prep10.

Section BB10.
Variables (names : nat -> string) (par : nat -> comp) (build : nat -> comp -> smat * res unit) (obs : list string).
Notation calmS := (calmS names par build obs).
Variables (d : smap Qc) (D : bed) (vp : list (bed * nfs)) (gens : list Z) (ys : list Qc).
Hypothesis Hnd : NoDup (fitted vp).
Hypothesis Hun : uniform vp.
Hypothesis Hcov : covers D vp.
Hypothesis HD : h_reach (bdHist D).
Hypothesis Hg : Forall (fun g => (0 < g)%Z) gens.
Hypothesis HL : List.length ys = List.length gens.
Notation mu := (expected d vp).
Notation nbins := (hNBins (bdHist D)).
Definition sg10 (k : nat) : Qc := qsum (map (fun j => nth j ys 0 / (qz (nth j gens 0%Z) * mu k * mu k)) (seq 0 (List.length ys))).
Hypothesis Hfine : forall k, (k < nbins)%nat -> 0 < mu k /\ 0 < sg10 k /\ mu k * sg10 k < 1 /\ 0 <= cont (bdHist D) k.
Record rdyB (s : nllh) : Prop := mkRdyB {
  rbCalm : calmS s; rbDat : nlData s = D; rbHolds : holds (nlPm s) d; rbView : pairs (view (nlPm s)) = vp; rbBB : nlBB s = true; rbGen : nlGen s = gens; rbNorms : emNorms (nlPm s) = ys }.
Definition beta10 (k : nat) : R := match bb_beta (sg10 k) (cont (bdHist D) k) (mu k) with Ok b => b | _ => 0%R end.
Lemma beta10_ok k : (k < nbins)%nat -> bb_beta (sg10 k) (cont (bdHist D) k) (mu k) = Ok (beta10 k) /\
  bb_root (qr (sg10 k)) (qr (cont (bdHist D) k)) (qr (mu k)) (beta10 k) /\ (0 < beta10 k)%R /\
  (forall x, bb_root (qr (sg10 k)) (qr (cont (bdHist D) k)) (qr (mu k)) x -> (x <= beta10 k)%R) /\ (cont (bdHist D) k = mu k -> beta10 k = 1%R).
Proof.
  intros Hk. destruct (Hfine k Hk) as [F1 [F2 [F3 F4]]]. unfold beta10. destruct (beta_pkg (sg10 k) (cont (bdHist D) k) (mu k) F2 F4 F3) as [b [E R]]. rewrite E. auto.
Qed.
Definition bb10 (k : nat) : R :=
  (poisson_nll (qr (cont (bdHist D) k)) (beta10 k * qr (mu k)) + (beta10 k - 1) * (beta10 k - 1) / (2 * qr (sg10 k)))%R.
Lemma uniform_df10 : direct_first vp.
Proof.
  intros i j bi bj Hi Hj. exfalso. apply nth_error_In in Hi, Hj. destruct Hun as [U|U]; rewrite Forall_forall in U.
  - specialize (U _ Hj). discriminate. - specialize (U _ Hi). discriminate.
Qed.
Lemma bin10 s k : rdyB s -> (k < nbins)%nat -> snd (nl_bin s k) = Ok (Ok (bb10 k)) /\ rdyB (fst (nl_bin s k)) /\ stays s (fst (nl_bin s k)).
Proof.
  intros R Hk. pose proof (csInv _ _ _ _ _ (rbCalm _ R)) as I. destruct (binS names par build obs s k (rbCalm _ R)) as [C1 [S1 T1]].
  destruct (binProb_view (nlPm s) k I) as [Ev _]. destruct (inv2_view _ I) as [Iv Fv].
  assert (E : snd (em_binProb (nlPm s) k) = Ok (mu k)).
  { assert (E0 : snd (em_binProb (view (nlPm s)) k) = snd (em_binProb (nlPm s) k)) by now rewrite Ev. rewrite <- E0.
    unfold expected. rewrite <- (rbView _ R). apply binprob_holds; rewrite ?(rbView _ R); auto using uniform_df10.
    - eapply Forall_impl; [|exact Hcov]. intros p [A B]. split; [exact A|lia].
    - apply holds_view; [exact I|apply R]. }
  assert (N : emNorms (fst (em_binProb (nlPm s) k)) = ys).
  { destruct (reassert2 true (nlPm s) I) as [p [Er [T _]]]. unfold em_binProb. rewrite Er. cbn [fst].
    assert (Evr : em_reassert true (view (nlPm s)) = (view p, Ok tt)) by (unfold view at 1; rewrite reassert_swap, Er; cbn [fst snd]; unfold view; destruct T as [_ [-> _]]; reflexivity).
    pose proof (norms_keep _ _ Iv (eq_ind_r uniform Hun (rbView _ R)) Evr) as K. change (emNorms (view p)) with (emNorms p) in K. change (emNorms (view (nlPm s))) with (emNorms (nlPm s)) in K.
    rewrite <- (rbNorms _ R). exact K. }
  split; [|split; [|exact S1]].
  - unfold nl_bin. destruct (em_binProb (nlPm s) k) as [p r]. cbn [fst snd] in *. subst r. cbn [bind].
    destruct (Hfine k Hk) as [F1 [F2 [F3 F4]]]. rewrite (qeqb_pos _ F1). rewrite (rbDat _ R), (data_content D HD k Hk). cbn [bind]. rewrite (rbBB _ R).
    assert (Es : bb_sigma2 (emNorms p) (nlGen s) (mu k) = Ok (Ok (sg10 k))).
    { unfold bb_sigma2. rewrite N, (rbGen _ R). rewrite (sigma_fold gens (mu k) ys); [do 2 f_equal; unfold sg10; ring| |exact Hg|exact HL|reflexivity].
      intros Ez. rewrite Ez in F1. revert F1. vm_compute. discriminate. }
    rewrite Es. cbn [bind]. cbv zeta.
    assert (Hdet : qltb ((mu k * sg10 k - 1) * (mu k * sg10 k - 1) + qz 4 * cont (bdHist D) k * sg10 k) 0 = false).
    { apply qltb_ge. apply qr_le. rewrite qr_plus, !qr_mult, qr_minus, qr_z, qr_0, qr_mult, qr_1. apply qr_lt in F2. apply qr_le in F4. rewrite qr_0 in *. pose proof (Rmult_le_pos _ _ F4 (Rlt_le _ _ F2)) as W. pose proof (Rle_0_sqr (qr (mu k) * qr (sg10 k) - 1)) as W2. unfold Rsqr in W2. lra. }
    rewrite Hdet. f_equal. unfold bb_term. destruct (beta10_ok k Hk) as [Eb [_ [Pb _]]]. rewrite Eb.
    apply qr_lt in F1. apply qr_lt in F2. rewrite qr_0 in *.
    destruct (Req_EM_T (qr (sg10 k)) 0) as [Cc|_]; [exfalso; lra|]. unfold poisson_term.
    destruct (Rlt_dec 0 (beta10 k * qr (mu k))) as [_|Cc]; [|exfalso; apply Cc; nra]. f_equal. unfold bb10, poisson_nll. ring.
  - pose proof S1 as [A1 [A2 [A3 [A4 [A5 [A6 [A7 [A8 [A9 [A10 A11]]]]]]]]]]. constructor; auto.
    + unfold nl_bin. destruct (em_binProb (nlPm s) k). apply R.
    + apply A10. apply R.
    + rewrite (structure_pairs _ _ (view_structure _ _ T1)). apply R.
    + rewrite A2. apply R.
    + rewrite A4. apply R.
    + unfold nl_bin. destruct (em_binProb (nlPm s) k). exact N.
Qed.
Lemma loop10 l : forall s a, rdyB s -> (forall k, In k l -> (k < nbins)%nat) ->
  exists s', nl_loop s l (Ok a) = (s', Ok (Ok (a + rsum (map bb10 l))%R)) /\ calmS s' /\ stays s s'.
Proof.
  induction l as [|k l IH]; intros s a B Hl.
  - exists s. cbn. split; [do 3 f_equal; ring|]. split; [apply B|apply stays_refl].
  - rewrite loop_step. destruct (bin10 s k B (Hl k (or_introl eq_refl))) as [E [B1 S1]]. rewrite E. cbn [rlift2].
    destruct (IH (fst (nl_bin s k)) (a + bb10 k)%R B1 (fun j Hj => Hl j (or_intror Hj))) as [s' [E2 [C2 S2]]].
    exists s'. rewrite E2. split; [do 3 f_equal; cbn [map rsum]; ring|]. split; [exact C2|eapply stays_trans; eassumption].
Qed.
End BB10.
