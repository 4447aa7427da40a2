From Coq Require Import ZArith Reals Lra.
From Verif Require Import Base.Res Base.Num Base.RNum Base.SMap Model.Axis Model.Event Model.Cut Model.Hist Model.ED Model.Param
  Model.Matrix Model.SystMan Model.Shrink Model.EDMan Model.Fill Model.Constraint Model.NLLH Spec.AxisSpec Spec.HistSpec Spec.ParamSpec Spec.EDManSpec Spec.NLLHSpec
  Proofs.AxisP Proofs.HistP Proofs.HistP2 Proofs.ParamP Proofs.ParamP3 Proofs.EDManP Proofs.EDManP2 Proofs.NLLHP Proofs.NLLHP2.
Local Open Scope Qc_scope.
Local Open Scope res_scope.

(** parameters set, data in place *)
Record ready (obs : list string) (d : smap Qc) (D : bed) (s : nllh) : Prop := mkReady {
  rdCalm : calm obs s; rdReg : nlReg s = [RPdfs]; rdCalc : nlCalc s = true; rdData : nlData s = D; rdHolds : holds (nlPm s) d }.
Lemma ready_eval obs d D s : ready obs d D s -> ready obs d D (fst (nl_eval s)).
Proof.
  intros [C Rg Rc Rd Rh]. destruct (eval_calm obs s C) as [C1 [E0 [E1 [E2 [E3 [E4 [E5 [E6 [E7 [E8 [E9 [T [H Dd]]]]]]]]]]]]].
  destruct (Dd Rc) as [D1 D2]. constructor; auto; congruence.
Qed.
Lemma ready_pm obs d D s s' : ready obs d D s -> pmlike s s' -> calm obs s' -> ready obs d D s'.
Proof. intros [C Rg Rc Rd Rh] [T [E H]] C'. constructor; auto; rewrite E; assumption. Qed.

Section Values.
Variables (obs : list string) (d : smap Qc) (D : bed) (pdfs : list (bed * nfs)).
Hypothesis Hnd : NoDup (fitted pdfs).
Hypothesis Hdf : direct_first pdfs.
Hypothesis Hcov : Forall (fun p => h_reach (bdHist (fst p)) /\ (hNBins (bdHist D) <= hNBins (bdHist (fst p)))%nat) pdfs.
Hypothesis HD : h_reach (bdHist D).

Lemma cov_bin k : (k < hNBins (bdHist D))%nat -> Forall (has_bin k) pdfs.
Proof. intros Hk. eapply Forall_impl; [|exact Hcov]. intros p [A B]. split; [exact A|lia]. Qed.
Lemma data_content k : (k < hNBins (bdHist D))%nat -> getBinContent (bdHist D) k = Ok (cont (bdHist D) k).
Proof.
  intros Hk. unfold getBinContent. destruct (Nat.ltb_spec (hNBins (bdHist D)) k); [lia|]. apply vidx_nth.
  apply h_reach_ok in HD. destruct HD as [_ [_ [_ [_ ->]]]]. exact Hk.
Qed.
Lemma mu_ok s k : ready obs d D s -> pairs (nlPm s) = pdfs -> (k < hNBins (bdHist D))%nat ->
  snd (em_binProb (nlPm s) k) = Ok (expected d pdfs k).
Proof.
  intros R P Hk. unfold expected. rewrite <- P. apply binprob_holds; rewrite ?P; auto.
  - exact (cmInv _ _ (rdCalm _ _ _ _ R)). - apply cov_bin; exact Hk. - apply R.
Qed.
Lemma bin_value s k : ready obs d D s -> pairs (nlPm s) = pdfs -> nlBB s = false -> (k < hNBins (bdHist D))%nat ->
  snd (nl_bin s k) = if qeqb (expected d pdfs k) 0 then Throw std_runtime_error
                     else Ok (poisson_term (cont (bdHist D) k) (qr (expected d pdfs k)) 0%R).
Proof.
  intros R P Hb Hk. pose proof (mu_ok s k R P Hk) as E. unfold nl_bin. destruct (em_binProb (nlPm s) k) as [p r]. cbn [snd] in *. subst r.
  cbn [bind]. destruct (qeqb (expected d pdfs k) 0); [reflexivity|]. rewrite (rdData _ _ _ _ R), (data_content k Hk). cbn [bind]. rewrite Hb. reflexivity.
Qed.
Lemma loop_step s k l acc : nl_loop s (k :: l) acc =
  match snd (nl_bin s k) with
  | Ok x => nl_loop (fst (nl_bin s k)) l (rlift2 Rplus acc x)
  | Throw e => (fst (nl_bin s k), Throw e) | UB => (fst (nl_bin s k), UB)
  | NonFinite => (fst (nl_bin s k), NonFinite) | Diverge => (fst (nl_bin s k), Diverge)
  end.
Proof. cbn [nl_loop]. destruct (nl_bin s k) as [s1 []]; reflexivity. Qed.
Lemma ready_bin s k : ready obs d D s -> pairs (nlPm s) = pdfs -> nlBB s = false ->
  let s1 := fst (nl_bin s k) in ready obs d D s1 /\ pairs (nlPm s1) = pdfs /\ nlBB s1 = false.
Proof.
  intros R P Hb. cbv zeta. destruct (bin_like obs s k (rdCalm _ _ _ _ R)) as [L C1]. split; [eapply ready_pm; eassumption|].
  destruct L as [T [E _]]. split; [rewrite (structure_pairs _ _ T); exact P|]. rewrite E. exact Hb.
Qed.
Lemma loop_zero l : forall s acc, ready obs d D s -> pairs (nlPm s) = pdfs -> nlBB s = false -> (forall k, In k l -> (k < hNBins (bdHist D))%nat) ->
  (exists k, In k l /\ expected d pdfs k = 0) -> snd (nl_loop s l acc) = Throw std_runtime_error.
Proof.
  induction l as [|k l IH]; intros s acc R P Hb Hl [k0 [Hin E0]]; [destruct Hin|]. rewrite loop_step.
  rewrite bin_value by (auto; apply Hl; now left). destruct (qeqb (expected d pdfs k) 0) eqn:Eq; [reflexivity|].
  destruct (ready_bin s k R P Hb) as [R1 [P1 B1]]. apply IH; auto; [intros j Hj; apply Hl; now right|].
  exists k0. destruct Hin as [<-|Hin]; [|auto]. exfalso. rewrite E0 in Eq. vm_compute in Eq. discriminate.
Qed.
Lemma qeqb_pos x : 0 < x -> qeqb x 0 = false.
Proof. intros H. destruct (qeqb x 0) eqn:E; [|reflexivity]. apply qeqb_eq in E. subst. exfalso. apply (Qclt_not_eq 0 0 H). reflexivity. Qed.
Lemma loop_sum l : forall s a, ready obs d D s -> pairs (nlPm s) = pdfs -> nlBB s = false -> (forall k, In k l -> (k < hNBins (bdHist D))%nat) ->
  (forall k, In k l -> 0 < expected d pdfs k) ->
  exists s', nl_loop s l (Ok a) = (s', Ok (Ok (a + rsum (map (fun k => poisson_nll (qr (cont (bdHist D) k)) (qr (expected d pdfs k))) l))%R)) /\ pmlike s s' /\ calm obs s'.
Proof.
  induction l as [|k l IH]; intros s a R P Hb Hl Hp.
  - cbn. exists s. split; [|split; [apply pmlike_refl|apply R]]. do 3 f_equal. ring.
  - rewrite loop_step. rewrite bin_value by (auto; apply Hl; now left). rewrite (qeqb_pos _ (Hp k (or_introl eq_refl))).
    unfold poisson_term. destruct (Rlt_dec 0 (qr (expected d pdfs k))) as [Hr|Hr].
    2: { exfalso. apply Hr. rewrite <- qr_0. apply qr_lt. apply Hp. now left. }
    cbn [rlift2]. destruct (ready_bin s k R P Hb) as [R1 [P1 B1]]. destruct (bin_like obs s k (rdCalm _ _ _ _ R)) as [L1 _].
    destruct (IH (fst (nl_bin s k)) (a + (- qr (cont (bdHist D) k) * ln (qr (expected d pdfs k)) + 0 + qr (expected d pdfs k)))%R) as [s' [E [L2 C2]]]; auto.
    + intros j Hj; apply Hl; now right.
    + intros j Hj; apply Hp; now right.
    + exists s'. rewrite E. split; [|split; [eapply pmlike_trans; eassumption|exact C2]]. do 3 f_equal. cbn [map rsum]. unfold poisson_nll. ring.
Qed.

Lemma params_ok s : ready obs d D s -> pairs (nlPm s) = pdfs -> (forall n, In n (fitted pdfs) -> has_key d n) ->
  exists p, nl_getParams s = Ok p /\ swf p /\ restriction p d (fitted pdfs).
Proof.
  intros R P Hk. unfold nl_getParams. rewrite (rdReg _ _ _ _ R). cbn [map nl_comp].
  pose proof (cmInv _ _ (rdCalm _ _ _ _ R)) as I. pose proof I as [L1 [L2 [L3 [L4 [_ [W [H7 [H8 H9]]]]]]]].
  destruct (pm_getAll_ok _ W) as [m [E [Wm [_ Fm]]]]. unfold cm_getAll. cbn [foldM bind c_getAll]. rewrite E. cbn [bind].
  pose proof (fun n => sinsert_fold m (swf_nodup _ Wm) sempty n sempty_wf) as SF. eexists. split; [reflexivity|]. split; [apply (SF ""%string)|].
  intros n v. rewrite (proj2 (SF n)). cbn [sfind sempty]. rewrite Fm. split.
  - intros G. destruct (get_value (nlPm s) n v I G) as [i [l [Hi [_ [_ Hv]]]]]. rewrite P in Hi. split; [eapply nth_error_In; eassumption|].
    rewrite <- P in Hi. rewrite (rdHolds _ _ _ _ R i n Hi). f_equal. apply (nth_error_nth _ _ 0 Hv).
  - intros [Hin Hv]. apply In_nth_error in Hin as [i Hi]. rewrite <- P in Hi, Hnd.
    pose proof (H9 Hnd i n Hi) as B. destruct W as [_ Wl]. pose proof (Wl n _ B) as Hl.
    rewrite (pm_get_bound _ _ _ B Hl). pose proof (rdHolds _ _ _ _ R i n Hi) as Hh. rewrite Hv in Hh. injection Hh as ->.
    cbn [deref]. cbn [loc_ok] in Hl. rewrite (nth_error_nth' _ 0 Hl). reflexivity.
Qed.


Lemma eval_value s : ready obs d D s -> pairs (nlPm s) = pdfs -> nlBB s = false -> (forall n, In n (fitted pdfs) -> has_key d n) ->
  exists p, nl_getParams s = Ok p /\ swf p /\ restriction p d (fitted pdfs) /\
  ((exists k, (k < hNBins (bdHist D))%nat /\ expected d pdfs k = 0) -> snd (nl_eval s) = Throw std_runtime_error) /\
  (forall c, (forall k, (k < hNBins (bdHist D))%nat -> 0 < expected d pdfs k) -> cman_eval (nlCm s) p = Ok c ->
     snd (nl_eval s) = Ok (rsum (map (fun k => poisson_nll (qr (cont (bdHist D) k)) (qr (expected d pdfs k))) (seq 0 (hNBins (bdHist D)))) + qr c)%R).
Proof.
  intros R P Hb Hk. destruct (params_ok s R P Hk) as [p [Ep [Wp Rp]]]. exists p. split; [exact Ep|]. split; [exact Wp|]. split; [exact Rp|].
  pose proof (rdCalm _ _ _ _ R) as C. destruct (needData_calm obs s C) as [_ [_ [_ K0]]]. specialize (K0 (rdCalc _ _ _ _ R)).
  destruct (prepare_calm obs s C) as [q [T [Er Epr]]]. cbv zeta in Epr. rewrite K0 in Epr. cbn [fst snd] in Epr.
  set (s1 := nl_withShrunk (nl_withPm s q) (nlSh s) (nlData s)) in *.
  assert (R1 : ready obs d D s1).
  { constructor.
    - apply (calm_shrunk obs (nl_withPm s q)). apply calm_pm; auto.
    - apply R. - apply R. - apply R.
    - cbn. eapply reassert_holds; [apply C|exact Er|apply R]. }
  assert (P1 : pairs (nlPm s1) = pdfs) by (cbn; rewrite (structure_pairs _ _ T); exact P).
  assert (B1 : nlBB s1 = false) by exact Hb.
  assert (Hl : forall k, In k (seq 0 (hNBins (bdHist (nlData s1)))) -> (k < hNBins (bdHist D))%nat).
  { intros k Hin. rewrite (rdData _ _ _ _ R1) in Hin. apply in_seq in Hin. lia. }
  unfold nl_eval. rewrite Epr. split.
  - intros [k [Hlt E0]]. pose proof (loop_zero (seq 0 (hNBins (bdHist (nlData s1)))) s1 (Ok 0%R) R1 P1 B1 Hl) as LZ.
    destruct (nl_loop s1 _ (Ok 0%R)) as [s2 r]. cbn [snd] in LZ. rewrite LZ; [reflexivity|]. exists k. split; [|exact E0].
    rewrite (rdData _ _ _ _ R1). apply in_seq. lia.
  - intros c Hp Hc. destruct (loop_sum (seq 0 (hNBins (bdHist (nlData s1)))) s1 0%R R1 P1 B1 Hl) as [s2 [E2 [L2 C2]]].
    { intros k Hin. apply Hp. apply Hl, Hin. }
    rewrite E2. cbn [snd]. pose proof (ready_pm obs d D s1 s2 R1 L2 C2) as R2.
    assert (P2 : pairs (nlPm s2) = pdfs) by (rewrite (structure_pairs _ _ (proj1 L2)); exact P1).
    destruct (params_ok s2 R2 P2 Hk) as [p2 [Ep2 [Wp2 Rp2]]]. rewrite Ep2. cbn [bind].
    assert (Epp : p2 = p).
    { apply swf_ext; auto. intros k. destruct (sfind k p2) as [v|] eqn:E.
      - symmetry. apply Rp. apply Rp2. exact E.
      - destruct (sfind k p) as [v|] eqn:E'; [|reflexivity]. apply Rp in E'. apply Rp2 in E'. congruence. }
    subst p2. assert (Ec : nlCm s2 = nlCm s) by (destruct L2 as [_ [-> _]]; reflexivity). rewrite Ec, Hc. cbn [rlift2]. f_equal.
    rewrite (rdData _ _ _ _ R1). ring.
Qed.
End Values.

Lemma setParams_ready obs s d D : calm obs s -> nlReg s = [RPdfs] -> nlCalc s = true -> nlData s = D ->
  NoDup (fitted (pairs (nlPm s))) -> (forall n, In n (fitted (pairs (nlPm s))) -> has_key d n) ->
  exists s', nl_setParams s d = (s', Ok tt) /\ ready obs d D s' /\ pairs (nlPm s') = pairs (nlPm s) /\ nlBB s' = nlBB s /\ nlCm s' = nlCm s.
Proof.
  intros C Hr Hc HD Hnd Hk. destruct d as [|kv d].
  - exists (fst (nl_setParams s [])). destruct (setParams_pm obs s [] C) as [p [I1 [P1 E1]]].
    assert (E : nl_setParams s [] = (s, Ok tt)).
    { unfold nl_setParams. rewrite Hr. cbn. f_equal. destruct s as [[]]. reflexivity. }
    rewrite E. cbn [fst]. split; [reflexivity|]. split; [|auto]. constructor; auto.
    intros i n Hi. exfalso. apply nth_error_In in Hi. destruct (Hk n Hi) as [v Hv]. discriminate Hv.
  - destruct (setAll_holds (nlPm s) (kv :: d) (cmInv _ _ C) Hnd Hk) as [p [E [I1 [T H]]]].
    exists (nl_withPm s p). split; [apply setParams_ok; auto; discriminate|].
    split; [constructor; auto; apply calm_pm; auto|]. split; [apply structure_pairs; exact T|]. auto.
Qed.
Lemma evals_ready obs d D m : forall s, ready obs d D s -> let s' := nlrun s (repeat NEval m) in
  ready obs d D s' /\ pairs (nlPm s') = pairs (nlPm s) /\ nlBB s' = nlBB s /\ nlCm s' = nlCm s.
Proof.
  induction m as [|m IH]; intros s R; cbv zeta; cbn [repeat nlrun fold_left]; [auto|].
  pose proof (ready_eval _ _ _ _ R) as R1. destruct (IH (fst (nl_eval s)) R1) as [A [B [Cc Dd]]].
  destruct (eval_calm obs s (rdCalm _ _ _ _ R)) as [_ [E0 [E1 [E2 [E3 [E4 [E5 [E6 [E7 [E8 [E9 [T _]]]]]]]]]]]].
  cbn [nldo]. unfold nlrun in *. split; [exact A|]. split; [rewrite B; apply structure_pairs; exact T|]. split; congruence.
Qed.

Lemma value_swf names par build obs ops d D m : let pdfs := added ops in let nbins := hNBins (bdHist D) in
  Forall (plain obs) ops -> In NReg ops -> bb_in ops = false -> data_in ops = Some D -> h_reach (bdHist D) ->
  NoDup (fitted pdfs) -> direct_first pdfs -> covers D pdfs -> (forall n, In n (fitted pdfs) -> has_key d n) ->
  exists s p, nl_setParams (nlrun (nl_new names par build) ops) d = (s, Ok tt) /\
    let s' := nlrun s (repeat NEval m) in
    nl_getParams s' = Ok p /\ swf p /\ restriction p d (fitted pdfs) /\
    ((exists k, (k < nbins)%nat /\ expected d pdfs k = 0) -> snd (nl_eval s') = Throw std_runtime_error) /\
    (forall c, (forall k, (k < nbins)%nat -> 0 < expected d pdfs k) -> cman_eval (con_in ops) p = Ok c ->
       snd (nl_eval s') = Ok (rsum (map (fun k => poisson_nll (qr (cont (bdHist D) k)) (qr (expected d pdfs k))) (seq 0 nbins)) + qr c)%R).
Proof.
  cbv zeta. intros F Hreg Hbb Hdat HD Hnd Hdf Hcov Hk.
  destruct (nlrun_calm obs ops (nl_new names par build) None (calm_new obs names par build) F I) as [A1 [A2 [A3 [A4 [A5 [A6 A7]]]]]]. cbv zeta in *.
  set (s0 := nlrun (nl_new names par build) ops) in *.
  assert (Pp : pairs (nlPm s0) = added ops) by (rewrite A2; reflexivity). change (fold_left dstep ops None) with (data_in ops) in A7.
  rewrite Hdat in A7. destruct A7 as [Hc Hd]. specialize (A6 (or_intror Hreg)).
  destruct (setParams_ready obs s0 d D A1 A6 Hc Hd) as [s [E [R [P2 [B2 C2]]]]]; [rewrite Pp; exact Hnd|rewrite Pp; exact Hk|].
  destruct (evals_ready obs d D m s R) as [R' [P' [B' C']]]. cbv zeta in *. set (s' := nlrun s (repeat NEval m)) in *.
  assert (PP : pairs (nlPm s') = added ops) by congruence.
  assert (BB : nlBB s' = false) by (rewrite B', B2, A4; exact Hbb).
  assert (CC : nlCm s' = con_in ops) by (rewrite C', C2, A3; reflexivity).
  destruct (eval_value obs d D (added ops) Hnd Hdf Hcov HD s' R' PP BB Hk) as [p [Ep [Wp [Rp V]]]]. rewrite CC in V.
  exists s, p. split; [exact E|]. split; [exact Ep|]. split; [exact Wp|]. split; [exact Rp|]. exact V.
Qed.
Lemma value_pkg names par build obs ops d D m : let pdfs := added ops in let nbins := hNBins (bdHist D) in
  Forall (plain obs) ops -> In NReg ops -> bb_in ops = false -> data_in ops = Some D -> h_reach (bdHist D) ->
  NoDup (fitted pdfs) -> direct_first pdfs -> covers D pdfs -> (forall n, In n (fitted pdfs) -> has_key d n) ->
  exists s p, nl_setParams (nlrun (nl_new names par build) ops) d = (s, Ok tt) /\
    let s' := nlrun s (repeat NEval m) in
    nl_getParams s' = Ok p /\ restriction p d (fitted pdfs) /\
    ((exists k, (k < nbins)%nat /\ expected d pdfs k = 0) -> snd (nl_eval s') = Throw std_runtime_error) /\
    (forall c, (forall k, (k < nbins)%nat -> 0 < expected d pdfs k) -> cman_eval (con_in ops) p = Ok c ->
       snd (nl_eval s') = Ok (rsum (map (fun k => poisson_nll (qr (cont (bdHist D) k)) (qr (expected d pdfs k))) (seq 0 nbins)) + qr c)%R).
Proof.
  cbv zeta. intros F Hreg Hbb Hdat HD Hnd Hdf Hcov Hk.
  destruct (value_swf names par build obs ops d D m F Hreg Hbb Hdat HD Hnd Hdf Hcov Hk) as [s [p [A [B [_ C]]]]]. exists s, p. auto.
Qed.
