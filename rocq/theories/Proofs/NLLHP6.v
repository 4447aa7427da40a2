(** Data given as a data set: binned on the first pdf's axes at the first evaluation. *)
From Coq Require Import ZArith Reals Lra.
From Verif Require Import Base.Res Base.Num Base.RNum Base.SMap Model.Axis Model.Event Model.Cut Model.Hist Model.ED Model.Param
  Model.Matrix Model.SystMan Model.Shrink Model.EDMan Model.Fill Model.Constraint Model.NLLH Spec.AxisSpec Spec.CutSpec Spec.HistSpec Spec.ParamSpec Spec.FillSpec Spec.EDManSpec Spec.NLLHSpec
  Proofs.AxisP Proofs.HistP Proofs.HistP2 Proofs.HistP4 Proofs.ParamP Proofs.ParamP3 Proofs.FillP2 Proofs.EDManP Proofs.EDManP2 Proofs.NLLHP Proofs.NLLHP2 Proofs.NLLHP3.
Local Open Scope Qc_scope.
Local Open Scope res_scope.

Lemma fills_reach l : forall h, h_reach h -> h_reach (fills h l).
Proof. induction l as [|[v w] l IH]; intros h H; cbn; [exact H|]. apply IH. now constructor. Qed.
Lemma qsum_ones {A} (f : A -> bool) (l : list A) : qsum (map snd (filter (fun e : A * Qc => f (fst e)) (map (fun v => (v, 1)) l))) = qn (List.length (filter f l)).
Proof.
  induction l as [|a l IH]; [reflexivity|]. cbn [map filter fst]. destruct (f a); [|exact IH]. cbn [map snd qsum List.length]. rewrite IH, qn_S. ring.
Qed.

Lemma binned_pkg o data cs : h_reach (bdHist o) -> List.length (osNames (bdObs o)) = hNDims (bdHist o) -> Forall cut_built cs ->
  (Z.of_nat (List.length data) < 2 ^ 31)%Z ->
  (forall e, In e data -> cuttable cs e /\ (passes_all cs e -> exists vals, values (osNames (bdObs o)) e vals)) ->
  exists D log, binned o data cs D /\ h_reach (bdHist D) /\ hNBins (bdHist D) = hNBins (bdHist o) /\
    exists b0, bed_empty o = (b0, Ok tt) /\ fill_distLog b0 data cs (mk_log (map cutName cs)) [] (-1)%Z = ((D, log), Ok tt).
Proof.
  intros R Hd Hc Hs Hev. pose proof (hr_empty _ R) as R0.
  destruct (scale_pkg (bdHist o) 0 R) as [_ [[h0 [E0 [[A0 [B0 C0]] [Z0 _]]]] _]]. rewrite E0 in R0. cbn [fst] in R0.
  set (b0 := bed_setHist o h0).
  destruct (fill_pkg b0 data cs [] (-1)%Z data) as [keep [vals [D [K1 [K2 [K3 [K4 [K5 [_ [_ K8]]]]]]]]]]; auto.
  - cbn. congruence.
  - lia.
  - cbn. clear. induction data; constructor; auto. constructor.
  - cbn in K2, K3, K4, K5.
    assert (L : forall v, In v vals -> List.length v = hNDims h0).
    { intros v Hv. rewrite C0, <- Hd. clear -K2 Hv. induction K2 as [|e v' l l' H F IH]; [destruct Hv|]. destruct Hv as [<-|Hv]; [|auto].
      unfold values in H. clear -H. induction H; cbn; congruence. }
    destruct (fills_pkg h0 (map (fun v => (v, 1)) vals) R0) as [[F1 [F2 F3]] [F4 _]].
    { intros e He. apply in_map_iff in He as [v [<- Hv]]. apply L, Hv. }
    exists D, (fst (run_cuts cs data (mk_log (map cutName cs)))). split.
    + split; [exact K3|]. split; [exact K4|]. split; [rewrite K5; repeat split; congruence|].
      exists keep, vals. split; [exact K1|]. split; [exact K2|]. intros k Hk. rewrite K5, F4 by congruence. rewrite Z0, Qcplus_0_l.
      rewrite (qsum_ones (fun v => match h_findBin h0 v with Ok b => Nat.eqb b k | _ => false end)).
      unfold h_findBin. rewrite A0. reflexivity.
    + split; [rewrite K5; apply fills_reach, R0|]. split; [rewrite K5; congruence|]. exists b0. unfold bed_empty, bed_on. rewrite E0. split; [reflexivity|exact K8].
Qed.

Lemma prepare_needData s s0 : nl_needData s = (s0, Ok tt) -> nlCalc s0 = true -> nl_prepare s = nl_prepare s0.
Proof.
  intros E C. unfold nl_prepare. rewrite E. assert (E0 : nl_needData s0 = (s0, Ok tt)) by (unfold nl_needData; rewrite C; reflexivity). rewrite E0. reflexivity.
Qed.
Lemma eval_needData s s0 : nl_needData s = (s0, Ok tt) -> nlCalc s0 = true -> nl_eval s = nl_eval s0.
Proof. intros E C. unfold nl_eval. rewrite (prepare_needData s s0 E C). reflexivity. Qed.
Lemma evals_needData m : forall s s0, nl_needData s = (s0, Ok tt) -> nlCalc s0 = true ->
  snd (nl_eval (nlrun s (repeat NEval m))) = snd (nl_eval (nlrun s0 (repeat NEval m))).
Proof.
  intros s s0 E C. destruct m; cbn [repeat nlrun fold_left nldo]; [|unfold nlrun; cbn [fold_left nldo]]; rewrite (eval_needData s s0 E C); reflexivity.
Qed.

Lemma dataset_pkg names par build obs ops cs data o d m : let pdfs := added ops in let nbins := hNBins (bdHist o) in
  Forall (plain obs) ops -> In NReg ops -> bb_in ops = false -> hd_error (map fst pdfs) = Some o ->
  List.length (osNames (bdObs o)) = hNDims (bdHist o) -> Forall cut_built cs -> (Z.of_nat (List.length data) < 2 ^ 31)%Z ->
  (forall e, In e data -> cuttable cs e /\ (passes_all cs e -> exists vals, values (osNames (bdObs o)) e vals)) ->
  NoDup (fitted pdfs) -> direct_first pdfs -> covers o pdfs -> (forall n, In n (fitted pdfs) -> has_key d n) ->
  exists D s p, binned o data cs D /\ nl_setParams (nlrun (nl_new names par build) (ops ++ [NCuts cs; NDataSet data])) d = (s, Ok tt) /\
    restriction p d (fitted pdfs) /\
    let v := snd (nl_eval (nlrun s (repeat NEval m))) in
    ((exists k, (k < nbins)%nat /\ expected d pdfs k = 0) -> v = Throw std_runtime_error) /\
    (forall c, (forall k, (k < nbins)%nat -> 0 < expected d pdfs k) -> cman_eval (con_in ops) p = Ok c ->
       v = Ok (rsum (map (fun k => poisson_nll (qr (cont (bdHist D) k)) (qr (expected d pdfs k))) (seq 0 nbins)) + qr c)%R).
Proof.
  cbv zeta. intros F Hreg Hbb Ho Hdim Hcb Hsm Hev Hnd Hdf Hcov Hk.
  assert (Ro : h_reach (bdHist o)).
  { unfold covers in Hcov. rewrite Forall_forall in Hcov. destruct (map fst (added ops)) as [|x l] eqn:E; [discriminate|]. injection Ho as ->.
    assert (In o (map fst (added ops))) as I by (rewrite E; now left). apply in_map_iff in I as [q [<- Hq]]. apply (Hcov q Hq). }
  destruct (binned_pkg o data cs Ro Hdim Hcb Hsm Hev) as [D [log [HB [RD [ND [b0 [Eb Ef]]]]]]].
  destruct (nlrun_calm obs ops (nl_new names par build) None (calm_new obs names par build) F I) as [A1 [A2 [A3 [A4 [A5 [A6 A7]]]]]]. cbv zeta in *.
  assert (RunE : nlrun (nl_new names par build) (ops ++ [NCuts cs; NDataSet data]) = nl_setSet (nl_setCuts (nlrun (nl_new names par build) ops) cs) (Some data)).
  { unfold nlrun. rewrite fold_left_app. reflexivity. }
  rewrite RunE. clear RunE. set (s00 := nlrun (nl_new names par build) ops) in *.
  set (s0 := nl_setSet (nl_setCuts s00 cs) (Some data)).
  assert (Pp : pairs (nlPm s0) = added ops) by (cbn; rewrite A2; reflexivity).
  assert (C0 : calm obs s0) by (constructor; cbn; try apply A1; discriminate).
  assert (G0 : nlReg s0 = [RPdfs]) by (cbn; apply A6; auto).
  assert (Hp0 : nth_error (emOrig (nlPm s0)) 0 = Some o).
  { assert (L : List.length (emOrig (nlPm s0)) = List.length (emStat (nlPm s0))) by (destruct (cmInv _ _ C0) as [L1 [L2 _]]; congruence).
    rewrite <- Pp in Ho. unfold pairs in Ho. destruct (emOrig (nlPm s0)); [discriminate|]. destruct (emStat (nlPm s0)); [discriminate L|]. injection Ho as <-. reflexivity. }
  (* set the parameters *)
  assert (P : exists p, em_inv p /\ pairs p = pairs (nlPm s0) /\ emOrig p = emOrig (nlPm s0) /\ nl_setParams s0 d = (nl_withPm s0 p, Ok tt) /\ holds p d /\ same_structure (nlPm s0) p).
  { destruct d as [|kv d].
    - exists (nlPm s0). split; [apply C0|]. split; [reflexivity|]. split; [reflexivity|]. split.
      + unfold nl_setParams. rewrite G0. cbn. do 2 f_equal. destruct s00 as [[]]. reflexivity.
      + split; [|apply structure_refl]. intros i n Hi. exfalso. rewrite Pp in Hi. apply nth_error_In in Hi. destruct (Hk n Hi) as [v Hv]. discriminate Hv.
    - destruct (setAll_holds (nlPm s0) (kv :: d) (cmInv _ _ C0)) as [p [E [I1 [T H]]]]; [rewrite Pp; exact Hnd|rewrite Pp; exact Hk|].
      exists p. split; [exact I1|]. split; [apply structure_pairs; exact T|]. split; [apply T|]. split; [apply setParams_ok; auto; discriminate|]. auto. }
  destruct P as [p [I1 [P1 [O1 [E1 [H1 T1]]]]]]. set (s := nl_withPm s0 p) in *.
  set (sD := nl_withLog (nl_withData s D true) log).
  assert (En : nl_needData s = (sD, Ok tt)).
  { unfold nl_needData. cbn [nlCalc s s0 nl_withPm nl_setSet negb nlSet]. unfold nl_binData. cbn [nlPm s nl_withPm]. rewrite O1. unfold vat. rewrite Hp0. cbn [obind].
    rewrite Eb. cbn [obind nlSet s s0 nl_setSet nl_withPm nlCuts nl_setCuts]. rewrite Ef. cbn [obind]. reflexivity. }
  assert (OD : osNames (bdObs D) = obs).
  { destruct HB as [_ [-> _]]. pose proof (cmObs _ _ C0) as FO. rewrite Pp in FO. destruct (added ops) as [|q l] eqn:E; [discriminate|]. injection Ho as <-. inversion FO; auto. }
  assert (RDy : ready obs d D sD).
  { constructor; try reflexivity; auto. constructor; cbn; try apply A1; auto. rewrite P1. apply C0. }
  destruct (evals_ready obs d D m sD RDy) as [R' [P' [B' C']]]. cbv zeta in *.
  assert (PP : pairs (nlPm (nlrun sD (repeat NEval m))) = added ops) by (rewrite P'; cbn; rewrite P1; exact Pp).
  assert (BB : nlBB (nlrun sD (repeat NEval m)) = false) by (rewrite B'; cbn; rewrite A4; exact Hbb).
  assert (CC : nlCm (nlrun sD (repeat NEval m)) = con_in ops) by (rewrite C'; cbn; rewrite A3; reflexivity).
  assert (Hcov' : covers D (added ops)) by (unfold covers; rewrite ND; exact Hcov).
  destruct (eval_value obs d D (added ops) Hnd Hdf Hcov' RD _ R' PP BB Hk) as [q [Ep [_ [Rp V]]]]. rewrite CC in V.
  exists D, s, q. split; [exact HB|]. split; [exact E1|]. split; [exact Rp|]. rewrite (evals_needData m s sD En eq_refl), <- ND. exact V.
Qed.
