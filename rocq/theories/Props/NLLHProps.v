(** The binned likelihood: C30, C31, C32, C70. *)
From Coq Require Import ZArith Reals.
From Verif Require Import Base.Res Base.Num Base.RNum Base.SMap Model.Axis Model.Event Model.Cut Model.Hist Model.ED Model.Param
  Model.Matrix Model.SystMan Model.Shrink Model.EDMan Model.Fill Model.Constraint Model.NLLH
  Spec.AxisSpec Spec.CutSpec Spec.HistSpec Spec.ParamSpec Spec.FillSpec Spec.EDManSpec Spec.NLLHSpec
  Proofs.NLLHP3 Proofs.NLLHP4 Proofs.NLLHP5 Proofs.NLLHP6 Proofs.NLLHP7 Proofs.NLLHP8
  Props.AxisProps Props.CutProps Props.ShrinkProps Props.EDManProps Props.FillProps.
From Coq Require Import Lra.
Local Open Scope Qc_scope.

(** C31.  Whatever was configured (systematics, buffers, cuts, any history): a finite answer is the Poisson sum, over
    the bins of the data, of the expectations the pdf manager reports, plus the constraints. *)
Theorem C31_finite_answer : forall s x, nlBB s = false -> snd (nl_eval s) = Ok x ->
  let s' := fst (nl_eval s) in let nbins := hNBins (bdHist (nlData s')) in
  exists p c (mu n : nat -> Qc), nl_getParams s' = Ok p /\ cman_eval (nlCm s) p = Ok c /\
    (forall k, (k < nbins)%nat -> snd (em_binProb (nlPm s') k) = Ok (mu k) /\ getBinContent (bdHist (nlData s')) k = Ok (n k) /\ 0 < mu k) /\
    x = (rsum (map (fun k => poisson_nll (qr (n k)) (qr (mu k))) (seq 0 nbins)) + qr c)%R.
Proof. exact any_pkg. Qed.
Print Assumptions C31_finite_answer.
(** without systematics and buffers, in terms of the pdfs and the parameter values, after any history of calls *)
Theorem C31_value : forall names par build obs ops d D m, let pdfs := added ops in let nbins := hNBins (bdHist D) in
  Forall (plain obs) ops -> In NReg ops -> bb_in ops = false -> data_in ops = Some D -> h_reach (bdHist D) ->
  NoDup (fitted pdfs) -> direct_first pdfs -> covers D pdfs -> (forall n, In n (fitted pdfs) -> has_key d n) ->
  exists s p, nl_setParams (nlrun (nl_new names par build) ops) d = (s, Ok tt) /\
    let s' := nlrun s (repeat NEval m) in
    nl_getParams s' = Ok p /\ restriction p d (fitted pdfs) /\
    ((exists k, (k < nbins)%nat /\ expected d pdfs k = 0) -> snd (nl_eval s') = Throw std_runtime_error) /\
    (forall c, (forall k, (k < nbins)%nat -> 0 < expected d pdfs k) -> cman_eval (con_in ops) p = Ok c ->
       snd (nl_eval s') = Ok (rsum (map (fun k => poisson_nll (qr (cont (bdHist D) k)) (qr (expected d pdfs k))) (seq 0 nbins)) + qr c)%R).
Proof. exact value_pkg. Qed.
Print Assumptions C31_value.
(** the same with the data given as events and cuts *)
Theorem C31_dataset : forall names par build obs ops cs data o d m, let pdfs := added ops in let nbins := hNBins (bdHist o) in
  Forall (plain obs) ops -> In NReg ops -> bb_in ops = false -> hd_error (map fst pdfs) = Some o ->
  List.length (osNames (bdObs o)) = hNDims (bdHist o) -> Forall cut_built cs -> (Z.of_nat (List.length data) < 2 ^ 31)%Z ->
  (forall e, In e data -> cuttable cs e /\ (passes_all cs e -> exists vals, values (osNames (bdObs o)) e vals)) ->
  NoDup (fitted pdfs) -> direct_first pdfs -> covers o pdfs -> (forall n, In n (fitted pdfs) -> has_key d n) ->
  exists D s p, binned o data cs D /\ nl_setParams (nlrun (nl_new names par build) (ops ++ [NCuts cs; NDataSet data])) d = (s, Ok tt) /\
    restriction p d (fitted pdfs) /\
    let v := snd (nl_eval (nlrun s (repeat NEval m))) in
    ((exists k, (k < nbins)%nat /\ expected d pdfs k = 0) -> v = Throw std_runtime_error) /\
    (forall c, (forall k, (k < nbins)%nat -> 0 < expected d pdfs k) -> cman_eval (con_in ops) p = Ok c ->
       v = Ok (rsum (map (fun k => poisson_nll (qr (cont (bdHist D) k)) (qr (expected d pdfs k))) (seq 0 nbins)) + qr c)%R).
Proof. exact dataset_pkg. Qed.
Print Assumptions C31_dataset.
Theorem C31_minimum : forall n mu, Forall2 (fun a b => 0 <= a /\ 0 < b)%R n mu -> (nll n n <= nll n mu)%R /\ (nll n n = nll n mu -> mu = n).
Proof. exact minimum_pkg. Qed.
Print Assumptions C31_minimum.

Definition ex_nl := nl_new (fun _ => "s"%string) (fun _ => CPm (pm_new (mkMem (fun _ => 0) (fun _ => [])))) (fun _ _ => (mat_empty, Ok tt)).
Definition ex_con := fst (set_single cman_new "a" (mk_quad (qz 1) (qz 1))).
Definition ex_nlops := [NAdd ex_pb [EmptyString] None NDirect; NNorms [qz 7]; NReg; NEval; NAdd ex_pa [EmptyString] None NIndirect; NCon ex_con;
                        NData ex_pb; NPars ex_d; NEval; NData ex_sbed].
Lemma ex_plain : Forall (plain ["x"; "y"]%string) ex_nlops.
Proof. repeat (apply Forall_cons; [cbn; auto|]). constructor. Qed.
Lemma ex_covers : covers ex_sbed (added ex_nlops).
Proof. repeat (apply Forall_cons; [split; [first [exact ex_sbed_reach|exact ex_pb_reach]|cbn; lia]|]). constructor. Qed.
Lemma ex_df : direct_first (added ex_nlops).
Proof.
  intros i j bi bj. change (added ex_nlops) with [(ex_pb, NDirect); (ex_pa, NIndirect)].
  destruct i as [|[|[|i]]]; cbn [nth_error]; try discriminate; destruct j as [|[|[|j]]]; cbn [nth_error]; try discriminate; intros; lia.
Qed.
Lemma below n (P : nat -> Prop) : Forall P (seq 0 n) -> forall k, (k < n)%nat -> P k.
Proof. intros H k Hk. rewrite Forall_forall in H. apply H, in_seq. lia. Qed.
Lemma ex_has : forall n, In n (fitted (added ex_nlops)) -> has_key ex_d n.
Proof. intros n [<-|[<-|[]]]; eexists; reflexivity. Qed.
Lemma ex_nd : NoDup (fitted (added ex_nlops)).
Proof. repeat constructor; cbn; intuition discriminate. Qed.
Lemma ex_pos : forall k, (k < hNBins (bdHist ex_sbed))%nat -> 0 < expected ex_d (added ex_nlops) k.
Proof. apply below. repeat (apply Forall_cons; [vm_compute; reflexivity|]). constructor. Qed.
Example C31_nonvacuous :
  Forall (plain ["x"; "y"]%string) ex_nlops /\ In NReg ex_nlops /\ bb_in ex_nlops = false /\ data_in ex_nlops = Some ex_sbed /\
  h_reach (bdHist ex_sbed) /\ NoDup (fitted (added ex_nlops)) /\ direct_first (added ex_nlops) /\ covers ex_sbed (added ex_nlops) /\
  (forall n, In n (fitted (added ex_nlops)) -> has_key ex_d n) /\
  (forall k, (k < hNBins (bdHist ex_sbed))%nat -> 0 < expected ex_d (added ex_nlops) k) /\
  expected ex_d (added ex_nlops) 0 = qz 302 /\ expected ex_d (added ex_nlops) 1 = qz 4 /\
  (exists c, cman_eval (con_in ex_nlops) ex_d = Ok c /\ c = Q2Qc (1 # 2)) /\
  expected (sof [("a"%string, 0); ("b"%string, 1)]) (added ex_nlops) 1 = 0 /\ (1 < hNBins (bdHist ex_sbed))%nat.
Proof.
  split; [exact ex_plain|]. split; [cbn; tauto|]. split; [reflexivity|]. split; [reflexivity|]. split; [exact ex_sbed_reach|].
  split; [exact ex_nd|]. split; [exact ex_df|]. split; [exact ex_covers|]. split; [exact ex_has|]. split; [exact ex_pos|].
  split; [apply Qc_is_canon; vm_compute; reflexivity|]. split; [apply Qc_is_canon; vm_compute; reflexivity|].
  split; [eexists; split; [vm_compute; reflexivity|]; apply Qc_is_canon; vm_compute; reflexivity|].
  split; [apply Qc_is_canon; vm_compute; reflexivity|]. cbn. lia.
Qed.
Definition ex_fpdf := mkBed "f" (fst (setBinContents (mk_hist (fst (addAxes ac_empty [ex_axis "energy" 0 4 4]))) (map qz [1;2;1;1]%Z))) (mk_obsset ["energy"%string]).
Definition ex_fops := [NAdd ex_fpdf [EmptyString] None NIndirect; NReg].
Example C31_dataset_nonvacuous :
  Forall (plain ["energy"%string]) ex_fops /\ hd_error (map fst (added ex_fops)) = Some ex_fpdf /\
  List.length (osNames (bdObs ex_fpdf)) = hNDims (bdHist ex_fpdf) /\ Forall cut_built ex_fcuts /\
  (forall e, In e ex_shifted -> cuttable ex_fcuts e /\ (passes_all ex_fcuts e -> exists vals, values (osNames (bdObs ex_fpdf)) e vals)) /\
  covers ex_fpdf (added ex_fops) /\ NoDup (fitted (added ex_fops)) /\ direct_first (added ex_fops) /\
  (forall n, In n (fitted (added ex_fops)) -> has_key (sof [("f"%string, qz 3)]) n) /\
  (forall k, (k < hNBins (bdHist ex_fpdf))%nat -> 0 < expected (sof [("f"%string, qz 3)]) (added ex_fops) k) /\
  hCont (bdHist (nlData (fst (nl_needData (nlrun ex_nl (ex_fops ++ [NCuts ex_fcuts; NDataSet ex_shifted])))))) = [0; qz 1; qz 1; qz 1].
Proof.
  split; [repeat (apply Forall_cons; [cbn; auto|]); constructor|]. split; [reflexivity|]. split; [reflexivity|]. split; [repeat constructor|]. split.
  { intros e He. assert (exists x y, e = ex_ev x y) as [x [y ->]].
    { repeat destruct He as [<-|He]; try contradiction; eauto. }
    destruct (ex_ev_has x y) as [H1 H2]. split.
    - intros c [<-|[]]. cbn [cut_obs]. eauto.
    - intros _. exists [qz x]. repeat constructor. exact H1. }
  split. { apply Forall_cons; [|constructor]. split; [|cbn; lia]. apply hr_setBins, hr_new; [apply ar_adds; [constructor|repeat constructor; apply ex_axis_built; lia]|discriminate]. }
  split; [repeat constructor; cbn; intuition|]. split.
  { intros i j bi bj. change (added ex_fops) with [(ex_fpdf, NIndirect)]. destruct j as [|[|j]]; cbn [nth_error]; intros; discriminate. }
  split; [intros n [<-|[]]; eexists; reflexivity|]. split; [apply below; repeat (apply Forall_cons; [vm_compute; reflexivity|]); constructor|].
  vm_compute. reflexivity.
Qed.

(** C30.  Without systematics, buffers or projections evaluating again always gives the same answer (or failure), whatever
    came before; the answer is that of a fresh statistic with the data in force. *)
Theorem C30_repeat_partial : forall names par build obs ops m, Forall (plain obs) ops -> let s := nlrun (nl_new names par build) ops in
  snd (nl_eval (nlrun s (repeat NEval m))) = snd (nl_eval s).
Proof. exact again_pkg. Qed.
Print Assumptions C30_repeat_partial.
Theorem C30_new_data_partial : forall names par build obs ops fresh d D m, let pdfs := added ops in let nbins := hNBins (bdHist D) in
  Forall (plain obs) ops -> In NReg ops -> bb_in ops = false -> data_in ops = Some D ->
  Forall (plain obs) fresh -> In NReg fresh -> bb_in fresh = false -> data_in fresh = Some D ->
  added fresh = pdfs -> con_in fresh = con_in ops ->
  h_reach (bdHist D) -> NoDup (fitted pdfs) -> direct_first pdfs -> covers D pdfs -> (forall n, In n (fitted pdfs) -> has_key d n) ->
  (exists k, (k < nbins)%nat /\ expected d pdfs k = 0) \/
  ((forall k, (k < nbins)%nat -> 0 < expected d pdfs k) /\ forall p, restriction p d (fitted pdfs) -> exists c, cman_eval (con_in ops) p = Ok c) ->
  let start := fun h => fst (nl_setParams (nlrun (nl_new names par build) h) d) in
  snd (nl_eval (nlrun (start ops) (repeat NEval m))) = snd (nl_eval (start fresh)).
Proof. exact fresh_pkg. Qed.
Print Assumptions C30_new_data_partial.

(** counterexamples: a buffer on one of two dimensions makes the second evaluation throw; a buffer in one dimension with
    Barlow-Beeston makes the second value NaN; new data after a first evaluation is not shrunk, reading past the pdfs *)
Definition ex_bufs := [NAdd ex_pa [EmptyString] None NIndirect; NData ex_sbed; NBuffer "x" 1 1; NReg; NPars (sof [("a"%string, qz 2)])].
Definition ex_ac1 := fst (addAxes ac_empty [ex_axis "x" 0 4 4]).
Definition ex_p1 : bed := mkBed "a" (fst (setBinContents (mk_hist ex_ac1) (map qz [1;1;1;1]%Z))) (mk_obsset ["x"]%string).
Definition ex_d1 : bed := mkBed "data" (fst (setBinContents (mk_hist ex_ac1) (map qz [1;2;3;4]%Z))) (mk_obsset ["x"]%string).
Definition ex_buf1 := [NAdd ex_p1 [EmptyString] None NIndirect; NData ex_d1; NBuffer "x" 1 1; NReg; NPars (sof [("a"%string, qz 2)])].
Definition ex_bb1 := [NBB true; NAdd ex_p1 [EmptyString] (Some 1%Z) NIndirect; NData ex_d1; NBuffer "x" 1 1; NReg; NPars (sof [("a"%string, qz 2)])].
Lemma term_ok (n mu : Qc) : 0 < mu -> exists v, poisson_term n (qr mu) 0 = Ok v.
Proof. intros H. unfold poisson_term. destruct (Rlt_dec 0 (qr mu)) as [_|C]; [eauto|]. exfalso. apply C. rewrite <- qr_0. now apply qr_lt. Qed.
Lemma bb_term_ok (s2 n mu : Qc) : 0 < s2 -> 0 <= n -> 0 < mu -> mu * s2 < 1 -> exists v, bb_term s2 n mu = Ok v.
Proof.
  intros Hs Hn Hm Hb. destruct (beta_pkg s2 n mu Hs Hn Hb) as [beta [E [_ [P _]]]]. unfold bb_term. rewrite E.
  apply qr_lt in Hs. apply qr_lt in Hm. rewrite qr_0 in *. destruct (Req_EM_T (qr s2) 0) as [C|_]; [exfalso; lra|].
  unfold poisson_term. destruct (Rlt_dec 0 (beta * qr mu)) as [_|C]; [eauto|]. exfalso. apply C. now apply Rmult_lt_0_compat.
Qed.
Ltac bb_fine := match goal with |- context [bb_term ?s ?n ?m] => let v := fresh "v" in let E := fresh "E" in
  destruct (bb_term_ok s n m) as [v E]; [vm_compute; reflexivity|vm_compute; discriminate|vm_compute; reflexivity|vm_compute; reflexivity|]; rewrite E end.
Ltac pt_fine := match goal with |- context [poisson_term ?n (qr ?m) _] => let v := fresh "v" in let E := fresh "E" in
  destruct (term_ok n m) as [v E]; [vm_compute; reflexivity|]; change (IZR 0) with R0 in E; rewrite E end.
Theorem C30_repeat_refuted : exists ops v, let s := nlrun ex_nl ops in
  snd (nl_eval s) = Ok v /\ snd (nl_eval (fst (nl_eval s))) = Throw DimensionError.
Proof.
  assert (H : exists v, snd (nl_eval (nlrun ex_nl ex_bufs)) = Ok v).
  { lazy -[poisson_term rlift2 qr Rplus]. repeat pt_fine. cbn [rlift2]. eexists. reflexivity. }
  destruct H as [v Hv]. exists ex_bufs, v. cbv zeta. split; [exact Hv|]. lazy -[poisson_term rlift2 qr Rplus]. reflexivity.
Qed.
Print Assumptions C30_repeat_refuted.
Theorem C30_same_value_refuted : exists ops v, let s := nlrun ex_nl ops in
  snd (nl_eval s) = Ok v /\ snd (nl_eval (fst (nl_eval s))) = NonFinite.
Proof.
  assert (H : exists v, snd (nl_eval (nlrun ex_nl ex_bb1)) = Ok v).
  { lazy -[bb_term qr Rplus]. repeat bb_fine. eexists. reflexivity. }
  destruct H as [v Hv]. exists ex_bb1, v. cbv zeta. split; [exact Hv|].
  lazy -[bb_term qr Rplus]. match goal with |- context [bb_term ?s ?n ?m] => destruct (beta_neg_pkg s n m) as [? [_ [_ [_ E]]]];
    [vm_compute; reflexivity|vm_compute; reflexivity|vm_compute; discriminate|]; rewrite E end. reflexivity.
Qed.
Print Assumptions C30_same_value_refuted.
Theorem C30_new_data_refuted : exists ops D v,
  snd (nl_eval (nlrun ex_nl (ops ++ [NData D]))) = Ok v /\
  snd (nl_eval (nlrun ex_nl (ops ++ [NEval; NData D]))) = UB.
Proof.
  assert (H : exists v, snd (nl_eval (nlrun ex_nl (ex_buf1 ++ [NData ex_d1]))) = Ok v).
  { lazy -[poisson_term rlift2 qr Rplus]. repeat pt_fine. cbn [rlift2]. eexists. reflexivity. }
  destruct H as [v Hv]. exists ex_buf1, ex_d1, v. split; [exact Hv|]. lazy -[poisson_term rlift2 qr Rplus]. reflexivity.
Qed.
Print Assumptions C30_new_data_refuted.
Definition ex_fresh := [NAdd ex_pb [EmptyString] None NDirect; NAdd ex_pa [EmptyString] None NIndirect; NCon ex_con; NData ex_sbed; NReg].
Example C30_nonvacuous :
  Forall (plain ["x"; "y"]%string) ex_nlops /\ Forall (plain ["x"; "y"]%string) ex_fresh /\ added ex_fresh = added ex_nlops /\ con_in ex_fresh = con_in ex_nlops /\
  data_in ex_fresh = data_in ex_nlops /\ In NReg ex_fresh /\ In NEval ex_nlops /\ (exists p, restriction p ex_d (fitted (added ex_nlops))) /\
  (forall p, restriction p ex_d (fitted (added ex_nlops)) -> exists c, cman_eval (con_in ex_nlops) p = Ok c).
Proof.
  split; [exact ex_plain|]. split; [repeat (apply Forall_cons; [cbn; auto|]); constructor|]. split; [reflexivity|]. split; [reflexivity|]. split; [reflexivity|].
  split; [cbn; tauto|]. split; [cbn; tauto|]. split.
  - exists ex_d. intros n v. split; [|tauto]. intros H. split; [|exact H]. change (fitted (added ex_nlops)) with ["b"; "a"]%string. change ex_d with [("a", qz 2); ("b", qz 3)]%string in H. cbn [sfind] in H.
    destruct (String.eqb_spec n "a") as [->|_]; [cbn; tauto|]. destruct (String.eqb_spec n "b") as [->|_]; [cbn; tauto|discriminate].
  - intros p Hp. assert (E : sfind "a"%string p = Some (qz 2)) by (apply Hp; split; [cbn; tauto|reflexivity]).
    unfold cman_eval, cman_terms. cbn [con_in ex_nlops fold_left ex_con set_single fst cman_new cInd cPair cRatio cFrac cInterp cShape].
    eexists. cbn. unfold at_, sat. rewrite E. reflexivity.
Qed.

(** C32 *)
Theorem C32_root_partial : forall s2 n mu : Qc, (0 < s2)%Qc -> (0 <= n)%Qc -> (mu * s2 < 1)%Qc ->
  exists beta, bb_beta s2 n mu = Ok beta /\ bb_root (qr s2) (qr n) (qr mu) beta /\ (0 < beta)%R /\
    (forall x, bb_root (qr s2) (qr n) (qr mu) x -> (x <= beta)%R) /\ (n = mu -> beta = 1%R).
Proof. exact beta_pkg. Qed.
Print Assumptions C32_root_partial.
(** the whole evaluation with Barlow-Beeston on, when mu * sigma^2 < 1 in every bin *)
Theorem C32_value_partial : forall names par build obs ops d D m,
  let rated := pdfs_from false ops in let pdfs := map fst rated in let nbins := hNBins (bdHist D) in
  Forall (plain obs) ops -> In NReg ops -> bb_in ops = true -> data_in ops = Some D -> h_reach (bdHist D) ->
  NoDup (fitted pdfs) -> uniform pdfs -> covers D pdfs -> all_rated rated -> (forall n, In n (fitted pdfs) -> has_key d n) ->
  (forall k, (k < nbins)%nat -> let mu := expected d pdfs k in let s2 := sigma2_of d rated mu in
     0 < mu /\ 0 < s2 /\ mu * s2 < 1 /\ 0 <= cont (bdHist D) k) ->
  exists s p beta, nl_setParams (nlrun (nl_new names par build) ops) d = (s, Ok tt) /\
    let s' := nlrun s (repeat NEval m) in
    nl_getParams s' = Ok p /\ restriction p d (fitted pdfs) /\
    (forall k, (k < nbins)%nat -> let mu := expected d pdfs k in let s2 := sigma2_of d rated mu in let n := cont (bdHist D) k in
       bb_root (qr s2) (qr n) (qr mu) (beta k) /\ (0 < beta k)%R /\ (forall x, bb_root (qr s2) (qr n) (qr mu) x -> (x <= beta k)%R) /\
       (n = mu -> beta k = 1%R)) /\
    (forall c, cman_eval (con_in ops) p = Ok c ->
       snd (nl_eval s') = Ok (rsum (map (fun k => let mu := expected d pdfs k in
          poisson_nll (qr (cont (bdHist D) k)) (beta k * qr mu) + (beta k - 1) * (beta k - 1) / (2 * qr (sigma2_of d rated mu))) (seq 0 nbins)) + qr c)%R).
Proof. exact bb_pkg. Qed.
Print Assumptions C32_value_partial.
(** for mu * sigma^2 >= 1 the scale used is minus the root, and the likelihood is NaN *)
Theorem C32_root_refuted : forall s2 n mu : Qc, (0 < s2)%Qc -> (0 < n)%Qc -> (1 <= mu * s2)%Qc ->
  exists beta, bb_beta s2 n mu = Ok beta /\ (beta < 0)%R /\ bb_root (qr s2) (qr n) (qr mu) (- beta) /\ bb_term s2 n mu = NonFinite.
Proof. exact beta_neg_pkg. Qed.
Print Assumptions C32_root_refuted.
Theorem C32_empty_bin_refuted : forall s2 mu : Qc, (0 < s2)%Qc -> (1 <= mu * s2)%Qc -> bb_term s2 0 mu = NonFinite.
Proof. exact beta_zero_pkg. Qed.
Print Assumptions C32_empty_bin_refuted.
Definition ex_bbops := [NAdd ex_p1 [EmptyString] (Some 4%Z) NIndirect; NBB true; NReg; NData ex_d1].
Example C32_nonvacuous :
  let rated := pdfs_from false ex_bbops in let pdfs := map fst rated in let d := sof [("a"%string, qz 2)] in
  Forall (plain ["x"%string]) ex_bbops /\ bb_in ex_bbops = true /\ data_in ex_bbops = Some ex_d1 /\ uniform pdfs /\ covers ex_d1 pdfs /\ all_rated rated /\
  NoDup (fitted pdfs) /\ (forall n, In n (fitted pdfs) -> has_key d n) /\
  (forall k, (k < hNBins (bdHist ex_d1))%nat -> let mu := expected d pdfs k in let s2 := sigma2_of d rated mu in
     0 < mu /\ 0 < s2 /\ mu * s2 < 1 /\ 0 <= cont (bdHist ex_d1) k) /\
  sigma2_of d rated (expected d pdfs 1) = Q2Qc (1 # 8) /\
  (1 <= qz 2 * Q2Qc (1 # 2))%Qc.
Proof.
  cbv zeta. split; [repeat (apply Forall_cons; [cbn; auto|]); constructor|]. split; [reflexivity|]. split; [reflexivity|]. split; [left; repeat constructor|].
  split. { apply Forall_cons; [|constructor]. split; [|cbn; lia]. apply hr_setBins, hr_new; [apply ar_adds; [constructor|repeat constructor; apply ex_axis_built; lia]|discriminate]. }
  split. { apply Forall_cons; [|constructor]. exists 4%Z. split; [reflexivity|lia]. }
  split; [repeat constructor; cbn; intuition|]. split; [intros n [<-|[]]; eexists; reflexivity|]. split.
  { apply below. repeat (apply Forall_cons; [split; [vm_compute; reflexivity|split; [vm_compute; reflexivity|split; [vm_compute; reflexivity|vm_compute; discriminate]]]|]). constructor. }
  split; [apply Qc_is_canon; vm_compute; reflexivity|]. vm_compute. discriminate.
Qed.

(** C70: a pdf that is not fitted contributes nothing to the Monte Carlo uncertainty; alone it makes the likelihood NaN *)
Theorem C70_every_pdf_counts_partial : forall names par build obs ops d D m,
  let rated := pdfs_from false ops in let pdfs := map fst rated in let nbins := hNBins (bdHist D) in
  Forall (plain obs) ops -> In NReg ops -> bb_in ops = true -> data_in ops = Some D -> h_reach (bdHist D) ->
  NoDup (fitted pdfs) -> uniform pdfs -> covers D pdfs -> all_rated rated -> (forall n, In n (fitted pdfs) -> has_key d n) ->
  (forall k, (k < nbins)%nat -> let mu := expected d pdfs k in let s2 := sigma2_of d rated mu in
     0 < mu /\ 0 < s2 /\ mu * s2 < 1 /\ 0 <= cont (bdHist D) k) ->
  exists s p beta, nl_setParams (nlrun (nl_new names par build) ops) d = (s, Ok tt) /\
    let s' := nlrun s (repeat NEval m) in
    nl_getParams s' = Ok p /\ restriction p d (fitted pdfs) /\
    (forall k, (k < nbins)%nat -> let mu := expected d pdfs k in let s2 := sigma2_of d rated mu in let n := cont (bdHist D) k in
       bb_root (qr s2) (qr n) (qr mu) (beta k) /\ (0 < beta k)%R /\ (forall x, bb_root (qr s2) (qr n) (qr mu) x -> (x <= beta k)%R) /\
       (n = mu -> beta k = 1%R)) /\
    (forall c, cman_eval (con_in ops) p = Ok c ->
       snd (nl_eval s') = Ok (rsum (map (fun k => let mu := expected d pdfs k in
          poisson_nll (qr (cont (bdHist D) k)) (beta k * qr mu) + (beta k - 1) * (beta k - 1) / (2 * qr (sigma2_of d rated mu))) (seq 0 nbins)) + qr c)%R).
Proof. exact bb_pkg. Qed.
Print Assumptions C70_every_pdf_counts_partial.
Definition ex_unfit := [NAdd ex_p1 [EmptyString] (Some 4%Z) NFalse; NBB true; NReg; NData ex_d1].
Theorem C70_every_pdf_counts_refuted :
  let rated := pdfs_from false ex_unfit in let pdfs := map fst rated in
  all_rated rated /\ (forall k, (k < 4)%nat -> let mu := expected [] pdfs k in let s2 := sigma2_of [] rated mu in 0 < mu /\ 0 < s2 /\ mu * s2 < 1) /\
  snd (nl_eval (nlrun ex_nl ex_unfit)) = NonFinite.
Proof.
  cbv zeta. split; [apply Forall_cons; [|constructor]; exists 4%Z; split; [reflexivity|lia]|]. split.
  { apply below. repeat (apply Forall_cons; [split; [vm_compute; reflexivity|split; [vm_compute; reflexivity|vm_compute; reflexivity]]|]). constructor. }
  lazy -[bb_term qr Rplus].
  assert (Z : forall s n m : Qc, this s = 0%Q -> bb_term s n m = NonFinite).
  { intros s n m E. assert (s = 0) as -> by (apply Qc_is_canon; rewrite E; reflexivity). unfold bb_term. destruct (bb_beta 0 n m); try reflexivity.
    destruct (Req_EM_T (qr 0) 0) as [_|C]; [reflexivity|]. exfalso. apply C, qr_0. }
  rewrite Z by reflexivity. reflexivity.
Qed.
Print Assumptions C70_every_pdf_counts_refuted.
