(** Barlow-Beeston and systematics together: C106. *)
From Coq Require Import ZArith Reals.
From Verif Require Import Base.Res Base.Num Base.RNum Base.SMap Model.Axis Model.Event Model.Cut Model.Hist Model.ED Model.Param
  Model.Matrix Model.SystMan Model.Shrink Model.EDMan Model.Fill Model.Constraint Model.NLLH
  Spec.AxisSpec Spec.HistSpec Spec.ParamSpec Spec.EDManSpec Spec.SystManSpec Spec.NLLHSpec Spec.NLLHSysSpec
  Proofs.NLLHS11 Proofs.NLLHS12 Props.AxisProps Props.SystManProps Props.NLLHSysProps.
From Coq Require Import Lra Lia.
Local Open Scope Qc_scope.

(** C106.  After any history without buffers, with at least one systematic, Barlow-Beeston on, every pdf accepted with its rate and all
    of one status: every evaluation is the Barlow-Beeston likelihood of the expectation obtained by letting the systematics act.  The
    uncertainty of a bin uses the fitted number of events of a DIRECT pdf, but for an INDIRECT pdf that number times the integral of the
    distorted pdf. *)
Theorem C106_value : forall names par build obs ops d D, let rated := pdfs_from false ops in let pdfs := map fst rated in let nbins := hNBins (bdHist D) in
  (forall q, comp_ok (par q)) -> Forall (steady obs) ops -> registered ops -> distinct_names names ops -> bb_in ops = true ->
  data_in ops = Some D -> h_reach (bdHist D) -> NoDup (fitted pdfs) -> uniform pdfs -> covers D pdfs -> all_rated rated -> pdfs_accepted names ops ->
  (exists q, is_sys names ops q) -> swf d -> (forall n, In n (fitted pdfs) -> has_key d n) ->
  (forall q n, is_sys names ops q -> ~ is_dict (par q) -> In n (c_names (par q)) -> has_key d n) ->
  exists s p, nl_setParams (nlrun (nl_new names par build) ops) d = (s, Ok tt) /\
    (forall q n v, is_sys names ops q -> In n (c_names (par q)) -> sfind n d = Some v -> c_get (nlPar s q) n = Ok v) /\
    let M := fun q => fst (build q (nlPar s q)) in
    let mu := expected_sys names ops M d pdfs in let s2 := fun k => sigma2_sys names ops M d rated (mu k) in let n := cont (bdHist D) in
    (forall q, is_sys names ops q -> snd (build q (nlPar s q)) = Ok tt) -> fits names ops M pdfs ->
    (forall k, (k < nbins)%nat -> 0 < mu k /\ 0 < s2 k /\ mu k * s2 k < 1 /\ 0 <= n k) ->
    exists beta,
    (forall k, (k < nbins)%nat -> bb_root (qr (s2 k)) (qr (n k)) (qr (mu k)) (beta k) /\ (0 < beta k)%R /\
       (forall x, bb_root (qr (s2 k)) (qr (n k)) (qr (mu k)) x -> (x <= beta k)%R) /\ (n k = mu k -> beta k = 1%R)) /\
    forall m, let s' := nlrun s (repeat NEval m) in
    nl_getParams s' = Ok p /\
    (forall n v, sfind n d = Some v -> In n (fitted pdfs) \/ (exists q, is_sys names ops q /\ In n (c_names (par q))) -> sfind n p = Some v) /\
    (forall c, cman_eval (con_in ops) p = Ok c ->
       snd (nl_eval s') = Ok (rsum (map (fun k => poisson_nll (qr (n k)) (beta k * qr (mu k)) + (beta k - 1) * (beta k - 1) / (2 * qr (s2 k))) (seq 0 nbins)) + qr c)%R).
Proof. exact bb_sys_pkg. Qed.
Print Assumptions C106_value.

(** a systematic whose response leaves the pdfs alone does not change the likelihood: without Barlow-Beeston the outcome is that of the
    pdfs as they were added *)
Theorem C106_identity_partial : forall names par build obs ops d D, let pdfs := NLLHSpec.added ops in
  (forall q, comp_ok (par q)) -> Forall (steady obs) ops -> registered ops -> distinct_names names ops -> bb_in ops = false ->
  data_in ops = Some D -> h_reach (bdHist D) -> NoDup (fitted pdfs) -> direct_first pdfs -> covers D pdfs -> swf d ->
  (forall n, In n (fitted pdfs) -> has_key d n) ->
  (forall q n, is_sys names ops q -> ~ is_dict (par q) -> In n (c_names (par q)) -> has_key d n) ->
  exists s p, nl_setParams (nlrun (nl_new names par build) ops) d = (s, Ok tt) /\
    let M := fun q => fst (build q (nlPar s q)) in
    (forall q, is_sys names ops q -> snd (build q (nlPar s q)) = Ok tt) -> fits names ops M pdfs ->
    (forall b, In b pdfs -> Forall (fun q => leaves (hNBins (bdHist (fst b))) (M q)) (acting_on names ops (fst b))) ->
    forall m, let s' := nlrun s (repeat NEval m) in
    nl_getParams s' = Ok p /\ snd (nl_eval s') = outcome (cont (bdHist D)) (expected d pdfs) (hNBins (bdHist D)) (cman_eval (con_in ops) p).
Proof. exact identity_pkg. Qed.
Print Assumptions C106_identity_partial.
(** with Barlow-Beeston the expectation is still that of the pdfs as added, and so is the uncertainty when no pdf is INDIRECT *)
Theorem C106_identity_uncertainty_partial : forall names ops (M : nat -> smat) d D l, let pdfs := map fst l in
  covers D pdfs -> (forall p, In p pdfs -> Forall (fun q => leaves (hNBins (bdHist (fst p))) (M q)) (acting_on names ops (fst p))) ->
  (forall k, expected_sys names ops M d pdfs k = expected d pdfs k) /\
  (Forall (fun p => snd (fst p) <> NIndirect) l -> forall mu, sigma2_sys names ops M d l mu = sigma2_of d l mu).
Proof. intros names ops M d D l pdfs Hc H. split; [exact (expected_leaves names ops M d pdfs D Hc H)|]. intros F mu. exact (sigma_direct names ops M d l mu F). Qed.
Print Assumptions C106_identity_uncertainty_partial.

(** ... but for an INDIRECT pdf that is not normalised it does: the same calls with and without a systematic whose response is the identity *)
Definition ex_b1 (n : string) (v : Qc) := mkBed n (fst (setBinContents (mk_hist (fst (addAxes ac_empty [ex_axis "x" 0 1 1]))) [v])) (mk_obsset ["x"%string]).
Definition ex_m1 (v : Qc) : smat := mkMat 1 1 1 1 (fun i j => if Nat.eqb i 0 && Nat.eqb j 0 then v else 0).
Definition ex_idsys (q : nat) (c : comp) : smat * res unit := (ex_m1 1, Ok tt).
Definition ex_bbplain := [NAdd (ex_b1 "a" (qz 2)) [] (Some 4%Z) NIndirect; NBB true; NReg; NData (ex_b1 "data" 0); NPars (sof [("a", 1); ("w", 0)])]%string.
Definition ex_bbsys := (NSys 0 "" :: ex_bbplain)%string.
Theorem C106_identity_refuted : exists names par build ops q v w,
  (forall p, comp_ok (par p)) /\ (forall c, leaves 1 (fst (build q c)) /\ sR (fst (build q c)) = 1%nat /\ sC (fst (build q c)) = 1%nat /\ snd (build q c) = Ok tt) /\
  snd (nl_eval (nlrun (nl_new names par build) ops)) = Ok v /\ snd (nl_eval (nlrun (nl_new names par build) (NSys q EmptyString :: ops))) = Ok w /\ v <> w.
Proof.
  exists (fun _ => "id"%string), (fun _ => CSingle "w" 0), ex_idsys, ex_bbplain, 0%nat.
  exists (0 + qr (qq 15 8) + qr 0)%R, (0 + qr (qq 7 4) + qr 0)%R.
  split; [intros _; exact I|]. split.
  { intros c. split; [|repeat split]. intros i j Hi Hj. assert (i = 0%nat) as -> by lia. assert (j = 0%nat) as -> by lia. reflexivity. }
  split; [|split].
  - lazy -[bb_term qr Rplus]. rewrite bb_term_empty by (vm_compute; reflexivity). cbn [rlift2]. reflexivity.
  - lazy -[bb_term qr Rplus]. rewrite bb_term_empty by (vm_compute; reflexivity). cbn [rlift2]. reflexivity.
  - intros C. assert (E : qr (qq 15 8) = qr (qq 7 4)) by lra. apply qr_inj in E. apply (f_equal (fun q => this q)) in E. vm_compute in E. discriminate.
Qed.
Print Assumptions C106_identity_refuted.
(** a pdf that AddPdf refused because of an unknown group stays in the fit, and its rate is missing: with Barlow-Beeston every evaluation throws *)
Definition ex_refused := [NAdd (ex_b1 "a" (qz 2)) ["nosuch"] (Some 4%Z) NIndirect; NBB true; NReg; NData (ex_b1 "data" 0); NPars (sof [("a", 1)])]%string.
Theorem C106_refused_refuted : exists b,
  snd (nl_addPdf (nl_new (fun _ => "id"%string) (fun _ => CSingle "w" 0) ex_idsys) b ["nosuch"%string] (Some 4%Z) NIndirect) = Throw NotFoundError /\
  snd (nl_eval (nlrun (nl_new (fun _ => "id"%string) (fun _ => CSingle "w" 0) ex_idsys)
     (NAdd b ["nosuch"%string] (Some 4%Z) NIndirect :: [NBB true; NReg; NData (ex_b1 "data" 0); NPars (sof [("a"%string, 1)])]))) = Throw std_out_of_range.
Proof. exists (ex_b1 "a" (qz 2)). split; vm_compute; reflexivity. Qed.
Print Assumptions C106_refused_refuted.
Lemma ex_b1_reach n v : h_reach (bdHist (ex_b1 n v)).
Proof. apply hr_setBins, hr_new; [apply ar_adds; [constructor|repeat constructor; apply ex_axis_built; lia]|discriminate]. Qed.
Definition ex_vsys (q : nat) (c : comp) : smat * res unit := match c with CSingle _ v => (ex_m1 v, Ok tt) | _ => (mat_empty, Throw LogicError) end.
Definition ex_cn (q : nat) := "id"%string.
Definition ex_cp (q : nat) := CSingle "w" 0.
Definition ex_cops (bb : bool) := [NSys 0 ""; NAdd (ex_b1 "a" (qz 2)) [] (Some 4%Z) NIndirect; NBB bb; NReg; NData (ex_b1 "data" (qz 3)); NEval]%string.
Definition ex_cd (w : Qc) := sof [("a"%string, 1); ("w"%string, w)].
Definition ex_cs bb w := fst (nl_setParams (nlrun (nl_new ex_cn ex_cp ex_vsys) (ex_cops bb)) (ex_cd w)).
Lemma ex_cis bb q : is_sys ex_cn (ex_cops bb) q -> q = 0%nat.
Proof. intros [g H]. unfold group_in in H. assert (E : sys_accepted ex_cn (ex_cops bb) = [Add 0 ""; AddDist "a" []]%string%nat) by (vm_compute; reflexivity). rewrite E in H. unfold SystManSpec.added in H. cbn [flat_map app] in H. destruct (String.eqb g ""); cbn in H; intuition. Qed.
Lemma ex_chyps bb w : let ops := ex_cops bb in let rated := pdfs_from false ops in let pdfs := map fst rated in
  (forall q, comp_ok (ex_cp q)) /\ Forall (steady ["x"%string]) ops /\ registered ops /\ distinct_names ex_cn ops /\ bb_in ops = bb /\
  data_in ops = Some (ex_b1 "data" (qz 3)) /\ NoDup (fitted pdfs) /\ uniform pdfs /\ direct_first pdfs /\ covers (ex_b1 "data" (qz 3)) pdfs /\ all_rated rated /\
  pdfs_accepted ex_cn ops /\ (exists q, is_sys ex_cn ops q) /\ swf (ex_cd w) /\ (forall n, In n (fitted pdfs) -> has_key (ex_cd w) n) /\
  (forall q n, is_sys ex_cn ops q -> ~ is_dict (ex_cp q) -> In n (c_names (ex_cp q)) -> has_key (ex_cd w) n).
Proof.
  cbv zeta. split; [intros q; exact I|]. split; [repeat (apply Forall_cons; [first [exact I|reflexivity|split; [reflexivity|apply ex_b1_reach]]|]); constructor|].
  split. { exists (firstn 3 (ex_cops bb)), (skipn 4 (ex_cops bb)). split; [reflexivity|repeat constructor]. }
  split. { intros q q' H H' _. apply ex_cis in H, H'. congruence. }
  split; [reflexivity|]. split; [reflexivity|]. split; [repeat constructor; cbn; intuition|]. split; [left; repeat constructor|].
  split. { intros i j bi bj. change (map fst (pdfs_from false (ex_cops bb))) with [(ex_b1 "a" (qz 2), NIndirect)]. destruct j as [|[|j]]; cbn [nth_error]; intros; discriminate. }
  split. { apply Forall_cons; [|constructor]. split; [apply ex_b1_reach|cbn; lia]. }
  split. { apply Forall_cons; [|constructor]. exists 4%Z. split; [reflexivity|lia]. }
  split; [vm_compute; reflexivity|]. split; [exists 0%nat, EmptyString; vm_compute; auto|]. split; [apply sof_gen_wf; apply sempty_wf|].
  split; [intros n [<-|[]]; eexists; reflexivity|]. intros q n _ _ [<-|[]]. eexists. reflexivity.
Qed.
Example C106_nonvacuous :
  let ops := ex_cops true in let rated := pdfs_from false ops in let pdfs := map fst rated in let M := fun q => fst (ex_vsys q (nlPar (ex_cs true (qz 3)) q)) in
  (forall q, is_sys ex_cn ops q -> snd (ex_vsys q (nlPar (ex_cs true (qz 3)) q)) = Ok tt) /\ fits ex_cn ops M pdfs /\
  acting_on ex_cn ops (ex_b1 "a" (qz 2)) = [0%nat] /\ expected_sys ex_cn ops M (ex_cd (qz 3)) pdfs 0 = qz 6 /\
  sigma2_sys ex_cn ops M (ex_cd (qz 3)) rated (qz 6) = qq 1 24 /\ qz 6 * qq 1 24 < 1 /\ 0 < qq 1 24 /\ cont (bdHist (ex_b1 "data" (qz 3))) 0 = qz 3 /\
  hNBins (bdHist (ex_b1 "data" (qz 3))) = 1%nat.
Proof.
  cbv zeta. split; [intros q H; apply ex_cis in H as ->; vm_compute; reflexivity|].
  assert (A : acting_on ex_cn (ex_cops true) (ex_b1 "a" (qz 2)) = [0%nat]) by (vm_compute; reflexivity).
  assert (S0 : sized 1 (fst (ex_vsys 0 (nlPar (ex_cs true (qz 3)) 0)))) by (split; vm_compute; reflexivity).
  split. { split.
    - intros g. exists 1%nat. apply Forall_forall. intros q Hq. assert (H : is_sys ex_cn (ex_cops true) q) by (exists g; exact Hq). apply ex_cis in H as ->. exact S0.
    - intros p [<-|[]]. cbn [fst]. rewrite A. repeat constructor; apply S0. }
  split; [exact A|].
  change (map fst (pdfs_from false (ex_cops true))) with [(ex_b1 "a" (qz 2), NIndirect)]. change (pdfs_from false (ex_cops true)) with [(ex_b1 "a" (qz 2), NIndirect, Some 4%Z)].
  unfold expected_sys, sigma2_sys, mc_events, responded. cbn [map fst snd]. rewrite A.
  repeat (split; [first [apply Qc_is_canon; vm_compute; reflexivity|vm_compute; reflexivity]|]). reflexivity.
Qed.
Example C106_identity_nonvacuous :
  let ops := ex_cops false in let pdfs := NLLHSpec.added ops in let M := fun q => fst (ex_vsys q (nlPar (ex_cs false 1) q)) in
  (forall q, is_sys ex_cn ops q -> snd (ex_vsys q (nlPar (ex_cs false 1) q)) = Ok tt) /\ fits ex_cn ops M pdfs /\ acting_on ex_cn ops (ex_b1 "a" (qz 2)) = [0%nat] /\
  (forall b, In b pdfs -> Forall (fun q => leaves (hNBins (bdHist (fst b))) (M q)) (acting_on ex_cn ops (fst b))) /\ expected (ex_cd 1) pdfs 0 = qz 2.
Proof.
  cbv zeta. split; [intros q H; apply ex_cis in H as ->; vm_compute; reflexivity|].
  assert (A : acting_on ex_cn (ex_cops false) (ex_b1 "a" (qz 2)) = [0%nat]) by (vm_compute; reflexivity).
  assert (S0 : sized 1 (fst (ex_vsys 0 (nlPar (ex_cs false 1) 0)))) by (split; vm_compute; reflexivity).
  split. { split.
    - intros g. exists 1%nat. apply Forall_forall. intros q Hq. assert (H : is_sys ex_cn (ex_cops false) q) by (exists g; exact Hq). apply ex_cis in H as ->. exact S0.
    - intros p [<-|[]]. cbn [fst]. rewrite A. repeat constructor; apply S0. }
  split; [exact A|]. split.
  { intros b [<-|[]]. cbn [fst]. rewrite A. apply Forall_cons; [|constructor]. intros i j Hi Hj. cbn in Hi, Hj. assert (i = 0%nat) as -> by lia. assert (j = 0%nat) as -> by lia. vm_compute. reflexivity. }
  apply Qc_is_canon. vm_compute. reflexivity.
Qed.
