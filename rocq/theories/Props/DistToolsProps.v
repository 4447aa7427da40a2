(** C80, C81, C82 *)
From Coq Require Import ZArith.
From Verif Require Import Base.Res Base.Num Base.SMap Model.Axis Model.Hist Model.Gauss Model.DistTools Spec.AxisSpec Spec.HistSpec Spec.GaussSpec Spec.DistToolsSpec.
From Verif Require Import Proofs.AxisP Proofs.GaussP5 Proofs.DistToolsP Proofs.DistToolsP2 Proofs.DistToolsP3 Proofs.DistToolsP4 Props.AxisProps Props.HistProps Props.GaussProps.
Local Open Scope Qc_scope.
Local Open Scope res_scope.

(** ** C80 *)
Theorem C80_bins (nd : nat) (integ : list Qc -> list Qc -> res Qc) (ac : axcol) : ac_reach ac -> acAxes ac <> [] ->
  let shape := map aNBins (acAxes ac) in
  (nd <> List.length (acAxes ac) -> pdfToHist nd integ ac = Throw DimensionError) /\
  (nd = List.length (acAxes ac) ->
   ((forall idx, in_shape shape idx -> exists v, integ (lows (acAxes ac) idx) (highs (acAxes ac) idx) = Ok v) -> exists h, pdfToHist nd integ ac = Ok h) /\
   (forall h, pdfToHist nd integ ac = Ok h -> hAxes h = ac /\
      forall idx, in_shape shape idx -> integ (lows (acAxes ac) idx) (highs (acAxes ac) idx) = Ok (cont_at h idx))).
Proof. exact (pdf_pkg nd integ ac). Qed.
Print Assumptions C80_bins.
(** nothing lost, nothing counted twice *)
Theorem C80_total (integ : list Qc -> list Qc -> res Qc) (F : list Qc -> list Qc -> Qc) (ac : axcol) :
  ac_reach ac -> acAxes ac <> [] -> Forall contiguous (acAxes ac) -> box_additive (List.length (acAxes ac)) F ->
  (forall lo hi, List.length lo = List.length (acAxes ac) -> List.length hi = List.length (acAxes ac) -> integ lo hi = Ok (F lo hi)) ->
  exists h, pdfToHist (List.length (acAxes ac)) integ ac = Ok h /\ integ (map aMin (acAxes ac)) (map aMax (acAxes ac)) = Ok (total h).
Proof. exact (pdf_total_pkg integ F ac). Qed.
Print Assumptions C80_total.
Theorem C80_gaussian (U : Qc -> Qc) (g : gauss) (ac : axcol) : cdf_like U -> sized g -> positive_widths g ->
  ac_reach ac -> acAxes ac <> [] -> Forall contiguous (acAxes ac) -> gND g = List.length (acAxes ac) ->
  exists h, pdfToHist (gND g) (gIntegral U g) ac = Ok h /\ hAxes h = ac /\ gIntegral U g (map aMin (acAxes ac)) (map aMax (acAxes ac)) = Ok (total h) /\
    (forall i, 0 <= cont h i) /\ 0 <= total h <= 1.
Proof. exact (gauss_pkg U g ac). Qed.
Print Assumptions C80_gaussian.

(** ** C81 *)
Theorem C81_th1 (h : hist) (wc : bool) : h_reach h ->
  (hNDims h <> 1%nat -> toTH1D h wc = Throw DimensionError) /\
  (forall a, acAxes (hAxes h) = [a] ->
   let dens i := if wc then cont h i / (hi_of a i - lo_of a i) else cont h i in
   (wc = true /\ (exists i, (i < aNBins a)%nat /\ lo_of a i = hi_of a i) /\ toTH1D h wc = NonFinite) \/
   ((wc = true -> forall i, (i < aNBins a)%nat -> lo_of a i < hi_of a i) /\
    exists t, toTH1D h wc = Ok t /\ thEdges t = [aLow a ++ [aMax a]] /\ thTitles t = [aLatex a] /\
      (forall i, (i < aNBins a)%nat -> thCont t [S i] = dens i) /\
      (forall k, (forall i, (i < aNBins a)%nat -> k <> [S i]) -> thCont t k = 0))).
Proof. exact (toTH1D_pkg h wc). Qed.
Print Assumptions C81_th1.
Theorem C81_th2 (h : hist) : h_reach h ->
  (hNDims h <> 2%nat -> toTH2D h = Throw DimensionError) /\
  (hNDims h = 2%nat -> Forall regular (acAxes (hAxes h)) ->
   exists t, toTH2D h = Ok t /\ thEdges t = map (fun a => aLow a ++ [aMax a]) (acAxes (hAxes h)) /\ thTitles t = map aLatex (acAxes (hAxes h)) /\
     (forall idx, in_shape (shape_of h) idx -> thCont t (root_bin idx) = cont_at h idx) /\
     (forall k, (forall idx, in_shape (shape_of h) idx -> k <> root_bin idx) -> thCont t k = 0)).
Proof. exact (toTHn_pkg 2 h). Qed.
Print Assumptions C81_th2.
Theorem C81_th3 (h : hist) : h_reach h ->
  (hNDims h <> 3%nat -> toTH3D h = Throw DimensionError) /\
  (hNDims h = 3%nat -> Forall regular (acAxes (hAxes h)) ->
   exists t, toTH3D h = Ok t /\ thEdges t = map (fun a => aLow a ++ [aMax a]) (acAxes (hAxes h)) /\ thTitles t = map aLatex (acAxes (hAxes h)) /\
     (forall idx, in_shape (shape_of h) idx -> thCont t (root_bin idx) = cont_at h idx) /\
     (forall k, (forall idx, in_shape (shape_of h) idx -> k <> root_bin idx) -> thCont t k = 0)).
Proof. exact (toTHn_pkg 3 h). Qed.
Print Assumptions C81_th3.
(** bins that overlap, which BinAxis accepts: the content of one bin ends up in another ROOT bin *)
Definition ex_overlap : axis := match mk_var "o" [0; 1] [qz 10; qz 11] "" with Ok a => a | _ => axis0 end.
Definition ex_ac_of (l : list axis) : axcol := fst (addAxes ac_empty l).
Definition ex_oh : hist := fst (setBinContents (mk_hist (ex_ac_of [ex_overlap; ex_axis "e" 0 2 1])) [qz 5; qz 7]).
Theorem C81_overlapping_bins_refuted : exists h t idx, h_reach h /\ hNDims h = 2%nat /\ in_shape (shape_of h) idx /\ toTH2D h = Ok t /\ thCont t (root_bin idx) <> cont_at h idx.
Proof.
  exists ex_oh. eexists. exists [0; 0]%nat. split; [|split; [reflexivity|split; [|split; [vm_compute; reflexivity|]]]].
  - apply hr_setBins, hr_new; [|discriminate]. apply ar_adds; [constructor|]. constructor; [|constructor; [apply ex_axis_built; lia|constructor]].
    eapply built_var. unfold ex_overlap. instantiate (1 := ""%string). instantiate (1 := [qz 10; qz 11]). instantiate (1 := [0; 1]). instantiate (1 := "o"%string). vm_compute. reflexivity.
  - repeat constructor; vm_compute; lia.
  - intros C. apply (f_equal (fun q => this q)) in C. vm_compute in C. discriminate.
Qed.
Print Assumptions C81_overlapping_bins_refuted.

(** ** C82 *)
Theorem C82_from_th1_partial (t : th) : th_ok 1 t -> outcome t (ofTH1D t).
Proof. exact (ofTH1D_pkg t). Qed.
Print Assumptions C82_from_th1_partial.
Theorem C82_from_th2_th3_partial (d : nat) (t : th) : d = 2%nat \/ d = 3%nat -> th_ok d t -> outcome t (ofTHn t).
Proof. exact (fun H => ofTHn_pkg d t ltac:(destruct H; lia)). Qed.
Print Assumptions C82_from_th2_th3_partial.
Theorem C82_round_trip_partial (h : hist) : h_reach h -> Forall (fun a => evenly a /\ aMin a < aMax a) (acAxes (hAxes h)) ->
  (hNDims h = 1%nat ->
   exists t h', toTH1D h false = Ok t /\ ofTH1D t = Ok h' /\ Forall2 same_edges (acAxes (hAxes h)) (acAxes (hAxes h')) /\
     names_of h' = map aLatex (acAxes (hAxes h)) /\ forall i, (i < hNBins h)%nat -> cont h' i = cont h i) /\
  (hNDims h = 2%nat -> NoDup (map aLatex (acAxes (hAxes h))) ->
   exists t h', toTH2D h = Ok t /\ ofTHn t = Ok h' /\ Forall2 same_edges (acAxes (hAxes h)) (acAxes (hAxes h')) /\
     names_of h' = map aLatex (acAxes (hAxes h)) /\ forall i, (i < hNBins h)%nat -> cont h' i = cont h i) /\
  (hNDims h = 3%nat -> NoDup (map aLatex (acAxes (hAxes h))) ->
   exists t h', toTH3D h = Ok t /\ ofTHn t = Ok h' /\ Forall2 same_edges (acAxes (hAxes h)) (acAxes (hAxes h')) /\
     names_of h' = map aLatex (acAxes (hAxes h)) /\ forall i, (i < hNBins h)%nat -> cont h' i = cont h i).
Proof.
  exact (fun R E => conj (fun D => round_trip1_pkg h R D E) (conj (fun D N => round_trip_pkg 2 h ltac:(discriminate) R D E N) (fun D N => round_trip_pkg 3 h ltac:(discriminate) R D E N))).
Qed.
Print Assumptions C82_round_trip_partial.
(** bins of different widths come back with equal widths *)
Definition ex_uneven : axis := match mk_var "u" [0; 1] [1; qz 3] "" with Ok a => a | _ => axis0 end.
Lemma ex_uneven_built : built ex_uneven.
Proof. eapply built_var. unfold ex_uneven. instantiate (1 := ""%string). instantiate (1 := [1; qz 3]). instantiate (1 := [0; 1]). instantiate (1 := "u"%string). vm_compute. reflexivity. Qed.
Definition ex_uh : hist := fst (setBinContents (mk_hist (ex_ac_of [ex_uneven])) [qz 5; qz 7]).
Theorem C82_uneven_bins_refuted : exists h t h', h_reach h /\ Forall regular (acAxes (hAxes h)) /\ toTH1D h false = Ok t /\ ofTH1D t = Ok h' /\
  ~ Forall2 same_edges (acAxes (hAxes h)) (acAxes (hAxes h')).
Proof.
  exists ex_uh. do 2 eexists. split; [apply hr_setBins, hr_new; [|discriminate]; apply ar_adds; [constructor|]; constructor; [exact ex_uneven_built|constructor]|].
  split; [|split; [vm_compute; reflexivity|split; [vm_compute; reflexivity|]]].
  - constructor; [|constructor]. split.
    + intros i Hi. destruct i as [|i]; [vm_compute; reflexivity|]. vm_compute in Hi. lia.
    + intros i Hi. destruct i as [|[|i]]; [vm_compute; reflexivity|vm_compute; reflexivity|]. vm_compute in Hi. lia.
  - intros C. inversion C as [|? ? ? ? [A _] _]; subst. vm_compute in A. injection A as A. discriminate.
Qed.
Print Assumptions C82_uneven_bins_refuted.
(** two axes with different names but the same latex name cannot come back *)
Definition ex_latex (n l : string) : axis := match mk_equal n 0 (qz 2) 2 l with Ok a => a | _ => axis0 end.
Lemma ex_latex_built n l : built (ex_latex n l).
Proof. apply (built_equal _ n 0 (qz 2) 2 l). reflexivity. Qed.
Definition ex_lh : hist := fst (setBinContents (mk_hist (ex_ac_of [ex_latex "x" "d [m]"; ex_latex "y" "d [m]"])) [qz 1; qz 2; qz 3; qz 4]).
Theorem C82_equal_titles_refuted : exists h t, h_reach h /\ NoDup (names_of h) /\ Forall regular (acAxes (hAxes h)) /\ toTH2D h = Ok t /\ ofTHn t = Throw ValueError.
Proof.
  exists ex_lh. eexists. split; [apply hr_setBins, hr_new; [|discriminate]; apply ar_adds; [constructor|]; repeat constructor; apply ex_latex_built|].
  split; [vm_compute; repeat constructor; cbn; intuition discriminate|]. split; [|split; [vm_compute; reflexivity|vm_compute; reflexivity]].
  assert (R : forall n, regular (ex_latex n "d [m]")).
  { intros n. split; intros i Hi; destruct i as [|[|i]]; try (vm_compute; reflexivity); vm_compute in Hi; lia. }
  change (acAxes (hAxes ex_lh)) with [ex_latex "x" "d [m]"; ex_latex "y" "d [m]"]. repeat constructor; apply R || (intros; apply R; assumption).
Qed.
Print Assumptions C82_equal_titles_refuted.

(** ** cases *)
Lemma ex_axis_evenly n lo hi k : (lo < hi)%Z -> (0 < k)%nat -> evenly (ex_axis n lo hi k) /\ aMin (ex_axis n lo hi k) < aMax (ex_axis n lo hi k).
Proof.
  intros H Hk. assert (Q : qz lo < qz hi). { unfold Qclt. rewrite !this_qz, <- Zlt_Qlt. exact H. }
  assert (E : exists a, mk_equal n (qz lo) (qz hi) k "" = Ok a). { unfold mk_equal. destruct (qleb_spec (qz hi) (qz lo)) as [C|C]; [exfalso; qlra|]. destruct (Nat.eqb_spec k 0); [lia|]. eexists; reflexivity. }
  destruct E as [a E]. unfold ex_axis. rewrite E. apply mk_equal_ok in E as [_ [Hn ->]]. split; [|exact Q].
  intros i Hi. unfold lo_of, hi_of. cbn [aLow aHigh aMin aMax aNBins] in *. rewrite !nth_map_seq by exact Hi. rewrite qn_S. split; reflexivity.
Qed.
Example C82_nonvacuous : h_reach ex_h /\ hNDims ex_h = 3%nat /\ Forall (fun a => evenly a /\ aMin a < aMax a) (acAxes (hAxes ex_h)) /\ NoDup (map aLatex (acAxes (hAxes ex_h))).
Proof.
  split; [exact ex_h_reach|]. split; [reflexivity|]. split; [|vm_compute; repeat constructor; cbn; intuition discriminate].
  change (acAxes (hAxes ex_h)) with [ex_axis "x" 0 10 2; ex_axis "y" 0 3 3; ex_axis "z" (-1) 1 4].
  constructor; [apply ex_axis_evenly; lia|]. constructor; [apply ex_axis_evenly; lia|]. constructor; [apply ex_axis_evenly; lia|constructor].
Qed.
Example C81_nonvacuous : h_reach ex_uh /\ Forall regular (acAxes (hAxes ex_h)) /\ (exists t, toTH3D ex_h = Ok t /\ thCont t [2; 1; 3]%nat = qz 15 /\ thCont t [0; 1; 3]%nat = 0) /\
  (exists t, toTH1D ex_uh true = Ok t /\ thCont t [1]%nat = qz 5 /\ thCont t [2]%nat = qq 7 2).
Proof.
  split; [apply hr_setBins, hr_new; [|discriminate]; apply ar_adds; [constructor|]; constructor; [exact ex_uneven_built|constructor]|].
  split; [|split; (eexists; split; [vm_compute; reflexivity|]; split; vm_compute; reflexivity)].
  destruct C82_nonvacuous as [_ [_ [F _]]]. pose proof (ac_reach_ok _ ex_ac_reach) as [_ [_ [_ [_ [_ B]]]]]. change (acAxes (hAxes ex_h)) with (acAxes ex_ac) in *.
  rewrite Forall_forall in *. intros a Ha. destruct (F a Ha). apply evenly_regular; [apply B, Ha|assumption|assumption].
Qed.
(** a two dimensional Gaussian on 2 x 3 bins *)
Example C80_nonvacuous : cdf_like ex_U /\ sized ex_g2 /\ positive_widths ex_g2 /\ ac_reach (ex_ac_of [ex_axis "x" 0 10 2; ex_axis "y" 0 3 3]) /\
  Forall contiguous (acAxes (ex_ac_of [ex_axis "x" 0 10 2; ex_axis "y" 0 3 3])) /\
  exists h, pdfToHist 2 (gIntegral ex_U ex_g2) (ex_ac_of [ex_axis "x" 0 10 2; ex_axis "y" 0 3 3]) = Ok h /\ 0 < total h.
Proof.
  destruct C52_nonvacuous as [A [B [C _]]]. split; [exact A|]. split; [exact B|]. split; [exact C|].
  split; [apply ar_adds; [constructor|]; constructor; [apply ex_axis_built; lia|]; constructor; [apply ex_axis_built; lia|constructor]|]. split.
  - change (acAxes (ex_ac_of [ex_axis "x" 0 10 2; ex_axis "y" 0 3 3])) with [ex_axis "x" 0 10 2; ex_axis "y" 0 3 3].
    repeat constructor; [intros i Hi; destruct i as [|i]; [vm_compute; reflexivity|vm_compute in Hi; lia]|intros i Hi; destruct i as [|[|i]]; [vm_compute; reflexivity|vm_compute; reflexivity|vm_compute in Hi; lia]].
  - eexists. split; [vm_compute; reflexivity|]. vm_compute. reflexivity.
Qed.
