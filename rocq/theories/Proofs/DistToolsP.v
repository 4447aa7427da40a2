(** Proofs for C80: DistTools::ToHist of a PDF. *)
From Coq Require Import ZArith.
From Verif Require Import Base.Res Base.Num Base.SMap Model.Axis Model.Hist Model.DistTools Spec.AxisSpec Spec.HistSpec Spec.DistToolsSpec.
From Verif Require Import Proofs.AxisP Proofs.HistP Proofs.HistP2.
Local Open Scope Qc_scope.
Local Open Scope res_scope.

Lemma map_combine_nth {A B C} (f : A -> B -> C) (da : A) (db : B) : forall (l : list A) (m : list B), List.length m = List.length l ->
  map (fun d => f (nth d l da) (nth d m db)) (seq 0 (List.length l)) = map (fun p => f (fst p) (snd p)) (combine l m).
Proof.
  induction l as [|a l IH]; intros [|b m] H; cbn in H; try discriminate; [reflexivity|].
  cbn [List.length seq map combine nth fst snd]. f_equal. rewrite <- seq_shift, map_map. apply IH. lia.
Qed.
Lemma corners ac idx : ac_ok ac -> acAxes ac <> [] -> in_shape (map aNBins (acAxes ac)) idx ->
  binLowEdges ac (rowmajor (map aNBins (acAxes ac)) idx) = Ok (lows (acAxes ac) idx) /\
  binHighEdges ac (rowmajor (map aNBins (acAxes ac)) idx) = Ok (highs (acAxes ac) idx).
Proof.
  intros Hok Hne Hs. pose proof (in_shape_length _ _ Hs) as L. rewrite map_length in L.
  assert (Hk : (rowmajor (map aNBins (acAxes ac)) idx < acNBins ac)%nat).
  { rewrite (ac_nb_prod ac Hok Hne). apply rowmajor_lt. exact Hs. }
  assert (Hu : unpack ac (rowmajor (map aNBins (acAxes ac)) idx) = Ok idx) by (apply unpack_rowmajor; assumption).
  destruct (binVec_ok _ _ ac _ Hok Hk binLow_ok) as [i1 [U1 E1]]. destruct (binVec_ok _ _ ac _ Hok Hk binHigh_ok) as [i2 [U2 E2]].
  rewrite Hu in U1, U2. injection U1 as <-. injection U2 as <-. unfold binLowEdges, binHighEdges. rewrite E1, E2.
  rewrite (map_combine_nth lo_of axis0 0%nat), (map_combine_nth hi_of axis0 0%nat) by exact L. split; reflexivity.
Qed.
Lemma index_of_bin ac k : ac_ok ac -> acAxes ac <> [] -> (k < acNBins ac)%nat ->
  exists idx, in_shape (map aNBins (acAxes ac)) idx /\ rowmajor (map aNBins (acAxes ac)) idx = k.
Proof.
  intros Hok Hne Hk. destruct (unpack_flatten_id ac k Hok Hk) as [idx [_ [Hs Hf]]]. exists idx. split; [exact Hs|].
  rewrite flatten_rowmajor in Hf; [injection Hf as Hf; exact Hf|exact Hok|exact Hne|]. rewrite (in_shape_length _ _ Hs). apply map_length.
Qed.

(** the loop up to bin k *)
Lemma pdf_loop ac integ : ac_ok ac -> acAxes ac <> [] -> forall m s h, (s + m = acNBins ac)%nat ->
  h_ok h -> same_shape (mk_hist ac) h ->
  let step := (fun h bin => do lo <- binLowEdges ac bin; do hi <- binHighEdges ac bin; do v <- integ lo hi; ret (addBinContent h bin v)) in
  ((forall idx, in_shape (map aNBins (acAxes ac)) idx -> exists v, integ (lows (acAxes ac) idx) (highs (acAxes ac) idx) = Ok v) ->
   exists h', foldM step (seq s m) h = Ok h') /\
  (forall h', foldM step (seq s m) h = Ok h' -> same_shape (mk_hist ac) h' /\
     (forall i, (i < s)%nat -> cont h' i = cont h i) /\
     (forall idx, in_shape (map aNBins (acAxes ac)) idx -> (s <= rowmajor (map aNBins (acAxes ac)) idx)%nat ->
        exists v, integ (lows (acAxes ac) idx) (highs (acAxes ac) idx) = Ok v /\
                  cont h' (rowmajor (map aNBins (acAxes ac)) idx) = cont h (rowmajor (map aNBins (acAxes ac)) idx) + v)).
Proof.
  intros Hok Hne. set (sh := map aNBins (acAxes ac)).
  induction m as [|m IH]; intros s h Hm Hh HS step.
  - cbn [seq foldM]. split; [intros _; eexists; reflexivity|]. intros h' E. injection E as <-. split; [exact HS|]. split; [reflexivity|].
    intros idx Hs Hle. pose proof (rowmajor_lt sh idx Hs). rewrite (ac_nb_prod ac Hok Hne) in Hm. unfold ac_nb in Hm. fold sh in Hm. lia.
  - destruct (index_of_bin ac s Hok Hne ltac:(lia)) as [ix [Hix Rix]].
    destruct (corners ac ix Hok Hne Hix) as [CL CH]. rewrite Rix in CL, CH.
    assert (NB : hNBins h = acNBins ac) by (destruct HS as [_ [-> _]]; reflexivity).
    assert (ES : step h s = (do v <- integ (lows (acAxes ac) ix) (highs (acAxes ac) ix); ret (addBinContent h s v))).
    { unfold step. rewrite CL, CH. reflexivity. }
    cbn [seq foldM]. rewrite ES.
    destruct (integ (lows (acAxes ac) ix) (highs (acAxes ac) ix)) as [v| | | |] eqn:EI;
      try (split; [intros H; destruct (H ix Hix) as [v0 Hv]; rewrite EI in Hv; discriminate|cbn [bind]; discriminate]).
    cbn [bind]. rewrite addBin_lt by lia. destruct (add_at_ok h s v Hh ltac:(lia)) as [h1 [E1 [S1 N1]]]. rewrite E1. cbn [ret bind].
    assert (H1 : h_ok h1) by (eapply same_shape_ok; eassumption).
    assert (HS1 : same_shape (mk_hist ac) h1) by (eapply same_shape_trans; eassumption).
    destruct (IH (S s) h1 ltac:(lia) H1 HS1) as [A B]. split; [exact A|].
    intros h' E. destruct (B h' E) as [B1 [B2 B3]]. split; [exact B1|]. split.
    + intros i Hi. rewrite B2 by lia. rewrite N1. destruct (Nat.eqb_spec i s); [lia|ring].
    + intros idx Hs Hle. destruct (Nat.eq_dec (rowmajor sh idx) s) as [Es|Ns].
      * assert (idx = ix) by (apply (rowmajor_inj sh); [exact Hs|exact Hix|rewrite Es; symmetry; exact Rix]). subst idx. exists v. split; [exact EI|].
        rewrite Es, B2 by lia. rewrite N1, Nat.eqb_refl. reflexivity.
      * destruct (B3 idx Hs ltac:(fold sh; lia)) as [w [Ew Cw]]. exists w. split; [exact Ew|]. fold sh in Cw. rewrite Cw, N1.
        destruct (Nat.eqb_spec (rowmajor sh idx) s); [lia|ring].
Qed.
Lemma pdf_pkg nd integ ac : ac_reach ac -> acAxes ac <> [] ->
  (nd <> List.length (acAxes ac) -> pdfToHist nd integ ac = Throw DimensionError) /\
  (nd = List.length (acAxes ac) ->
   ((forall idx, in_shape (map aNBins (acAxes ac)) idx -> exists v, integ (lows (acAxes ac) idx) (highs (acAxes ac) idx) = Ok v) ->
    exists h, pdfToHist nd integ ac = Ok h) /\
   (forall h, pdfToHist nd integ ac = Ok h -> hAxes h = ac /\
      forall idx, in_shape (map aNBins (acAxes ac)) idx -> integ (lows (acAxes ac) idx) (highs (acAxes ac) idx) = Ok (cont_at h idx))).
Proof.
  intros Hr Hne. pose proof (ac_reach_ok ac Hr) as Hok. pose proof Hok as [_ [_ [ND _]]]. unfold pdfToHist. rewrite ND. split.
  - intros H. destruct (Nat.eqb_spec nd (List.length (acAxes ac))); [contradiction|reflexivity].
  - intros ->. rewrite Nat.eqb_refl. cbn [negb].
    destruct (pdf_loop ac integ Hok Hne (acNBins ac) 0 (mk_hist ac) eq_refl (mk_hist_ok ac Hok Hne) (same_shape_refl _)) as [A B].
    split; [exact A|]. intros h E. destruct (B h E) as [S1 [_ B3]]. destruct S1 as [SA _]. split; [exact SA|].
    intros idx Hs. destruct (B3 idx Hs ltac:(lia)) as [v [Ev Cv]]. rewrite Ev. f_equal. unfold cont_at, shape_of. rewrite SA.
    cbn [hAxes mk_hist setAxes]. rewrite Cv, mk_hist_cont. ring.
Qed.

(** additivity over the grid *)
Lemma upd_app {A} (p : list A) x q m : upd (p ++ x :: q) (List.length p) m = p ++ m :: q.
Proof. induction p as [|y p IH]; cbn; [reflexivity|]. now rewrite IH. Qed.
Lemma axis_sum a : built a -> contiguous a -> forall (G : Qc -> Qc -> Qc),
  (forall x m y, x <= m -> m <= y -> G x y = G x m + G m y) ->
  qsum (map (fun i => G (lo_of a i) (hi_of a i)) (seq 0 (aNBins a))) = G (aMin a) (aMax a).
Proof.
  intros Hb Hc G HG. destruct (built_facts a Hb) as [Hn [_ [_ [_ [_ [Hlo [Hlh [Emin Emax]]]]]]]].
  assert (M : forall k, (k < aNBins a)%nat -> aMin a <= lo_of a k).
  { induction k as [|k IHk]; intros Hk; [rewrite Emin; apply Qcle_refl|]. eapply Qcle_trans; [apply IHk; lia|apply Hlo; exact Hk]. }
  assert (K : forall k, (k < aNBins a)%nat -> qsum (map (fun i => G (lo_of a i) (hi_of a i)) (seq 0 (S k))) = G (aMin a) (hi_of a k)).
  { induction k as [|k IHk]; intros Hk.
    - cbn [seq map qsum]. rewrite Emin. ring.
    - rewrite seq_S, map_app, qsum_app, IHk by lia. cbn [Nat.add map qsum].
      rewrite (HG (aMin a) (lo_of a (S k)) (hi_of a (S k))) by (auto; apply Hlh; exact Hk).
      rewrite (Hc k) by exact Hk. ring. }
  replace (aNBins a) with (S (aNBins a - 1)) at 1 by lia. rewrite K by lia. now rewrite Emax.
Qed.
Lemma qsum_flat_map {A B} (f : A -> list B) (g : B -> Qc) l : qsum (map g (flat_map f l)) = qsum (map (fun x => qsum (map g (f x))) l).
Proof. induction l as [|x l IH]; cbn [flat_map map qsum]; [reflexivity|]. now rewrite map_app, qsum_app, IH. Qed.
Lemma combine_length_eq {A B} (l : list A) (m : list B) : List.length m = List.length l -> List.length (combine l m) = List.length l.
Proof. rewrite combine_length. lia. Qed.
Lemma tuples_len shape t : In t (tuples shape) -> List.length t = List.length shape.
Proof. intros H. apply in_tuples in H. exact (in_shape_length _ _ H). Qed.
Lemma box_sum (F : list Qc -> list Qc -> Qc) : forall axs plo phi, List.length plo = List.length phi ->
  box_additive (List.length plo + List.length axs) F -> Forall (fun a => built a /\ contiguous a) axs ->
  qsum (map (fun idx => F (plo ++ lows axs idx) (phi ++ highs axs idx)) (tuples (map aNBins axs))) = F (plo ++ map aMin axs) (phi ++ map aMax axs).
Proof.
  induction axs as [|a axs IH]; intros plo phi HL HF HB.
  - cbn [map tuples qsum lows highs combine]. rewrite !app_nil_r. ring.
  - inversion HB as [|? ? [Hb Hc] HB']; subst. cbn [map tuples]. rewrite qsum_flat_map.
    rewrite (qsum_map_ext _ (fun i => F ((plo ++ [lo_of a i]) ++ map aMin axs) ((phi ++ [hi_of a i]) ++ map aMax axs))).
    + rewrite (axis_sum a Hb Hc (fun x y => F ((plo ++ [x]) ++ map aMin axs) ((phi ++ [y]) ++ map aMax axs))).
      * rewrite <- !app_assoc. reflexivity.
      * intros x m y H1 H2. rewrite <- !app_assoc. cbn [app].
        rewrite (HF _ _ (List.length plo) m); rewrite ?app_length; cbn [List.length]; rewrite ?map_length; try lia.
        -- rewrite HL at 1. rewrite (upd_app phi), (upd_app plo). reflexivity.
        -- rewrite app_nth2, Nat.sub_diag by lia. exact H1.
        -- rewrite HL, app_nth2, Nat.sub_diag by lia. exact H2.
    + intros i _. rewrite map_map. rewrite <- IH; [|rewrite !app_length; cbn; lia| |exact HB'].
      * apply qsum_map_ext. intros t _. unfold lows, highs. cbn [combine map fst snd]. rewrite <- !app_assoc. reflexivity.
      * rewrite app_length. cbn [List.length] in *. replace (List.length plo + 1 + List.length axs)%nat with (List.length plo + S (List.length axs))%nat by lia. exact HF.
Qed.
Lemma pdf_nbins nd integ ac h : ac_reach ac -> acAxes ac <> [] -> pdfToHist nd integ ac = Ok h -> hNBins h = prod (map aNBins (acAxes ac)).
Proof.
  intros Hr Hne E. pose proof (ac_reach_ok ac Hr) as Hok. unfold pdfToHist in E. destruct (negb _) in E; [discriminate|].
  destruct (pdf_loop ac integ Hok Hne (acNBins ac) 0 (mk_hist ac) eq_refl (mk_hist_ok ac Hok Hne) (same_shape_refl _)) as [_ B].
  destruct (B h E) as [[_ [SB _]] _]. rewrite SB. cbn. exact (ac_nb_prod ac Hok Hne).
Qed.
Lemma lows_len axs idx : List.length idx = List.length axs -> List.length (lows axs idx) = List.length axs /\ List.length (highs axs idx) = List.length axs.
Proof. intros H. unfold lows, highs. rewrite !map_length, combine_length. lia. Qed.
Lemma pdf_total_pkg integ F ac : ac_reach ac -> acAxes ac <> [] -> Forall contiguous (acAxes ac) -> box_additive (List.length (acAxes ac)) F ->
  (forall lo hi, List.length lo = List.length (acAxes ac) -> List.length hi = List.length (acAxes ac) -> integ lo hi = Ok (F lo hi)) ->
  exists h, pdfToHist (List.length (acAxes ac)) integ ac = Ok h /\ integ (map aMin (acAxes ac)) (map aMax (acAxes ac)) = Ok (total h).
Proof.
  intros Hr Hne Hc HF HI. destruct (pdf_pkg (List.length (acAxes ac)) integ ac Hr Hne) as [_ P]. destruct (P eq_refl) as [P1 P2].
  destruct P1 as [h E].
  { intros idx Hs. eexists. pose proof (in_shape_length _ _ Hs) as L. rewrite map_length in L. destruct (lows_len _ _ L) as [L1 L2]. apply HI; assumption. }
  exists h. split; [exact E|].
  destruct (P2 h E) as [HA HC]. pose proof (ac_reach_ok ac Hr) as Hok. rewrite HI by apply map_length. f_equal. symmetry.
  transitivity (F ([] ++ map aMin (acAxes ac)) ([] ++ map aMax (acAxes ac))); [|reflexivity]. rewrite <- (box_sum F (acAxes ac) [] [] eq_refl HF).
  - assert (HS : shape_of h = map aNBins (acAxes ac)) by (unfold shape_of; rewrite HA; reflexivity).
    pose proof (pdf_nbins _ _ _ _ Hr Hne E) as HN.
    unfold total. rewrite HN, qsum_bins_tuples. apply qsum_map_ext. intros t Ht. apply in_tuples in Ht. specialize (HC t Ht).
    pose proof (in_shape_length _ _ Ht) as L. rewrite map_length in L. destruct (lows_len _ _ L) as [L1 L2]. rewrite HI in HC by assumption. injection HC as HC.
    unfold cont_at in HC. rewrite HS in HC. cbn [app]. symmetry. exact HC.
  - pose proof Hok as [_ [_ [_ [_ [_ HB]]]]]. rewrite Forall_forall in *. intros a Ha. split; [apply HB|apply Hc]; exact Ha.
Qed.
