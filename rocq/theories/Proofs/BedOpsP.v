From Coq Require Import Lia.
From Verif Require Import Base.Res Base.Num Base.SMap Model.Axis Model.Event Model.Hist Model.ED Model.Param Model.Comp Model.BedOps Spec.AxisSpec Spec.HistSpec Spec.CutSpec Spec.FillSpec Spec.CompSpec Spec.BedOpsSpec
  Proofs.AxisP Proofs.HistP Proofs.HistP2 Proofs.HistP4 Proofs.CutP Proofs.CompP.
Local Open Scope Qc_scope.
Local Open Scope res_scope.

Lemma foldM_inv {A B} (P : B -> Prop) (f : B -> A -> res B) l : (forall s x s', In x l -> P s -> f s x = Ok s' -> P s') ->
  forall s s', P s -> foldM f l s = Ok s' -> P s'.
Proof.
  induction l as [|x l IH]; intros H s s' Ps; cbn [foldM]; [intros [= <-]; exact Ps|].
  destruct (f s x) as [t| | | |] eqn:E; cbn [bind]; try discriminate. apply IH; [intros; eapply H; eauto; now right|]. eapply H; eauto. now left.
Qed.
Lemma ret_addBin m b c m' : h_reach m -> ret (addBinContent m b c) = Ok m' -> h_reach m'.
Proof.
  intros R. unfold ret. pose proof (hr_addBin m b c R) as Q. destruct (addBinContent m b c) as [x o]. cbn [fst] in Q.
  destruct o; cbn [bind]; try discriminate. now intros [= <-].
Qed.
Lemma axes_built ac i a : ac_ok ac -> nth_error (acAxes ac) i = Some a -> built a.
Proof. intros H X. apply nth_error_In in X. destruct H as [_ [_ [_ [_ [_ H]]]]]. rewrite Forall_forall in H. now apply H. Qed.
Lemma getAxis_built ac i a : ac_ok ac -> getAxis ac i = Ok a -> built a.
Proof. intros H. unfold getAxis. destruct (nth_error (acAxes ac) i) eqn:X; [|discriminate]. intros [= <-]. eapply axes_built; eassumption. Qed.
Lemma getAxisByName_built ac n a : ac_ok ac -> getAxisByName ac n = Ok a -> built a.
Proof.
  intros H. unfold getAxisByName. destruct (getAxisIndex ac n) as [i| | | |]; cbn [bind]; try discriminate. unfold vat.
  destruct (nth_error (acAxes ac) i) eqn:X; try discriminate. intros [= <-]. eapply axes_built; eassumption.
Qed.
Lemma addAxis_len ac a ac' : addAxis ac a = Ok ac' -> List.length (acAxes ac') = S (List.length (acAxes ac)).
Proof. unfold addAxis. destruct (hasAxis ac (aName a)); [discriminate|]. intros [= <-]. cbn. rewrite app_length. cbn. lia. Qed.
Lemma axes_fold {A} (f : axcol -> A -> res axcol) l : (forall s x s', In x l -> f s x = Ok s' -> exists a, built a /\ addAxis s a = Ok s') ->
  forall s s', ac_reach s -> foldM f l s = Ok s' -> ac_reach s' /\ List.length (acAxes s') = (List.length (acAxes s) + List.length l)%nat.
Proof.
  induction l as [|x l IH]; intros H s s' R; cbn [foldM]; [intros [= <-]; split; [exact R|cbn; lia]|].
  destruct (f s x) as [t| | | |] eqn:E; cbn [bind]; try discriminate. intros F. destruct (H s x t (or_introl eq_refl) E) as [a [B Q]].
  assert (Rt : ac_reach t) by (eapply ar_add; eassumption). destruct (IH (fun s0 y s1 I => H s0 y s1 (or_intror I)) t s' Rt F) as [R' L].
  split; [exact R'|]. rewrite L, (addAxis_len _ _ _ Q). cbn. lia.
Qed.
Lemma marg_reach h names m : h_reach h -> marginalise h names = Ok m -> h_reach m.
Proof.
  intros R E. pose proof (h_reach_ok h R) as Hok. destruct Hok as [Hac _].
  assert (Hne : names <> []) by (intros ->; now rewrite marginalise_none_pkg in E).
  unfold marginalise in E.
  destruct (mapM _ names) as [u| | | |]; cbn [bind] in E; try discriminate.
  destruct (mapM _ names) as [ix| | | |] eqn:Eix; cbn [bind] in E; try discriminate.
  destruct (foldM _ names ac_empty) as [nac| | | |] eqn:En; cbn [bind] in E; try discriminate.
  apply axes_fold in En; [|intros s x s' _|constructor].
  2:{ destruct (getAxisByName (hAxes h) x) as [a| | | |] eqn:Ea; cbn [bind]; try discriminate. intros X. exists a. split; [eapply getAxisByName_built; eassumption|exact X]. }
  destruct En as [Rn Ln]. revert E. apply foldM_inv.
  - intros s x s' _ Rs.
    repeat match goal with |- bind ?e _ = Ok _ -> _ => destruct e; cbn [bind]; try discriminate end. apply ret_addBin, Rs.
  - apply hr_new; [exact Rn|]. intros C. rewrite C in Ln. destruct names; [congruence|]. cbn in Ln. lia.
Qed.
Lemma slice_axes_fold ac l : ac_ok ac -> forall s s', ac_reach (fst s) ->
  foldM (fun (st : axcol * list nat) (ni : string * nat) =>
                      do a <- getAxis ac (snd ni);
                      do ac <- addAxis (fst st) a;
                      do b <- getAxisByName ac (fst ni);
                      Ok (ac, snd st ++ [aNBins b])) l s = Ok s' -> ac_reach (fst s') /\ List.length (acAxes (fst s')) = (List.length (acAxes (fst s)) + List.length l)%nat.
Proof.
  intros Hac. induction l as [|x l IH]; intros s s' R; cbn [foldM]; [intros [= <-]; split; [exact R|cbn; lia]|].
  destruct (getAxis ac (snd x)) as [a| | | |] eqn:Ea; cbn [bind]; try discriminate.
  destruct (addAxis (fst s) a) as [t| | | |] eqn:Et; cbn [bind]; try discriminate.
  destruct (getAxisByName t (fst x)) as [b| | | |] eqn:Eb; cbn [bind]; try discriminate. intros F.
  assert (Rt : ac_reach t) by (eapply ar_add; [exact R|eapply getAxis_built; eassumption|exact Et]).
  destruct (IH (t, snd s ++ [aNBins b]) s' Rt F) as [R' L]. split; [exact R'|]. rewrite L. cbn [fst]. rewrite (addAxis_len _ _ _ Et). cbn. lia.
Qed.
Lemma slice_reach h fixed s : h_reach h -> getSlice h fixed = Ok s -> h_reach s.
Proof.
  intros R E. pose proof (h_reach_ok h R) as Hok. destruct Hok as [Hac _]. unfold getSlice in E.
  destruct (mapM _ fixed) as [u| | | |]; cbn [bind] in E; try discriminate. destruct (Nat.leb _ _); try discriminate.
  destruct (mapM (getAxisIndex _) _) as [ix| | | |] eqn:Eix; cbn [bind] in E; try discriminate.
  destruct (foldM _ (combine _ _) _) as [fr| | | |] eqn:En; cbn [bind] in E; try discriminate.
  apply slice_axes_fold in En; [|exact Hac|constructor]. destruct En as [Rn Ln]. cbn [fst acAxes ac_empty List.length Nat.add] in Ln.
  destruct (mapM _ (seq 0 (hNDims h))) as [co| | | |] eqn:Eco; cbn [bind] in E; try discriminate.
  destruct (acAxes (fst fr)) as [|a0 l0] eqn:Ea.
  { exfalso. set (free := filter _ _) in *. assert (L0 : (List.length ix = List.length free)%nat).
    { clear - Eix. revert ix Eix. unfold mapM. induction free as [|f l IH]; intros ix; cbn [map seqM]; [now intros [= <-]|].
      destruct (getAxisIndex (hAxes h) f); cbn [bind]; try discriminate. destruct (seqM (map _ l)) as [y| | | |]; cbn [bind]; try discriminate. intros [= <-]. cbn. f_equal. now apply IH. }
    cbn in Ln. rewrite combine_length in Ln. assert (ix = []) as -> by (destruct ix; [reflexivity|cbn in *; lia]). cbn [combine rev recurse foldM] in E.
    destruct (flatten (hAxes h) co) as [old| | | |]; cbn [bind] in E; try discriminate.
    destruct (vat (hCont h) old) as [c| | | |]; cbn [bind] in E; try discriminate. unfold ret, addBinContent, add_at in E.
    assert (N0 : acNBins (fst fr) = 0%nat). { destruct (ac_reach_ok _ Rn) as [_ [_ [_ [X _]]]]. now rewrite Ea in X. }
    cbn [fst snd] in E. unfold mk_hist, setAxes in E. cbn in E. rewrite N0 in E. cbn in E. discriminate. }
  destruct (foldM _ (recurse _ _) _) as [st| | | |] eqn:Es; cbn [bind] in E; try discriminate. destruct st as [s0 k0]. injection E as <-.
  change s0 with (fst (s0, k0)). revert Es. apply (foldM_inv (fun st : hist * nat => h_reach (fst st))).
  - intros st x s' _ Rs.
    repeat match goal with |- bind ?e _ = Ok _ -> _ => destruct e eqn:?; cbn [bind]; try discriminate end. intros [= <-]. cbn [fst]. eapply ret_addBin; eassumption.
  - apply hr_new; [exact Rn|]. rewrite Ea. discriminate.
Qed.

(** the per-axis bins of an event *)
Lemma cell_vals b e idx : bed_ok b -> cell b e idx -> exists vals, values (osNames (bdObs b)) e vals /\ List.length vals = List.length (acAxes (hAxes (bdHist b))) /\ idx = axes_bins (acAxes (hAxes (bdHist b))) vals.
Proof.
  intros H [I [vals [V [L F]]]]. pose proof (h_reach_ok _ H) as Hok. rewrite (h_ok_ndims _ Hok) in L. exists vals. split; [exact V|]. split; [exact L|].
  unfold h_findBin in F. rewrite ac_findBin_eq in F; [|apply Hok|apply Hok|exact L]. injection F as F.
  apply (rowmajor_inj (shape_of (bdHist b))); [exact I| |symmetry; exact F]. apply axes_bins_shape; [apply Hok|exact L].
Qed.
Lemma vals_cell b e vals : bed_ok b -> values (osNames (bdObs b)) e vals -> List.length vals = List.length (acAxes (hAxes (bdHist b))) -> cell b e (axes_bins (acAxes (hAxes (bdHist b))) vals).
Proof.
  intros H V L. pose proof (h_reach_ok _ H) as Hok. split; [apply axes_bins_shape; [apply Hok|exact L]|]. exists vals. split; [exact V|]. split; [now rewrite (h_ok_ndims _ Hok)|].
  unfold h_findBin. apply ac_findBin_eq; [apply Hok|apply Hok|exact L].
Qed.
Lemma find_bin_pkg b e : bed_ok b ->
  (forall idx, cell b e idx -> bed_findBin b e = Ok (rowmajor (shape_of (bdHist b)) idx)) /\
  (forall vals, values (osNames (bdObs b)) e vals -> List.length vals = List.length (acAxes (hAxes (bdHist b))) -> exists idx, cell b e idx) /\
  (forall vals, values (osNames (bdObs b)) e vals -> List.length vals <> List.length (acAxes (hAxes (bdHist b))) -> bed_findBin b e = Throw RepresentationError) /\
  (forall ns n, evNames e = Some ns -> List.length ns = List.length (evObs e) -> In n (osNames (bdObs b)) -> ~ In n ns -> bed_findBin b e = Throw NotFoundError).
Proof.
  intros H. pose proof (h_reach_ok _ H) as Hok. unfold bed_findBin. split; [|split; [|split]].
  - intros idx C. destruct C as [I [vals [V [L F]]]]. rewrite (values_obs _ _ _ V). cbn [bind]. rewrite F. reflexivity.
  - intros vals V L. exists (axes_bins (acAxes (hAxes (bdHist b))) vals). apply vals_cell; assumption.
  - intros vals V L. rewrite (values_obs _ _ _ V). cbn [bind]. unfold h_findBin. rewrite ac_findBin_dim; [reflexivity|apply Hok|exact L].
  - intros ns n E L I NI. change (toObsSet e (bdObs b)) with (toObsSet e (mk_obsset (osNames (bdObs b)))). destruct (toObsSet_pkg e (osNames (bdObs b))) as [_ [P _]].
    rewrite (P ns E L (ex_intro _ n (conj I NI))). reflexivity.
Qed.

(** the values of named axes *)
Lemma project_vals ac e vals names : ac_ok ac -> values (map aName (acAxes ac)) e vals -> incl names (map aName (acAxes ac)) ->
  values names e (map (fun n => nth (pos_named ac n) vals 0) names).
Proof.
  intros Hac V Hin. unfold values in *. induction names as [|n names IH]; cbn [map]; constructor.
  - destruct (named_facts ac n Hac (Hin n (or_introl eq_refl))) as [_ [_ [P [N [Nm _]]]]].
    assert (X : nth_error (map aName (acAxes ac)) (pos_named ac n) = Some n) by (rewrite nth_error_map, N; cbn; now rewrite Nm).
    revert X. generalize (pos_named ac n). clear - V. induction V as [|x y l l' R V IH]; intros [|p]; cbn; try discriminate; [now intros [= <-]|apply IH].
  - apply IH. intros x Hx. apply Hin. now right.
Qed.
Lemma project_bins ac vals names : ac_ok ac -> List.length vals = List.length (acAxes ac) -> incl names (map aName (acAxes ac)) ->
  axes_bins (map (ax_named ac) names) (map (fun n => nth (pos_named ac n) vals 0) names) = map (fun n => nth (pos_named ac n) (axes_bins (acAxes ac) vals) 0%nat) names.
Proof.
  intros Hac L Hin. induction names as [|n names IH]; cbn [map]; [reflexivity|]. unfold axes_bins. cbn [combine map fst snd]. f_equal.
  - destruct (named_facts ac n Hac (Hin n (or_introl eq_refl))) as [_ [_ [P [N _]]]]. fold (axes_bins (acAxes ac) vals). rewrite axes_bins_nth by assumption. rewrite (nth_error_nth _ _ axis0 N). reflexivity.
  - apply IH. intros x Hx. apply Hin. now right.
Qed.
Lemma names_map ac names : ac_ok ac -> incl names (map aName (acAxes ac)) -> map aName (map (ax_named ac) names) = names.
Proof.
  intros Hac Hin. induction names as [|n names IH]; cbn [map]; [reflexivity|]. destruct (named_facts ac n Hac (Hin n (or_introl eq_refl))) as [_ [_ [_ [_ [N _]]]]]. rewrite N. f_equal. apply IH. intros x Hx. apply Hin. now right.
Qed.
Lemma projection_pkg b names : bed_ok b -> names <> [] -> NoDup names -> incl names (names_of (bdHist b)) ->
  exists m, bed_marginalise b names = Ok m /\ bed_ok m /\ osNames (bdObs m) = names /\ names_of (bdHist m) = names /\ total (bdHist m) = total (bdHist b) /\
    (named_by_axes b -> forall e idx, cell b e idx ->
      cell m e (project (names_of (bdHist b)) idx names) /\
      (total (bdHist b) <> 0 -> dprob e (DBin m) = Ok (qsum (map (cont_at (bdHist b)) (filter (fun t => nlist_eqb (project (names_of (bdHist b)) t names) (project (names_of (bdHist b)) idx names)) (tuples (shape_of (bdHist b))))) / total (bdHist b)))).
Proof.
  intros H Hne Hnd Hin. pose proof (h_reach_ok _ H) as Hok. destruct (marginalise_ok (bdHist b) names Hok Hne Hnd Hin) as [h [E [Hh [Ha [N T]]]]].
  unfold bed_marginalise. rewrite E. cbn [bind]. set (m := mkBed _ h _). exists m.
  assert (Rm : bed_ok m) by (unfold bed_ok, m; cbn [bdHist]; eapply marg_reach; eassumption).
  split; [reflexivity|]. split; [exact Rm|]. split; [reflexivity|].
  split; [unfold names_of; cbn [m bdHist]; rewrite Ha; apply names_map; [apply Hok|exact Hin]|]. split; [exact T|].
  intros NA e idx C. destruct (cell_vals b e idx H C) as [vals [V [L ->]]]. rewrite NA in V.
  set (ac := hAxes (bdHist b)) in *. assert (Hac : ac_ok ac) by apply Hok.
  assert (Cm : cell m e (project (names_of (bdHist b)) (axes_bins (acAxes ac) vals) names)).
  { rewrite (proj2 (project_in_shape (bdHist b) _ names Hok Hin (axes_bins_shape _ _ (proj2 (proj2 (proj2 (proj2 (proj2 Hac))))) L))).
    fold ac. rewrite <- (project_bins ac vals names Hac L Hin).
    replace (map (ax_named ac) names) with (acAxes (hAxes (bdHist m))) by (cbn [m bdHist]; exact Ha).
    apply vals_cell; [exact Rm| |].
    - cbn [m bdObs mk_obsset osNames]. apply project_vals; assumption.
    - cbn [m bdHist]. rewrite Ha, !map_length. reflexivity. }
  split; [exact Cm|]. intros NZ. destruct Cm as [I F].
  assert (NZm : total (bdHist m) <> 0) by (cbn [m bdHist]; rewrite T; exact NZ).
  destruct (bed_prob_pkg m e _ Rm NZm F) as [_ P]. rewrite P. f_equal. cbn [m bdHist]. rewrite T. f_equal. cbn [m bdHist] in I. rewrite <- N by exact I. reflexivity.
Qed.
Lemma slice_pkg b fixed : bed_ok b -> swf fixed -> incl (skeys fixed) (names_of (bdHist b)) -> hNDims (bdHist b) = S (List.length fixed) ->
  (forall a v, In a (acAxes (hAxes (bdHist b))) -> sfind (aName a) fixed = Some v -> (v < aNBins a)%nat) ->
  exists s n, bed_slice b fixed = Ok s /\ bed_ok s /\ In n (names_of (bdHist b)) /\ sfind n fixed = None /\ osNames (bdObs s) = [n] /\ names_of (bdHist s) = [n] /\
    (named_by_axes b -> forall e idx, cell b e idx -> cell s e [coord (names_of (bdHist b)) idx n] /\
       ((forall k v, sfind k fixed = Some v -> coord (names_of (bdHist b)) idx k = v) -> total (bdHist s) <> 0 -> dprob e (DBin s) = Ok (cont_at (bdHist b) idx / total (bdHist s)))).
Proof.
  intros H W Hin Hd Hr. pose proof (h_reach_ok _ H) as Hok. destruct (slice_1d_pkg (bdHist b) fixed H W Hin Hd Hr) as [h [n [a [E [Ea [Ia [En [Nf C]]]]]]]].
  destruct (slice_gen_pkg (bdHist b) fixed H W Hin ltac:(lia) Hr) as [h' [E' [F' _]]]. rewrite E in E'. injection E' as <-.
  unfold bed_slice. rewrite E. cbn [bind]. assert (Eac : acNames (hAxes (bdHist b)) = names_of (bdHist b)) by apply Hok. rewrite Eac.
  assert (Ef : sliceObs (names_of (bdHist b)) fixed = [n]).
  { unfold sliceObs. rewrite Ea in F'. inversion F' as [|n1 ? ? ? [_ X] F1 Y]; subst. inversion F1; subst. reflexivity. }
  rewrite Ef. set (s := bed_setObs _ _). exists s, n.
  assert (Rs : bed_ok s) by (unfold bed_ok, s; cbn; eapply slice_reach; eassumption).
  split; [reflexivity|]. split; [exact Rs|]. assert (In_n : In n (names_of (bdHist b))) by (unfold names_of; rewrite <- En; now apply in_map).
  split; [exact In_n|]. split; [exact Nf|]. split; [reflexivity|]. split; [unfold names_of, s; cbn; rewrite Ea; cbn; now rewrite En|].
  intros NA e idx Ce. destruct (cell_vals b e idx H Ce) as [vals [V [L Ei]]]. rewrite NA in V. set (ac := hAxes (bdHist b)) in *. assert (Hac : ac_ok ac) by apply Hok.
  assert (I1 : incl [n] (names_of (bdHist b))) by (intros x [<-|[]]; exact In_n).
  assert (Cs : cell s e [coord (names_of (bdHist b)) idx n]).
  { assert (In_idx : in_shape (shape_of (bdHist b)) idx) by apply Ce.
    pose proof (proj2 (project_in_shape (bdHist b) idx [n] Hok I1 In_idx)) as P. unfold project in P. cbn [map] in P. rewrite P.
    fold ac. subst idx. pose proof (project_bins ac vals [n] Hac L I1) as Q. cbn [map] in Q. rewrite <- Q.
    assert (Eax : acAxes (hAxes (bdHist s)) = [ax_named ac n]).
    { unfold s. cbn. rewrite Ea. f_equal. destruct (named_facts ac n Hac In_n) as [_ [_ [_ [N2 [Nm _]]]]]. apply nth_error_In in N2.
      assert (ND : NoDup (map aName (acAxes ac))) by apply Hac.
      clear - ND Ia En N2 Nm. rewrite <- Nm in En. revert ND Ia N2 En. generalize (ax_named ac n) as y. intros y. induction (acAxes ac) as [|x l IH]; cbn; [tauto|]. intros ND. inversion ND as [|? ? Hx Hl]; subst.
      intros [->|I] [->|J] Q; auto; exfalso; apply Hx; [rewrite Q|rewrite <- Q]; now apply in_map. }
    rewrite <- Eax. apply vals_cell; [exact Rs| |rewrite Eax; reflexivity].
    change (osNames (bdObs s)) with [n]. apply (project_vals ac e vals [n] Hac V I1). }
  split; [exact Cs|]. intros Hm NZ. destruct Cs as [I F]. destruct (bed_prob_pkg s e _ Rs NZ F) as [_ P]. rewrite P. f_equal. f_equal.
  rewrite <- (C idx (proj1 Ce) Hm). f_equal. unfold shape_of, s. cbn. rewrite Ea. cbn. lia.
Qed.
Lemma combine_pkg b o w : bed_ok b -> bed_ok o -> let h := bdHist b in let g := bdHist o in
  (forall r, In r [bed_add b o w; bed_multiply b o; bed_divide b o] -> bdName (fst r) = bdName b /\ bdObs (fst r) = bdObs b /\ bed_ok (fst r) /\ same_axes (bdHist (fst r)) h) /\
  (Forall2 same_edges (acAxes (hAxes g)) (acAxes (hAxes h)) ->
    (snd (bed_add b o w) = Ok tt /\ forall i, (i < hNBins h)%nat -> cont (bdHist (fst (bed_add b o w))) i = cont h i + w * cont g i) /\
    (snd (bed_multiply b o) = Ok tt /\ forall i, (i < hNBins h)%nat -> cont (bdHist (fst (bed_multiply b o))) i = cont h i * cont g i) /\
    ((forall i, (i < hNBins h)%nat -> cont g i <> 0) -> snd (bed_divide b o) = Ok tt /\ forall i, (i < hNBins h)%nat -> cont (bdHist (fst (bed_divide b o))) i * cont g i = cont h i)) /\
  (~ Forall2 same_edges (acAxes (hAxes g)) (acAxes (hAxes h)) ->
    bed_add b o w = (b, Throw ValueError) /\ bed_multiply b o = (b, Throw ValueError) /\ bed_divide b o = (b, Throw ValueError)).
Proof.
  intros H Ho h g. unfold bed_add, bed_multiply, bed_divide, bo_on, bed_on. fold h g. split; [|].
  - intros r [<-|[<-|[<-|[]]]].
    + pose proof (hr_add h g w H Ho) as R. destruct (pointwise_shape (fun x y => Ok (x + y * w)) h g) as [A [B [C _]]]. unfold h_add in *. destruct (pointwise _ h g). cbn in *. repeat split; assumption.
    + pose proof (hr_multiply h g H Ho) as R. destruct (pointwise_shape (fun x y => Ok (x * y)) h g) as [A [B [C _]]]. unfold h_multiply in *. destruct (pointwise _ h g). cbn in *. repeat split; assumption.
    + pose proof (hr_divide h g H Ho) as R. destruct (pointwise_shape qdiv h g) as [A [B [C _]]]. unfold h_divide in *. destruct (pointwise _ h g). cbn in *. repeat split; assumption.
  - destruct (arith_pkg h g w H Ho) as [A B]. split.
    + intros F. destruct (A F) as [[h1 [E1 [_ [C1 _]]]] [[h2 [E2 [_ C2]]] D]]. rewrite E1, E2. cbn. split; [now split|]. split; [now split|].
      intros NZ. destruct (D NZ) as [h3 [E3 [_ C3]]]. rewrite E3. cbn. now split.
    + intros F. destruct (B F) as [E1 [E2 E3]]. rewrite E1, E2, E3. destruct b. repeat split; reflexivity.
Qed.
Lemma padding_pkg b p : bed_ok b -> let r := bed_padding b p in bdName r = bdName b /\ bdObs r = bdObs b /\ bed_ok r /\ same_axes (bdHist r) (bdHist b) /\
  forall i, (i < hNBins (bdHist b))%nat -> (cont (bdHist b) i = 0 -> cont (bdHist r) i = p) /\ (cont (bdHist b) i <> 0 -> cont (bdHist r) i = cont (bdHist b) i).
Proof.
  intros H r. split; [reflexivity|]. split; [reflexivity|]. split; [now apply hr_padding|]. split; [repeat split|]. intros i I. unfold r, bed_padding, addPadding, cont. cbn [bdHist bed_setHist hCont].
  destruct (h_reach_ok _ H) as [_ [_ [_ [_ L]]]]. rewrite (nth_map2 _ _ _ 0) by (rewrite L; exact I). split; intros E; [rewrite E; reflexivity|]. apply qeqb_neq in E. now rewrite E.
Qed.
Lemma f2_len {A B} (P : A -> B -> Prop) l l' : Forall2 P l l' -> List.length l = List.length l'.
Proof. induction 1; cbn; congruence. Qed.

Lemma fold_app_names {A : Type} (g : A -> string) (l : list A) : forall s : string,
  fold_left (fun t n => (t ++ g n)%string) l s = (s ++ String.concat "" (map g l))%string.
Proof.
  assert (A0 : forall s, (s ++ "")%string = s) by (induction s as [|c s IH]; cbn; [reflexivity|now rewrite IH]).
  assert (A1 : forall a b c, ((a ++ b) ++ c)%string = (a ++ (b ++ c))%string) by (induction a as [|c' a IH]; intros; cbn; [reflexivity|now rewrite IH]).
  assert (CC : forall x (t : list string), String.concat "" (x :: t) = (x ++ String.concat "" t)%string).
  { intros x [|y t]; cbn [String.concat]; [now rewrite A0|reflexivity]. }
  induction l as [|n l IH]; intros s; cbn [fold_left map]; [now rewrite A0|]. rewrite IH, CC, A1. reflexivity.
Qed.
Lemma names_pkg (b : bed) : bed_ok b ->
  (forall names m, bed_marginalise b names = Ok m -> bdName m = (bdName b ++ String.concat "" (map (fun n => "_" ++ n) names) ++ "_proj")%string) /\
  (forall fixed s, bed_slice b fixed = Ok s ->
     bdName s = (bdName b ++ String.concat "" (map (fun n => match sfind n fixed with Some v => "_" ++ n ++ dec v | None => "" end) (names_of (bdHist b))) ++ "_slice")%string).
Proof.
  assert (A0 : forall s, (s ++ "")%string = s) by (induction s as [|c s IH]; cbn; [reflexivity|now rewrite IH]).
  assert (A1 : forall a b c, ((a ++ b) ++ c)%string = (a ++ (b ++ c))%string) by (induction a as [|c' a IH]; intros; cbn; [reflexivity|now rewrite IH]).
  intros Hr. assert (En : acNames (hAxes (bdHist b)) = names_of (bdHist b)) by (destruct (h_reach_ok _ Hr) as [Hac _]; apply Hac). split.
  - intros names m E. unfold bed_marginalise in E. destruct (marginalise (bdHist b) names) as [h'| | | |]; cbn [bind] in E; try discriminate. now inversion E.
  - intros fixed s E. unfold bed_slice in E. cbv zeta in E. destruct (getSlice (bdHist b) fixed) as [h'| | | |]; cbn [bind] in E; try discriminate. inversion E; subst. cbn [bdName bed_setObs bed_ofHist].
    unfold sliceName. rewrite <- A1. apply (f_equal (fun z => (z ++ "_slice")%string)). rewrite <- fold_app_names, <- En. clear E En.
    generalize (bdName b). induction (acNames (hAxes (bdHist b))) as [|n l IH]; intros t; cbn [fold_left]; [reflexivity|].
    rewrite IH. f_equal. destruct (sfind n fixed); [reflexivity|now rewrite A0].
Qed.
