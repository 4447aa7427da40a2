(** C98: the pdf manager when systematics rebuild the working pdfs and buffers shrink them. *)
From Coq Require Import ZArith Lia.
From Verif Require Import Base.Res Base.Num Base.SMap Model.Axis Model.Event Model.Hist Model.ED Model.Param Model.Matrix Model.SystMan Model.Shrink Model.EDMan
  Spec.AxisSpec Spec.HistSpec Spec.ParamSpec Spec.EDManSpec Spec.SystManSpec Proofs.AxisP Proofs.HistP Proofs.HistP2 Proofs.HistP4 Proofs.ParamP Proofs.EDManP Proofs.EDManP2
  Proofs.SystManP Proofs.SystManP2 Proofs.NLLHS1.
Local Open Scope Qc_scope.
Local Open Scope res_scope.

Definition base (p : edman) : edman := setOW (emOrig p) (emOrig p) p.
Definition loose (p : edman) : Prop := em_inv (base p) /\ List.length (emWork p) = List.length (emOrig p).

Lemma firstn_upd_S {A} (x : A) : forall j (l r : list A), firstn j l = firstn j r -> (j < List.length l)%nat -> (j < List.length r)%nat -> firstn (S j) (upd l j x) = firstn (S j) (upd r j x).
Proof.
  induction j as [|j IH]; intros [|a l] [|b r] E Hl Hr; cbn in Hl, Hr; try lia; [reflexivity|]. cbn [firstn] in E. injection E as -> E. cbn [upd].
  change (b :: firstn (S j) (upd l j x) = b :: firstn (S j) (upd r j x)). f_equal. apply IH; [exact E|lia|lia].
Qed.
Lemma distort_indep m os w1 w2 n : (forall o, In o os -> sfind (bdName o) (smDists m) <> None) -> List.length w1 = List.length os -> List.length w2 = List.length os ->
  sm_distort m os w1 n = sm_distort m os w2 n.
Proof.
  intros H L1 L2. unfold sm_distort. rewrite L1, L2.
  assert (G : forall k j w1 w2 ns, (j + k = List.length os)%nat -> List.length w1 = List.length os -> List.length w2 = List.length os -> firstn j w1 = firstn j w2 ->
     foldM (fun (st : list bed * option (list Qc)) j =>
           do o <- vat os j;
           match sfind (bdName o) (smDists m) with
           | None => Ok st
           | Some gs =>
               do b <- sm_distort1 m gs o;
               match snd st with
               | None => Ok (upd (fst st) j b, None)
               | Some ns =>
                   do i <- integral (bdHist b);
                   if Nat.ltb j (List.length ns) then Ok (upd (fst st) j b, Some (upd ns j i)) else UB
               end
           end) (seq j k) (w1, ns) =
     foldM (fun (st : list bed * option (list Qc)) j =>
           do o <- vat os j;
           match sfind (bdName o) (smDists m) with
           | None => Ok st
           | Some gs =>
               do b <- sm_distort1 m gs o;
               match snd st with
               | None => Ok (upd (fst st) j b, None)
               | Some ns =>
                   do i <- integral (bdHist b);
                   if Nat.ltb j (List.length ns) then Ok (upd (fst st) j b, Some (upd ns j i)) else UB
               end
           end) (seq j k) (w2, ns)).
  { clear w1 w2 L1 L2 n. induction k as [|k IH]; intros j w1 w2 ns Hj L1 L2 E; cbn [seq foldM].
    - rewrite !firstn_all2 in E by lia. now rewrite E.
    - unfold vat. destruct (nth_error os j) as [o|] eqn:Eo; cbn [bind]; [|reflexivity].
      specialize (H o (nth_error_In _ _ Eo)). destruct (sfind (bdName o) (smDists m)) as [gs|]; [|congruence].
      destruct (sm_distort1 m gs o) as [b| | | |]; cbn [bind snd fst]; try reflexivity.
      destruct ns as [ns|].
      + destruct (integral (bdHist b)) as [i| | | |]; cbn [bind]; try reflexivity. destruct (Nat.ltb j (List.length ns)); cbn [bind]; [|reflexivity].
        apply IH; rewrite ?upd_length; try lia. apply firstn_upd_S; [exact E|lia|lia].
      + cbn [bind]. apply IH; rewrite ?upd_length; try lia. apply firstn_upd_S; [exact E|lia|lia]. }
  apply G; auto.
Qed.
Lemma sys_indep p m : (forall o, In o (emOrig p) -> sfind (bdName o) (smDists m) <> None) -> sm_count m <> 0%nat -> List.length (emWork p) = List.length (emOrig p) ->
  snd (em_systematics p m) = snd (em_systematics (base p) m) /\
  (fst (em_systematics p m) = fst (em_systematics (base p) m) \/ (fst (em_systematics p m) = p /\ snd (em_systematics p m) <> Ok tt)).
Proof.
  intros H H0 L. unfold em_systematics, base. cbn [setOW emAllDir emOrig emWork]. change (emNorms (setOW (emOrig p) (emOrig p) p)) with (emNorms p).
  destruct (Nat.eqb_spec (sm_count m) 0) as [E0|_]; [contradiction|].
  rewrite (distort_indep m (emOrig p) (emOrig p) (emWork p) None) by auto. rewrite (distort_indep m (emOrig p) (emOrig p) (emWork p) (Some (repeat 0 (List.length (emNorms p))))) by auto.
  destruct (emAllDir p).
  - destruct (sm_distort m (emOrig p) (emWork p) None) as [[w' n']| | | |]; cbn [obind fst snd]; (split; [reflexivity|]); try (right; split; [reflexivity|discriminate]). left. reflexivity.
  - destruct (sm_distort m (emOrig p) (emWork p) (Some _)) as [[w' n']| | | |]; cbn [obind fst snd]; try (split; [reflexivity|]; right; split; [reflexivity|discriminate]).
    change (em_setWork (setOW (emOrig p) (emOrig p) p) w') with (em_setWork p w'). split; [reflexivity|left; reflexivity].
Qed.
Lemma keeps_base p : keeps (base p) p /\ keeps p (base p).
Proof. split; repeat split. Qed.
Lemma keeps_loose p p' : loose p -> keeps p p' -> List.length (emWork p') = List.length (emWork p) -> loose p'.
Proof.
  intros [I L] K E. pose proof K as [A1 [A2 [A3 [A4 [A5 [A6 A7]]]]]]. split; [|rewrite A1; lia]. unfold base. rewrite A1.
  assert (T : same_structure (setOW (emOrig p) (emOrig p) p) (setOW (emOrig p) (emOrig p) p')).
  { repeat split; cbn; auto. change (List.length (emFit p') = List.length (emFit p)). now rewrite A6. }
  eapply structure_inv; eassumption.
Qed.
Lemma base_inv2 p : loose p -> em_inv2 (base p).
Proof. intros [I _]. split; [exact I|]. cbn. induction (emOrig p); constructor; auto using reshaped_refl. Qed.
Lemma reassert_loose c p : loose p -> exists p', em_reassert c p = (p', Ok tt) /\ keeps p p' /\ emWork p' = emWork p.
Proof.
  intros [I L]. destruct (reassert_ok c (base p) I) as [u [E [T [F [A _]]]]].
  assert (E' : em_reassert c (base p) = (setOW (emOrig p) (emOrig p) (fst (em_reassert c p)), snd (em_reassert c p))) by (unfold base; apply reassert_swap).
  assert (W : emWork (fst (em_reassert c p)) = emWork p /\ emOrig (fst (em_reassert c p)) = emOrig p).
  { pose proof (reassert_swap c (emOrig p) (emWork p) p) as Q. replace (setOW (emOrig p) (emWork p) p) with p in Q by (destruct p; reflexivity).
    rewrite Q. cbn. auto. }
  rewrite E' in E. destruct (em_reassert c p) as [p' r]. cbn [fst snd] in *. injection E as Eu ->. exists p'. split; [reflexivity|]. split; [|apply W].
  subst u. destruct T as [_ [_ [T3 [T4 [T5 [T6 T7]]]]]]. cbn in T3, T4, T5. destruct W as [W1 W2].
  unfold keeps. split; [exact W2|]. split; [exact T3|]. split; [exact T4|]. split; [exact T5|]. split; [exact T6|]. split; [exact F|].
  intros Ha. specialize (A Ha). apply (f_equal emNorms) in A. exact A.
Qed.

(** shrinking *)
Lemma shrink1_keeps x p i : emAllDir p = forallb is_direct (emStat p) -> keeps p (fst (em_shrink1 x p i)) /\ List.length (emWork (fst (em_shrink1 x p i))) = List.length (emWork p).
Proof.
  intros Ha. unfold em_shrink1.
  destruct (vidx (emWork p) i) as [w| | | |]; cbn [obind fst]; try (split; [apply keeps_refl|reflexivity]).
  destruct (integral (bdHist w)) as [before| | | |]; cbn [obind fst]; try (split; [apply keeps_refl|reflexivity]).
  destruct (sh_shrink x w) as [w1| | | |]; cbn [obind fst]; try (split; [apply keeps_refl|reflexivity]).
  assert (K1 : keeps p (em_setWork p (upd (emWork p) i w1))) by (repeat split).
  assert (L1 : List.length (emWork (em_setWork p (upd (emWork p) i w1))) = List.length (emWork p)) by apply upd_length.
  destruct (integral (bdHist w1)) as [after| | | |]; cbn [obind fst]; try (split; [exact K1|exact L1]).
  destruct (vat (emStat p) i) as [st| | | |] eqn:Es; cbn [obind fst]; try (split; [exact K1|exact L1]).
  assert (N : st <> NDirect -> forall v, keeps p (em_setNormsC (em_setWork p (upd (emWork p) i w1)) (upd (emNorms (em_setWork p (upd (emWork p) i w1))) i v))).
  { intros Hs v. repeat split; cbn; auto; [apply upd_length|]. intros Hd. exfalso. rewrite Hd in Ha. symmetry in Ha. rewrite forallb_forall in Ha.
    unfold vat in Es. destruct (nth_error (emStat p) i) as [y|] eqn:Ey; [|discriminate]. injection Es as ->. specialize (Ha st (nth_error_In _ _ Ey)). destruct st; try discriminate Ha; now apply Hs. }
  destruct st; cbn [fst].
  - split; [apply N; discriminate|exact L1].
  - destruct (bed_normalise w1) as [w2 r]. cbn [fst]. split; [repeat split|]. cbn. now rewrite !upd_length.
  - destruct (qeqb before 0 && qeqb after 0); cbn [fst]; [split; [apply N; discriminate|exact L1]|].
    destruct (qdiv after before) as [q| | | |]; cbn [obind fst]; try (split; [exact K1|exact L1]). split; [apply N; discriminate|exact L1].
Qed.
Lemma shrinks_keep x l : forall p, emAllDir p = forallb is_direct (emStat p) ->
  keeps p (fst (iterS (em_shrink1 x) l p)) /\ List.length (emWork (fst (iterS (em_shrink1 x) l p))) = List.length (emWork p).
Proof.
  induction l as [|i l IH]; intros p Ha; cbn [iterS]; [split; [apply keeps_refl|reflexivity]|].
  destruct (shrink1_keeps x p i Ha) as [K L]. destruct (em_shrink1 x p i) as [p1 r]. cbn [fst] in *.
  destruct r as [[]|e| | |]; cbn [fst]; try (split; [exact K|exact L]).
  destruct (IH p1) as [K2 L2]; [destruct K as [_ [-> [-> _]]]; exact Ha|]. split; [eapply keeps_trans; eassumption|lia].
Qed.
Lemma shrink_keeps x p : loose p -> keeps p (fst (em_shrink p x)) /\ List.length (emWork (fst (em_shrink p x))) = List.length (emWork p).
Proof.
  intros [I _]. assert (Ha : emAllDir p = forallb is_direct (emStat p)) by apply I. unfold em_shrink. destruct (shBuf x); [split; [apply keeps_refl|reflexivity]|].
  destruct (vat (emWork p) 0) as [w0| | | |]; cbn [obind fst]; try (split; [apply keeps_refl|reflexivity]).
  destruct (vat (emOrig p) 0) as [o0| | | |]; cbn [obind fst]; try (split; [apply keeps_refl|reflexivity]).
  destruct (Z.eqb _ _); [split; [apply keeps_refl|reflexivity]|]. destruct (negb _); [split; [apply keeps_refl|reflexivity]|]. apply shrinks_keep. exact Ha.
Qed.
(** what a working pdf becomes *)
Definition shrunk_pdf (x : shrinker) (st : nfs) (w w' : bed) : Prop := exists w1, sh_shrink x w = Ok w1 /\ h_ok (bdHist w) /\ h_ok (bdHist w1) /\
  match st with
  | NDirect => total (bdHist w1) <> 0 /\ exists h', normalise (bdHist w1) = (h', Ok tt) /\ w' = mkBed (bdName w1) h' (bdObs w1)
  | NIndirect => (total (bdHist w) <> 0 \/ total (bdHist w1) = 0) /\ w' = w1
  | NFalse => w' = w1
  end.
Lemma upd_same_out {A} (l : list A) i x j : i <> j -> nth_error (upd l i x) j = nth_error l j.
Proof. revert i j. induction l as [|a l IH]; intros [|i] [|j] H; cbn; auto; try congruence. Qed.
Lemma upd_same_in {A} (l : list A) i x : (i < List.length l)%nat -> nth_error (upd l i x) i = Some x.
Proof. revert i. induction l as [|a l IH]; intros [|i] H; cbn in *; auto; try lia. apply IH. lia. Qed.
Lemma upd_upd {A} (l : list A) i x y : upd (upd l i x) i y = upd l i y.
Proof. revert i. induction l as [|a l IH]; intros [|i]; cbn; auto. now rewrite IH. Qed.
Lemma shrink1_ok x p i st w w' : vat (emStat p) i = Ok st -> nth_error (emWork p) i = Some w -> shrunk_pdf x st w w' ->
  exists p', em_shrink1 x p i = (p', Ok tt) /\ emWork p' = upd (emWork p) i w'.
Proof.
  intros Es Ew [w1 [E1 [O [O1 R]]]]. unfold em_shrink1, vidx. rewrite Ew. cbn [obind]. rewrite (integral_total _ O). cbn [obind]. rewrite E1. cbn [obind].
  rewrite (integral_total _ O1). cbn [obind]. rewrite Es. cbn [obind]. destruct st.
  - subst w'. eexists. split; [reflexivity|reflexivity].
  - destruct R as [Hz [h' [En ->]]]. unfold bed_normalise, bed_on. rewrite En. eexists. split; [reflexivity|]. cbn. apply upd_upd.
  - destruct R as [Hz ->]. destruct (qeqb (total (bdHist w)) 0) eqn:Eq.
    + apply qeqb_eq in Eq. destruct Hz as [Hz|Hz]; [contradiction|]. rewrite (proj2 (qeqb_eq _ _) Hz). cbn [andb]. eexists. split; reflexivity.
    + cbn [andb]. unfold qdiv. rewrite Eq. cbn [obind]. eexists. split; reflexivity.
Qed.
Lemma shrinks_ok x n : forall j p W, emAllDir p = forallb is_direct (emStat p) -> (j + n = List.length (emWork p))%nat -> List.length (emStat p) = List.length (emWork p) ->
  (forall i st w, (j <= i)%nat -> nth_error (emStat p) i = Some st -> nth_error (emWork p) i = Some w -> shrunk_pdf x st w (W i)) ->
  exists p', iterS (em_shrink1 x) (seq j n) p = (p', Ok tt) /\ List.length (emWork p') = List.length (emWork p) /\
    forall i, (i < List.length (emWork p))%nat -> nth_error (emWork p') i = if Nat.ltb i j then nth_error (emWork p) i else Some (W i).
Proof.
  induction n as [|n IH]; intros j p W Ha Hj Ls H; cbn [seq iterS].
  - exists p. split; [reflexivity|]. split; [reflexivity|]. intros i Hi. destruct (Nat.ltb_spec i j); [reflexivity|lia].
  - destruct (nth_error (emWork p) j) as [w|] eqn:Ew; [|apply nth_error_None in Ew; lia]. destruct (nth_error (emStat p) j) as [st|] eqn:Es; [|apply nth_error_None in Es; lia].
    destruct (shrink1_ok x p j st w (W j)) as [p1 [E1 W1]]; [unfold vat; now rewrite Es|exact Ew|apply H; auto|].
    rewrite E1. destruct (shrink1_keeps x p j Ha) as [K _]. rewrite E1 in K. cbn [fst] in K. pose proof K as [_ [K2 [K3 _]]].
    destruct (IH (S j) p1 W) as [p2 [E2 [L2 N2]]]; rewrite ?W1, ?upd_length, ?K2, ?K3 in *; auto; try lia.
    + intros i st' w' Hi Hs Hw. rewrite upd_same_out in Hw by lia. apply (H i st' w'); auto. lia.
    + exists p2. split; [exact E2|]. split; [exact L2|]. intros i Hi. rewrite N2 by exact Hi. destruct (Nat.ltb_spec i (S j)); destruct (Nat.ltb_spec i j); try lia.
      * apply upd_same_out. lia. * replace i with j by lia. apply upd_same_in. lia. * reflexivity.
Qed.

(** probabilities depend on the contents of the working pdfs only *)
Definition relabel (os ws : list bed) : list bed := map (fun ow => mkBed (bdName (fst ow)) (bdHist (snd ow)) (bdObs (fst ow))) (combine os ws).
Lemma relabel_length os ws : List.length ws = List.length os -> List.length (relabel os ws) = List.length os.
Proof. intros H. unfold relabel. rewrite map_length, combine_length. lia. Qed.
Lemma relabel_names os : forall ws, List.length ws = List.length os -> map bdName (relabel os ws) = map bdName os.
Proof. unfold relabel. induction os as [|o os IH]; intros [|w ws] H; cbn in *; try discriminate; [reflexivity|]. f_equal. apply IH. lia. Qed.
Lemma relabel_nth os : forall ws i o w, nth_error os i = Some o -> nth_error ws i = Some w -> nth_error (relabel os ws) i = Some (mkBed (bdName o) (bdHist w) (bdObs o)).
Proof. unfold relabel. induction os as [|a os IH]; intros [|b ws] [|i] o w H1 H2; cbn in *; try discriminate; [congruence|]. now apply IH. Qed.
Lemma binProb_relabel p k : List.length (emWork p) = List.length (emOrig p) ->
  snd (em_binProb p k) = snd (em_binProb (setOW (relabel (emOrig p) (emWork p)) (relabel (emOrig p) (emWork p)) p) k).
Proof.
  intros L. unfold em_binProb. rewrite reassert_swap. pose proof (reassert_swap true (emOrig p) (emWork p) p) as Q. replace (setOW (emOrig p) (emWork p) p) with p in Q by (destruct p; reflexivity).
  destruct (em_reassert true p) as [p' r]. cbn [fst snd] in *. injection Q as Q. destruct r as [[]|e| | |]; cbn [snd]; try reflexivity.
  f_equal. f_equal. rewrite Q. cbn [setOW emWork]. rewrite relabel_length, L by exact L.
  assert (G : forall l acc, (forall i, In i l -> (i < List.length (emOrig p))%nat) ->
    foldM (em_term (setOW (emOrig p) (emWork p) p') (fun w => getBinContent (bdHist w) k)) l acc =
    foldM (em_term (setOW (relabel (emOrig p) (emWork p)) (relabel (emOrig p) (emWork p)) (setOW (emOrig p) (emWork p) p')) (fun w => getBinContent (bdHist w) k)) l acc).
  { induction l as [|i l IH]; intros acc Hl; cbn [foldM]; [reflexivity|].
    assert (Hi : (i < List.length (emOrig p))%nat) by (apply Hl; now left).
    assert (E : em_term (setOW (emOrig p) (emWork p) p') (fun w => getBinContent (bdHist w) k) acc i =
      em_term (setOW (relabel (emOrig p) (emWork p)) (relabel (emOrig p) (emWork p)) (setOW (emOrig p) (emWork p) p')) (fun w => getBinContent (bdHist w) k) acc i).
    { unfold em_term. cbn [setOW emStat emWork]. destruct (vat (emStat p') i) as [st| | | |]; cbn [bind]; try reflexivity.
      destruct (nth_error (emOrig p) i) as [o|] eqn:Eo; [|apply nth_error_None in Eo; lia].
      destruct (nth_error (emWork p) i) as [w|] eqn:Ew; [|apply nth_error_None in Ew; lia]. pose proof (relabel_nth _ _ _ _ _ Eo Ew) as Er. unfold vat, vidx in *. rewrite Er, Ew. cbn [bind bdHist]. reflexivity. }
    rewrite E. clear E. destruct (em_term (setOW (relabel _ _) _ _) _ acc i); cbn [bind]; try reflexivity. apply IH. intros j Hj. apply Hl. now right. }
  apply G. intros i Hi. apply in_seq in Hi. lia.
Qed.
Lemma binProb_loose p d k : loose p -> NoDup (fitted (pairs p)) -> direct_first (pairs p) -> holds p d ->
  (forall w, In w (emWork p) -> h_reach (bdHist w) /\ (k < hNBins (bdHist w))%nat) ->
  snd (em_binProb p k) = Ok (qsum (map (fun ow => norm_in d (fst (fst ow), snd ow) * cont (bdHist (snd (fst ow))) k) (combine (combine (emOrig p) (emWork p)) (emStat p)))) /\
  keeps p (fst (em_binProb p k)) /\ emWork (fst (em_binProb p k)) = emWork p.
Proof.
  intros LP Hnd Hdf Hh Hb. pose proof LP as [I L]. set (ws := relabel (emOrig p) (emWork p)).
  assert (I' : em_inv (setOW ws ws p)) by (apply (inv_change p (emOrig p)); [exact I|now apply relabel_names]).
  assert (Fn : fitted (pairs (setOW ws ws p)) = fitted (pairs p)) by (apply fitted_names; now apply relabel_names).
  assert (Pn : forall i b st, nth_error (pairs (setOW ws ws p)) i = Some (b, st) -> exists o w, nth_error (emOrig p) i = Some o /\ nth_error (emWork p) i = Some w /\ nth_error (emStat p) i = Some st /\ b = mkBed (bdName o) (bdHist w) (bdObs o)).
  { intros i b st H. unfold pairs in H. cbn [setOW emOrig emStat] in H.
    assert (Hc : nth_error ws i = Some b /\ nth_error (emStat p) i = Some st).
    { clear -H. revert i H. generalize (emStat p). induction ws as [|y l IH]; intros [|z r] [|i] H; cbn in *; try discriminate; [injection H as <- <-; auto|]. now apply IH. }
    destruct Hc as [Hw Hs]. assert (Hi : (i < List.length ws)%nat) by (apply nth_error_Some; congruence). unfold ws in Hi. rewrite relabel_length in Hi by exact L.
    destruct (nth_error (emOrig p) i) as [o|] eqn:Eo; [|apply nth_error_None in Eo; lia]. destruct (nth_error (emWork p) i) as [w|] eqn:Ew; [|apply nth_error_None in Ew; lia].
    exists o, w. unfold ws in Hw. rewrite (relabel_nth _ _ _ _ _ Eo Ew) in Hw. injection Hw as <-. auto. }
  split.
  - rewrite binProb_relabel by exact L. fold ws. rewrite (binprob_holds (setOW ws ws p) d k); auto.
    + f_equal. f_equal. unfold pairs. cbn [setOW emOrig emStat]. unfold ws, relabel. clear. generalize (emWork p), (emStat p). induction (emOrig p) as [|o os IH]; intros [|w ws] [|st sts]; cbn; auto.
      f_equal. apply IH.
    + now rewrite Fn.
    + intros i j bi bj Hi Hj. destruct (Pn _ _ _ Hi) as [oi [wi [A1 [_ [A3 _]]]]]. destruct (Pn _ _ _ Hj) as [oj [wj [B1 [_ [B3 _]]]]].
      assert (Q : forall i o st, nth_error (emOrig p) i = Some o -> nth_error (emStat p) i = Some st -> nth_error (pairs p) i = Some (o, st)).
      { clear. intros i o st. unfold pairs. revert i. generalize (emStat p). induction (emOrig p) as [|y l IH]; intros [|z r] [|i] H1 H2; cbn in *; try discriminate; [congruence|]. now apply IH. }
      apply (Hdf i j oi oj); auto.
    + apply Forall_forall. intros [b st] Hin. destruct (In_nth_error _ _ Hin) as [i Hi]. destruct (Pn _ _ _ Hi) as [o [w [_ [Hw [_ ->]]]]]. destruct (Hb w (nth_error_In _ _ Hw)) as [X1 X2]. split; [exact X1|exact X2].
    + intros i n Hi. rewrite Fn in Hi. apply Hh. exact Hi.
  - destruct (reassert_loose true p LP) as [p' [E [K W]]]. unfold em_binProb. rewrite E. cbn [fst]. auto.
Qed.
