From Verif Require Import Base.Res Base.Num Base.SMap Model.Axis Model.Event Model.Hist Model.ED Model.Param Model.EDMan
  Spec.AxisSpec Spec.HistSpec Spec.ParamSpec Spec.EDManSpec Proofs.AxisP Proofs.HistP Proofs.HistP2 Proofs.ParamP Proofs.EDManP.
Local Open Scope Qc_scope.
Local Open Scope res_scope.

Lemma em_new_inv : em_inv em_new.
Proof.
  repeat split; try reflexivity; try (intros; discriminate).
  - constructor.
  - intros n [].
  - intros _ [|i] n; discriminate.
Qed.
Lemma addMany_ok l : forall s, em_inv s ->
  exists s', iterS (fun s1 p => em_addPdf s1 (fst p) (snd p)) l s = (s', Ok tt) /\ em_inv s' /\ pairs s' = pairs s ++ l.
Proof.
  induction l as [|[b st] l IH]; intros s I; cbn [iterS fst snd].
  - exists s. rewrite app_nil_r. auto.
  - destruct (addPdf_ok s b st I) as [s1 [E [I1 [P1 _]]]]. rewrite E. destruct (IH s1 I1) as [s' [E' [I' P']]].
    exists s'. split; [exact E'|]. split; [exact I'|]. rewrite P', P1, <- app_assoc. reflexivity.
Qed.
Lemma reregister_ok s : em_inv s -> exists s', em_register s = (s', Ok tt) /\ em_inv s' /\ pairs s' = pairs s.
Proof.
  intros I. pose proof I as [H1 [H2 [H3 [H4 [H5 _]]]]]. destruct (register_ok s H1 H2 H3 H4 H5) as [s' [E [I' [O1 [O2 _]]]]].
  exists s'. split; [exact E|]. split; [exact I'|]. unfold pairs. now rewrite O1, O2.
Qed.
Lemma iterS_map {A B S} (f : S -> B -> S * res unit) (g : A -> B) l : forall s,
  iterS f (map g l) s = iterS (fun s a => f s (g a)) l s.
Proof. induction l as [|x l IH]; intros s; cbn [map iterS]; [reflexivity|]. destruct (f s (g x)) as [s' []]; auto. Qed.
Lemma structure_pairs s s' : same_structure s s' -> pairs s' = pairs s.
Proof. intros [A [_ [C _]]]. unfold pairs. now rewrite A, C. Qed.

Lemma emdo_ok s o : em_inv s -> em_inv (emdo s o) /\ pairs (emdo s o) = pairs s ++ pdfs_by o /\
  (asks o -> same_structure s (emdo s o)).
Proof.
  intros I. assert (G : forall s', same_structure s s' -> pdfs_by o = [] -> em_inv s' /\ pairs s' = pairs s ++ pdfs_by o /\ (asks o -> same_structure s s')).
  { intros s' T E. split; [eapply structure_inv; eassumption|]. split; [|auto]. rewrite E, app_nil_r. apply structure_pairs. exact T. }
  destruct o as [b st|bs sts|l|n v|d|k|c]; cbn [emdo pdfs_by asks].
  - destruct (addPdf_ok s b st I) as [s' [-> [I' [P' _]]]]. cbn. split; [exact I'|]. split; [exact P'|intros []].
  - destruct sts as [l|]; cbn [em_addPdfs].
    + destruct (Nat.eqb_spec (List.length bs) (List.length l)) as [El|]; cbn [negb].
      * destruct (addMany_ok (combine bs l) s I) as [s1 [-> [I1 P1]]].
        destruct (reregister_ok s1 I1) as [s2 [-> [I2 P2]]]. cbn. split; [exact I2|]. split; [now rewrite P2|intros []].
      * cbn. split; [exact I|]. split; [now rewrite app_nil_r|intros []].
    + destruct (addMany_ok (map (fun b => (b, NIndirect)) bs) s I) as [s1 [E [I1 P1]]]. rewrite iterS_map in E. cbn [fst snd] in E. rewrite E.
      destruct (reregister_ok s1 I1) as [s2 [-> [I2 P2]]]. cbn. split; [exact I2|]. split; [now rewrite P2|intros []].
  - apply G; [|reflexivity]. unfold em_setNorms. destruct (Nat.eqb_spec (List.length l) (List.length (emOrig s))) as [El|]; cbn [negb fst]; [|apply structure_refl].
    apply setNormsC_structure. destruct I as [_ [-> _]]. exact El.
  - apply G; [apply set_structure|reflexivity].
  - apply G; [apply setAll_structure|reflexivity].
  - apply G; [|reflexivity]. rewrite binProb_state by exact I. destruct (reassert_ok true s I) as [s' [-> [T _]]]. exact T.
  - apply G; [|reflexivity]. destruct (reassert_ok c s I) as [s' [-> [T _]]]. exact T.
Qed.
Lemma emrun_ok ops : forall s, em_inv s -> em_inv (emrun s ops) /\ pairs (emrun s ops) = pairs s ++ pdfs_of ops /\
  (Forall asks ops -> same_structure s (emrun s ops)).
Proof.
  induction ops as [|o ops IH]; intros s I; cbn [emrun fold_left pdfs_of flat_map].
  - split; [exact I|]. split; [now rewrite app_nil_r|intros _; apply structure_refl].
  - destruct (emdo_ok s o I) as [I1 [P1 T1]]. destruct (IH (emdo s o) I1) as [I2 [P2 T2]]. split; [exact I2|]. split.
    + unfold emrun in P2. rewrite P2, P1, <- app_assoc. reflexivity.
    + intros F. inversion F; subst. eapply structure_trans; [apply T1; assumption|apply T2; assumption].
Qed.
Lemma history_ok ops : em_inv (emrun em_new ops) /\ pairs (emrun em_new ops) = pdfs_of ops.
Proof. destruct (emrun_ok ops em_new em_new_inv) as [A [B _]]. auto. Qed.

(** the fit parameters hold the values of d *)
Definition holds (s : edman) (d : smap Qc) : Prop :=
  forall i n, nth_error (fitted (pairs s)) i = Some n -> sfind n d = Some (nth i (mCnt (pmMem (emPm s)) (cont_of s)) 0).

Lemma names_are s : em_inv s -> forall n, In n (pm_names (emPm s)) <-> In n (fitted (pairs s)).
Proof.
  intros [_ [_ [_ [_ [_ [_ [H7 [H8 _]]]]]]]] n. split; [|apply H8].
  intros H. apply sfind_in in H as [l Hl]. destruct (H7 n l Hl) as [i [E _]]. eapply nth_error_In; eassumption.
Qed.
Lemma inv_unaliased s : em_inv s -> unaliased (emPm s).
Proof.
  intros [_ [_ [_ [_ [_ [_ [H7 _]]]]]]] n n' l B1 B2. destruct (H7 n l B1) as [i [E1 ->]]. destruct (H7 n' _ B2) as [j [E2 E3]].
  injection E3 as <-. congruence.
Qed.

Lemma setAll_holds s d : em_inv s -> NoDup (fitted (pairs s)) -> (forall n, In n (fitted (pairs s)) -> has_key d n) ->
  exists s', em_setAll s d = (s', Ok tt) /\ em_inv s' /\ same_structure s s' /\ holds s' d.
Proof.
  intros I Hnd Hd. pose proof I as [_ [_ [_ [_ [_ [H6 [H7 [H8 H9]]]]]]]].
  destruct (pm_setAll_ok (emPm s) d H6 (inv_unaliased s I)) as [p' [E [P [G _]]]].
  { intros n Hn. apply Hd. apply names_are; assumption. }
  unfold em_setAll. pose proof (setAll_structure s d) as T. unfold em_setAll in T. rewrite E in *. cbn [fst] in T.
  exists (em_withPm s p'). split; [reflexivity|]. pose proof (structure_inv _ _ T I) as I'. split; [exact I'|]. split; [exact T|].
  intros i n Hn. assert (Hn' : nth_error (fitted (pairs s)) i = Some n) by exact Hn.
  destruct (Hd n) as [v Ev]; [eapply nth_error_In; eassumption|]. rewrite Ev. f_equal.
  assert (Hi : In n (pm_names (emPm s))) by (apply names_are; [exact I|]; eapply nth_error_In; eassumption).
  specialize (G n v Hi Ev). destruct I' as [_ [_ [_ [_ [_ [[W' L'] [_ [_ H9']]]]]]]].
  assert (B : sfind n (pmPtrs (emPm (em_withPm s p'))) = Some (LElem (cont_of (em_withPm s p')) i)) by (apply H9'; assumption).
  change (emPm (em_withPm s p')) with p' in B. rewrite (pm_get_bound p' n _ B) in G by (apply (L' n _ B)).
  cbn [deref] in G. change (emPm (em_withPm s p')) with p'. symmetry.
  destruct (nth_error (mCnt (pmMem p') (cont_of (em_withPm s p'))) i) as [x|] eqn:Ex; [|discriminate]. injection G as ->.
  apply nth_error_nth. exact Ex.
Qed.
Lemma setAll_missing_pkg ops d : (exists n, In n (fitted (pdfs_of ops)) /\ ~ has_key d n) ->
  snd (em_setAll (emrun em_new ops) d) = Throw ParameterError.
Proof.
  intros [n [Hn Hk]]. destruct (history_ok ops) as [I P]. set (s := emrun em_new ops) in *. rewrite <- P in Hn.
  pose proof I as [_ [_ [_ [_ [_ [H6 _]]]]]].
  destruct (first_missing d (pm_names (emPm s))) as [A|[pre [k [post [E [A B]]]]]].
  - exfalso. apply Hk. apply A. apply names_are; assumption.
  - destruct (pm_setAll_missing (emPm s) d pre k post H6 E A B) as [p' [E' _]]. unfold em_setAll. rewrite E'. reflexivity.
Qed.

Lemma asks_holds ops : forall s d, em_inv s -> Forall asks ops -> holds s d -> holds (emrun s ops) d.
Proof.
  induction ops as [|o ops IH]; intros s d I F H; cbn [emrun fold_left]; [exact H|].
  inversion F as [|? ? Ha F']; subst. destruct (emdo_ok s o I) as [I1 [_ T1]]. specialize (T1 Ha). apply IH; auto.
  assert (K : exists c s', emdo s o = s' /\ em_reassert c s = (s', Ok tt)).
  { destruct o; cbn [asks] in Ha; try contradiction.
    - destruct (reassert_ok true s I) as [s' [E _]]. exists true, s'. split; [|exact E]. cbn [emdo]. rewrite binProb_state by exact I. now rewrite E.
    - destruct (reassert_ok calcing s I) as [s' [E _]]. exists calcing, s'. split; [|exact E]. cbn [emdo]. now rewrite E. }
  destruct K as [c [s' [-> E]]]. destruct (reassert_ok c s I) as [s2 [E2 [T [F2 [Ha1 _]]]]]. rewrite E in E2. injection E2 as <-.
  intros i n Hn. rewrite (structure_pairs _ _ T) in Hn. rewrite (H i n Hn). f_equal. f_equal.
  unfold cont_of. destruct T as [_ [_ [_ [-> _]]]]. destruct (emAllDir s) eqn:Ea.
  - rewrite (Ha1 eq_refl). reflexivity.
  - symmetry. exact F2.
Qed.

(** ** BinProbability *)
Definition fcnt (l : list nfs) (i : nat) : nat := List.length (filter fittable (firstn i l)).
Lemma fcnt_S l i x : nth_error l i = Some x -> fcnt l (S i) = (fcnt l i + (if fittable x then 1 else 0))%nat.
Proof.
  unfold fcnt. revert i. induction l as [|y l IH]; intros [|i] H; cbn in H; try discriminate.
  - injection H as ->. cbn. destruct (fittable x); reflexivity.
  - specialize (IH i H). cbn [firstn filter] in *. destruct (fittable y); cbn [List.length Nat.add]; rewrite IH; reflexivity.
Qed.
Lemma fitted_nth (ps : list (bed * nfs)) : forall i b st, nth_error ps i = Some (b, st) -> fittable st = true ->
  nth_error (fitted ps) (fcnt (map snd ps) i) = Some (bdName b).
Proof.
  unfold fitted, fcnt. induction ps as [|[b0 st0] ps IH]; intros [|i] b st H E; cbn in H; try discriminate.
  - injection H as -> ->. cbn. rewrite E. reflexivity.
  - cbn [map fst snd firstn filter]. destruct (fittable st0); cbn [List.length map fst nth_error]; apply (IH i b st H E).
Qed.
Lemma pairs_stat s : List.length (emStat s) = List.length (emOrig s) -> map snd (pairs s) = emStat s.
Proof.
  unfold pairs. generalize (emStat s). generalize (emOrig s). induction l as [|o l IH]; intros [|x l0] H; cbn in *; try discriminate; auto.
  f_equal. apply IH. lia.
Qed.
Lemma pairs_nth s i : List.length (emStat s) = List.length (emOrig s) -> (i < List.length (emOrig s))%nat ->
  nth_error (pairs s) i = Some (nth i (emOrig s) bed0, nth i (emStat s) NFalse).
Proof.
  intros H Hi. unfold pairs. rewrite <- (combine_nth _ _ i bed0 NFalse (eq_sym H)). apply nth_error_nth'. rewrite combine_length. lia.
Qed.

Lemma skipn_cons_nth {A} (l : list A) : forall i x, nth_error l i = Some x -> skipn i l = x :: skipn (S i) l.
Proof.
  induction l as [|p l IH]; intros [|i] x H; cbn in H; try discriminate; [injection H as ->; reflexivity|].
  cbn [skipn]. rewrite (IH i x H). reflexivity.
Qed.
Lemma sum_loop s (value : bed -> res Qc) (f : bed -> Qc) (norm : bed * nfs -> Qc) : 
  List.length (emStat s) = List.length (emOrig s) -> emWork s = emOrig s ->
  (forall b, In b (emOrig s) -> value b = Ok (f b)) ->
  (forall i b st, nth_error (pairs s) i = Some (b, st) ->
     match st with NFalse => norm (b, st) = 1 | NDirect => vat (emNorms s) i = Ok (norm (b, st))
                 | NIndirect => vat (emFit s) (fcnt (emStat s) i) = Ok (norm (b, st)) end) ->
  forall k i acc, (i + k = List.length (emOrig s))%nat ->
  foldM (em_term s value) (seq i k) (acc, fcnt (emStat s) i) =
  Ok (acc + qsum (map (fun p => norm p * f (fst p)) (skipn i (pairs s))), fcnt (emStat s) (i + k)).
Proof.
  intros H1 H5 Hv Hn. induction k as [|k IH]; intros i acc Hi; cbn [seq foldM].
  - rewrite skipn_all2 by (unfold pairs; rewrite combine_length; lia). cbn. rewrite Nat.add_0_r. f_equal. f_equal. ring.
  - assert (Hi' : (i < List.length (emOrig s))%nat) by lia.
    pose proof (pairs_nth s i H1 Hi') as Hp. set (b := nth i (emOrig s) bed0) in *. set (st := nth i (emStat s) NFalse) in *.
    pose proof (Hn i b st Hp) as Hni.
    assert (Est : nth_error (emStat s) i = Some st) by (apply nth_error_nth'; lia).
    assert (Eb : value b = Ok (f b)) by (apply Hv; apply nth_In; exact Hi').
    assert (Estep : em_term s value (acc, fcnt (emStat s) i) i = Ok (acc + norm (b, st) * f b, fcnt (emStat s) (S i))).
    { unfold em_term. unfold vat at 1. rewrite Est. cbn [bind]. rewrite H5. rewrite (vat_nth _ _ bed0) by exact Hi'. cbn [bind]. fold b.
      rewrite (fcnt_S _ _ _ Est). cbn [fst snd]. destruct st; cbn [fittable].
      - rewrite Eb. cbn [bind]. rewrite Hni, Nat.add_0_r. f_equal. f_equal. ring.
      - rewrite Hni. cbn [bind]. rewrite Eb. cbn [bind]. rewrite Nat.add_1_r. reflexivity.
      - rewrite Hni. cbn [bind]. rewrite Eb. cbn [bind]. rewrite Nat.add_1_r. reflexivity. }
    rewrite Estep. cbn [bind]. rewrite IH by lia. f_equal. f_equal; [|f_equal; lia].
    assert (Esk : skipn i (pairs s) = (b, st) :: skipn (S i) (pairs s)).
    { apply skipn_cons_nth. exact Hp. }
    rewrite Esk. cbn [map qsum fst]. ring.
Qed.

Lemma binProb_sum s k (norm : bed * nfs -> Qc) : em_inv s -> Forall (has_bin k) (pairs s) ->
  (forall s', em_reassert true s = (s', Ok tt) -> forall i b st, nth_error (pairs s) i = Some (b, st) ->
     match st with NFalse => norm (b, st) = 1 | NDirect => vat (emNorms s') i = Ok (norm (b, st))
                 | NIndirect => vat (emFit s') (fcnt (emStat s) i) = Ok (norm (b, st)) end) ->
  snd (em_binProb s k) = Ok (qsum (map (fun p => norm p * cont (bdHist (fst p)) k) (pairs s))).
Proof.
  intros I Hb Hn. destruct (reassert_ok true s I) as [s' [E [T _]]]. pose proof (structure_inv _ _ T I) as I'.
  pose proof I' as [H1 [_ [_ [_ [H5 _]]]]]. specialize (Hn s' E). unfold em_binProb. rewrite E. cbn [snd].
  pose proof (structure_pairs _ _ T) as Ep. pose proof T as [_ [_ [Es _]]].
  pose proof (sum_loop s' (fun w => getBinContent (bdHist w) k) (fun b => cont (bdHist b) k) norm H1 H5) as L.
  rewrite H5. change 0%nat with (fcnt (emStat s') 0) at 2. rewrite L with (k := List.length (emOrig s')) (i := 0%nat).
  - unfold rmap. cbn [bind oor_to_logic fst skipn]. rewrite Ep. f_equal. ring.
  - intros b Hin. apply In_nth with (d := bed0) in Hin as [j [Hj <-]]. 
    assert (Hp := pairs_nth s' j H1 Hj). rewrite Ep in Hp. apply nth_error_In in Hp. rewrite Forall_forall in Hb.
    destruct (Hb _ Hp) as [R Hk]. cbn [fst] in *. unfold getBinContent.
    destruct (Nat.ltb_spec (hNBins (bdHist (nth j (emOrig s') bed0))) k); [lia|]. apply vidx_nth.
    apply h_reach_ok in R. destruct R as [_ [_ [_ [_ ->]]]]. exact Hk.
  - intros i b st Hi. rewrite Ep in Hi. specialize (Hn i b st Hi). rewrite Es. exact Hn.
  - reflexivity.
Qed.

Lemma direct_first_cnt (ps : list (bed * nfs)) : direct_first ps -> forall i b, nth_error ps i = Some (b, NDirect) ->
  cnt true (map snd ps) i = fcnt (map snd ps) i.
Proof.
  intros H i b Hi. unfold cnt, fcnt. f_equal. apply filter_ext_in. intros x Hx.
  apply In_nth_error in Hx as [j Hj].
  assert (Hjlt : (j < i)%nat).
  { destruct (Nat.lt_ge_cases j i) as [|C]; [assumption|]. exfalso.
    assert (nth_error (firstn i (map snd ps)) j = None) by (apply nth_error_None; rewrite firstn_length; lia). congruence. }
  assert (Hj' : nth_error (map snd ps) j = Some x).
  { clear -Hj. revert j Hj. generalize (map snd ps) as l. intros l. revert i. induction l as [|y l IH]; intros [|i] [|j] H; cbn in *; try discriminate; auto. eapply IH; eauto. }
  destruct x; cbn; try reflexivity. exfalso.
  rewrite nth_error_map in Hj'. destruct (nth_error ps j) as [[b' st']|] eqn:E; cbn in Hj'; [|discriminate]. injection Hj' as ->.
  specialize (H j i b' b E Hi). lia.
Qed.

Lemma weights s d : em_inv s -> NoDup (fitted (pairs s)) -> direct_first (pairs s) -> holds s d ->
  forall s', em_reassert true s = (s', Ok tt) -> forall i b st, nth_error (pairs s) i = Some (b, st) ->
     match st with NFalse => norm_in d (b, st) = 1 | NDirect => vat (emNorms s') i = Ok (norm_in d (b, st))
                 | NIndirect => vat (emFit s') (fcnt (emStat s) i) = Ok (norm_in d (b, st)) end.
Proof.
  intros I2 Hnd Hdf H2 s' E i b st Hi.
  destruct (reassert_ok true s I2) as [s2 [E2 [T [F [A1 A2]]]]]. rewrite E in E2. injection E2 as <-.
  pose proof I2 as [L1 [L2 [L3 [L4 [L5 _]]]]]. pose proof (pairs_stat s L1) as Es.
  assert (Hlt : (i < List.length (emOrig s))%nat).
  { assert (i < List.length (pairs s))%nat by (apply nth_error_Some; congruence). unfold pairs in H. rewrite combine_length in H. lia. }
  destruct st; cbn [norm_in fittable snd fst].
  - reflexivity.
  - pose proof (fitted_nth (pairs s) i b NDirect Hi eq_refl) as Hf. rewrite Es in Hf. pose proof (H2 _ _ Hf) as Hh.
    unfold norm_in. cbn [fittable snd fst]. rewrite Hh. destruct (emAllDir s) eqn:Ea.
    + rewrite (A1 eq_refl). rewrite (vat_nth _ _ 0) by lia. f_equal. unfold cont_of. rewrite Ea.
      assert (Ei : fcnt (emStat s) i = i).
      { unfold fcnt. assert (Hall : forall x, In x (emStat s) -> x = NDirect).
        { intros x Hx. symmetry in L4. rewrite forallb_forall in L4. specialize (L4 x Hx). destruct x; try discriminate; reflexivity. }
        rewrite filter_all.
        - rewrite firstn_length. lia.
        - intros x Hx. assert (Hx' : In x (emStat s)).
          { clear -Hx. revert i Hx. induction (emStat s) as [|y l IH]; intros [|i] H; cbn in H; try tauto. destruct H as [<-|H]; [now left|right; eauto]. }
          rewrite (Hall x Hx'). reflexivity. }
      rewrite Ei. reflexivity.
    + assert (L2' : (i < List.length (emNorms s'))%nat).
      { destruct T as [_ [_ [_ [_ [_ [-> _]]]]]]. lia. }
      rewrite (vat_nth _ _ 0) by exact L2'. f_equal. rewrite (A2 eq_refl).
      assert (Ei : nth_error (emStat s) i = Some NDirect) by (rewrite <- Es, nth_error_map, Hi; reflexivity).
      rewrite Ei. cbn [sel is_direct]. rewrite <- Es. rewrite (direct_first_cnt _ Hdf i b Hi). rewrite Es. unfold cont_of. rewrite Ea. reflexivity.
  - pose proof (fitted_nth (pairs s) i b NIndirect Hi eq_refl) as Hf. rewrite Es in Hf. pose proof (H2 _ _ Hf) as Hh.
    unfold norm_in. cbn [fittable snd fst]. rewrite Hh.
    assert (Ea : emAllDir s = false).
    { rewrite L4. destruct (forallb is_direct (emStat s)) eqn:C; [|reflexivity]. exfalso.
      rewrite forallb_forall in C. specialize (C NIndirect). discriminate C. rewrite <- Es. apply in_map_iff. exists (b, NIndirect). split; [reflexivity|]. eapply nth_error_In; eassumption. }
    rewrite F. unfold cont_of. rewrite Ea. rewrite (vat_nth _ _ 0); [reflexivity|].
    rewrite L3. apply nth_error_Some. rewrite Hf. discriminate.
Qed.
Lemma binprob_holds s d k : em_inv s -> NoDup (fitted (pairs s)) -> direct_first (pairs s) -> Forall (has_bin k) (pairs s) -> holds s d ->
  snd (em_binProb s k) = Ok (qsum (map (fun p => norm_in d p * cont (bdHist (fst p)) k) (pairs s))).
Proof. intros I2 Hnd Hdf Hb H2. apply binProb_sum; auto. exact (weights s d I2 Hnd Hdf H2). Qed.
Lemma binprob_pkg ops d reads k : let pdfs := pdfs_of ops in
  NoDup (fitted pdfs) -> direct_first pdfs -> Forall (has_bin k) pdfs -> (forall n, In n (fitted pdfs) -> has_key d n) ->
  Forall asks reads ->
  exists s, em_setAll (emrun em_new ops) d = (s, Ok tt) /\
    snd (em_binProb (emrun s reads) k) = Ok (qsum (map (fun p => norm_in d p * cont (bdHist (fst p)) k) pdfs)).
Proof.
  cbv zeta. intros Hnd Hdf Hb Hd Hr. destruct (history_ok ops) as [I P]. rewrite <- P in *.
  destruct (setAll_holds _ d I Hnd Hd) as [s1 [E [I1 [T1 H1]]]]. exists s1. split; [exact E|].
  destruct (emrun_ok reads s1 I1) as [I2 [P2 T2]]. specialize (T2 Hr).
  pose proof (asks_holds reads s1 d I1 Hr H1) as H2. set (s := emrun s1 reads) in *.
  assert (Ep : pairs s = pairs (emrun em_new ops)) by (rewrite (structure_pairs _ _ T2); apply structure_pairs; exact T1).
  rewrite <- Ep in *. clear P2 T2 T1 E H1 I1 P I Ep. clearbody s. clear s1 Hr.
  apply binprob_holds; auto.
Qed.

(** SetNormalisations *)
Lemma setnorms_pkg ops l k : let pdfs := pdfs_of ops in
  (List.length l <> List.length pdfs -> em_setNorms (emrun em_new ops) l = (emrun em_new ops, Throw LogicError)) /\
  (List.length l = List.length pdfs -> all_direct pdfs -> Forall (has_bin k) pdfs ->
   exists s, em_setNorms (emrun em_new ops) l = (s, Ok tt) /\
     snd (em_binProb s k) = Ok (qsum (map (fun q => snd q * cont (bdHist (fst (fst q))) k) (combine pdfs l)))).
Proof.
  cbv zeta. destruct (history_ok ops) as [I P]. rewrite <- P. set (s := emrun em_new ops) in *.
  pose proof I as [L1 [L2 [L3 [L4 [L5 _]]]]].
  assert (Hlen : List.length (pairs s) = List.length (emOrig s)) by (unfold pairs; rewrite combine_length; lia).
  unfold em_setNorms. split.
  - intros H. destruct (Nat.eqb_spec (List.length l) (List.length (emOrig s))); [lia|reflexivity].
  - intros H Hd Hb. destruct (Nat.eqb_spec (List.length l) (List.length (emOrig s))); [|lia]. cbn [negb].
    eexists. split; [reflexivity|]. set (s1 := em_setNormsC s l).
    assert (T : same_structure s s1) by (apply setNormsC_structure; lia).
    pose proof (structure_inv _ _ T I) as I1. pose proof (structure_pairs _ _ T) as Ep.
    assert (Ea : emAllDir s1 = true).
    { change (emAllDir s = true). rewrite L4. apply forallb_forall. intros x Hx. rewrite <- (pairs_stat s L1) in Hx.
      apply in_map_iff in Hx as [[b st] [<- Hx]]. unfold all_direct in Hd. rewrite Forall_forall in Hd. specialize (Hd _ Hx). cbn in *. now subst. }
    destruct (reassert_ok true s1 I1) as [s2 [E2 [_ [_ [A1 _]]]]]. specialize (A1 Ea). subst s2.
    unfold em_binProb. rewrite E2. cbn [snd].
    (* all contributions are direct *)
    assert (G : forall n i acc j, (i + n = List.length (emOrig s))%nat ->
      exists j', foldM (em_term s1 (fun w => getBinContent (bdHist w) k)) (seq i n) (acc, j) =
        Ok (acc + qsum (map (fun q => snd q * cont (bdHist (fst (fst q))) k) (skipn i (combine (pairs s) l))), j')).
    { induction n as [|n IH]; intros i acc j Hi; cbn [seq foldM].
      - exists j. rewrite skipn_all2 by (rewrite combine_length; lia). cbn. f_equal. f_equal. ring.
      - assert (Hi' : (i < List.length (emOrig s))%nat) by lia. pose proof (pairs_nth s i L1 Hi') as Hp.
        set (b := nth i (emOrig s) bed0) in *. set (st := nth i (emStat s) NFalse) in *.
        assert (Est : nth_error (emStat s) i = Some st) by (apply nth_error_nth'; lia).
        assert (st = NDirect) as Esd.
        { unfold all_direct in Hd. rewrite Forall_forall in Hd. apply nth_error_In in Hp as Hin. apply (Hd _ Hin). }
        assert (Hg : getBinContent (bdHist b) k = Ok (cont (bdHist b) k)).
        { apply nth_error_In in Hp as Hin. rewrite Forall_forall in Hb. destruct (Hb _ Hin) as [R Hk]. cbn [fst] in *. unfold getBinContent.
          destruct (Nat.ltb_spec (hNBins (bdHist b)) k); [lia|]. apply vidx_nth. apply h_reach_ok in R. destruct R as [_ [_ [_ [_ ->]]]]. exact Hk. }
        assert (Estep : em_term s1 (fun w => getBinContent (bdHist w) k) (acc, j) i = Ok (acc + nth i l 0 * cont (bdHist b) k, S j)).
        { unfold em_term. change (emStat s1) with (emStat s). change (emWork s1) with (emWork s). change (emNorms s1) with l.
          unfold vat at 1. rewrite Est, Esd. cbn [bind]. rewrite L5, (vat_nth _ _ bed0) by exact Hi'. cbn [bind]. fold b.
          rewrite (vat_nth _ _ 0) by lia. cbn [bind]. rewrite Hg. reflexivity. }
        rewrite Estep. cbn [bind]. destruct (IH (S i) (acc + nth i l 0 * cont (bdHist b) k) (S j)) as [j' E']; [lia|].
        exists j'. rewrite E'. f_equal. f_equal.
        assert (Esk : skipn i (combine (pairs s) l) = ((b, st), nth i l 0) :: skipn (S i) (combine (pairs s) l)).
        { assert (Hc : nth_error (combine (pairs s) l) i = Some ((b, st), nth i l 0)).
          { rewrite (nth_error_nth' _ ((bed0, NFalse), 0)) by (rewrite combine_length; lia).
            rewrite combine_nth by lia. f_equal. f_equal. apply nth_error_nth with (d := (bed0, NFalse)) in Hp. exact Hp. }
          apply skipn_cons_nth. exact Hc. }
        rewrite Esk. cbn [map qsum fst snd]. ring. }
    change (emWork s1) with (emWork s). rewrite L5. destruct (G (List.length (emOrig s)) 0%nat 0 0%nat) as [j' ->]; [lia|].
    unfold rmap. cbn [bind oor_to_logic fst skipn]. f_equal. ring.
Qed.

(** ** Adding a pdf later *)
Lemma get_value s n v : em_inv s -> em_get s n = Ok v -> exists i l,
  nth_error (fitted (pairs s)) i = Some n /\ sfind n (pmPtrs (emPm s)) = Some l /\ l = LElem (cont_of s) i /\
  nth_error (mCnt (pmMem (emPm s)) (cont_of s)) i = Some v.
Proof.
  intros I E. pose proof I as [_ [_ [_ [_ [_ [[W L] [H7 _]]]]]]]. unfold em_get in E.
  destruct (sfind n (pmPtrs (emPm s))) as [l|] eqn:B; [|rewrite (pm_get_unbound _ _ B) in E; discriminate].
  rewrite (pm_get_bound _ _ _ B (L n l B)) in E. destruct (H7 n l B) as [i [Hi ->]]. exists i, (LElem (cont_of s) i).
  split; [exact Hi|]. split; [reflexivity|]. split; [reflexivity|]. cbn [deref] in E. destruct (nth_error _ i); congruence.
Qed.
Lemma add_keeps_pkg ops b st n v : let pdfs := pdfs_of ops in
  NoDup (fitted (pdfs ++ [(b, st)])) -> (~ all_direct pdfs \/ st = NDirect) ->
  em_get (emrun em_new ops) n = Ok v ->
  exists s', em_addPdf (emrun em_new ops) b st = (s', Ok tt) /\ em_get s' n = Ok v /\
    (fittable st = true -> em_get s' (bdName b) = Ok 0).
Proof.
  cbv zeta. destruct (history_ok ops) as [I P]. rewrite <- P. set (s := emrun em_new ops) in *. intros Hnd Hsw E.
  destruct (addPdf_ok s b st I) as [s' [Ea [I' [P' [N' [F' D']]]]]]. exists s'. split; [exact Ea|].
  assert (Hc : cont_of s' = cont_of s).
  { unfold cont_of. rewrite D'. destruct Hsw as [Hn| ->]; [|reflexivity]. destruct (emAllDir s) eqn:A; [|destruct (is_direct st); reflexivity].
    exfalso. apply Hn. pose proof I as [L1 [_ [_ [L4 _]]]]. rewrite A in L4. symmetry in L4. rewrite forallb_forall in L4.
    unfold all_direct. rewrite Forall_forall. intros [b0 st0] Hin. cbn. specialize (L4 st0). destruct st0; try reflexivity.
    - discriminate L4. rewrite <- (pairs_stat s L1). apply in_map_iff. exists (b0, NFalse). auto.
    - discriminate L4. rewrite <- (pairs_stat s L1). apply in_map_iff. exists (b0, NIndirect). auto. }
  assert (Ec : exists tl, mCnt (pmMem (emPm s')) (cont_of s') = mCnt (pmMem (emPm s)) (cont_of s) ++ tl /\ (fittable st = true -> tl = [0])).
  { rewrite Hc. unfold cont_of. destruct (emAllDir s).
    - exists [0]. split; [exact N'|auto].
    - fold (emFit s') (emFit s). rewrite F'. destruct (fittable st); [exists [0]; auto|exists []; rewrite app_nil_r; split; [reflexivity|discriminate]]. }
  destruct Ec as [tl [Ec Etl]].
  pose proof I' as [_ [_ [L3' [L4' [_ [[W' LO'] [_ [_ H9']]]]]]]]. rewrite P' in *. specialize (H9' Hnd).
  destruct (get_value s n v I E) as [i [l [Hi [B [-> Hv]]]]]. split.
  - assert (B' : sfind n (pmPtrs (emPm s')) = Some (LElem (cont_of s') i)).
    { apply H9'. rewrite fitted_app. rewrite nth_error_app1; [exact Hi|]. apply nth_error_Some. rewrite Hi. discriminate. }
    unfold em_get. rewrite (pm_get_bound _ _ _ B' (LO' _ _ B')). cbn [deref]. rewrite Ec.
    rewrite nth_error_app1; [rewrite Hv; reflexivity|]. apply nth_error_Some. rewrite Hv. discriminate.
  - intros Hst. rewrite (Etl Hst) in Ec.
    assert (B' : sfind (bdName b) (pmPtrs (emPm s')) = Some (LElem (cont_of s') (List.length (fitted (pairs s))))).
    { apply H9'. rewrite fitted_app. rewrite nth_error_app2 by lia. rewrite Nat.sub_diag. cbn. unfold fitted. cbn. rewrite Hst. reflexivity. }
    unfold em_get. rewrite (pm_get_bound _ _ _ B' (LO' _ _ B')). cbn [deref]. rewrite Ec.
    assert (Hlen : List.length (mCnt (pmMem (emPm s)) (cont_of s)) = List.length (fitted (pairs s))).
    { pose proof I as [L1 [L2 [L3 [L4 _]]]]. unfold cont_of. destruct (emAllDir s) eqn:A; [|exact L3]. fold (emNorms s). rewrite L2.
      unfold pairs. rewrite fitted_alldir; [now rewrite map_length|exact L1|now rewrite <- L4]. }
    rewrite <- Hlen. rewrite nth_error_app2 by lia. rewrite Nat.sub_diag. reflexivity.
Qed.
