(** The pdf manager when the working pdfs are distorted copies of the originals (C89). *)
From Coq Require Import ZArith Lia.
From Verif Require Import Base.Res Base.Num Base.SMap Model.Axis Model.Event Model.Hist Model.ED Model.Param Model.Matrix Model.SystMan Model.EDMan
  Spec.AxisSpec Spec.HistSpec Spec.ParamSpec Spec.EDManSpec Spec.SystManSpec Proofs.AxisP Proofs.HistP Proofs.HistP2 Proofs.ParamP Proofs.EDManP Proofs.EDManP2
  Proofs.SystManP Proofs.SystManP2.
Local Open Scope Qc_scope.
Local Open Scope res_scope.

Definition setOW (o w : list bed) (s : edman) : edman := mkEm (emPm s) o w (emStat s) (emAllDir s).
Definition view (s : edman) : edman := setOW (emWork s) (emWork s) s.
Lemma reassert_swap c o w s : em_reassert c (setOW o w s) = (setOW o w (fst (em_reassert c s)), snd (em_reassert c s)).
Proof.
  unfold em_reassert. cbn [setOW emAllDir emStat]. destruct (emAllDir s); [reflexivity|].
  assert (G : forall l (t : edman) j,
    iterS (fun (st : edman * nat) i => obind st (vat (emStat s) i) (fun x =>
             if (if c then is_direct x else is_indirect x)
             then obind st (vat (emFit s) (snd st)) (fun v => ((em_setNormsC (fst st) (upd (emNorms (fst st)) i v), S (snd st)), Ok tt))
             else (st, Ok tt))) l (setOW o w t, j) =
    let r := iterS (fun (st : edman * nat) i => obind st (vat (emStat s) i) (fun x =>
             if (if c then is_direct x else is_indirect x)
             then obind st (vat (emFit s) (snd st)) (fun v => ((em_setNormsC (fst st) (upd (emNorms (fst st)) i v), S (snd st)), Ok tt))
             else (st, Ok tt))) l (t, j) in ((setOW o w (fst (fst r)), snd (fst r)), snd r)).
  { induction l as [|i l IH]; intros t j; cbn [iterS]; [reflexivity|].
    destruct (vat (emStat s) i) as [x| | | |]; cbn [obind]; try reflexivity.
    destruct (if c then is_direct x else is_indirect x); [|apply IH].
    cbn [snd fst]. destruct (vat (emFit s) j) as [v| | | |]; cbn [obind]; try reflexivity.
    apply (IH (em_setNormsC t (upd (emNorms t) i v))). }
  change (emNorms (setOW o w s)) with (emNorms s). change (emFit (setOW o w s)) with (emFit s). rewrite G. cbv zeta.
  destruct (iterS _ (seq 0 (List.length (emNorms s))) (s, 0%nat)) as [[t j] r]. reflexivity.
Qed.
Definition reshaped (o w : bed) : Prop := exists c, w = with_contents o c /\ List.length c = List.length (hCont (bdHist o)).
Lemma reshaped_refl o : reshaped o o.
Proof. exists (hCont (bdHist o)). split; [symmetry; apply with_same|reflexivity]. Qed.
Definition em_inv2 (s : edman) : Prop := em_inv (setOW (emOrig s) (emOrig s) s) /\ Forall2 reshaped (emOrig s) (emWork s).

Lemma reshaped_names os ws : Forall2 reshaped os ws -> map bdName ws = map bdName os.
Proof. induction 1 as [|o w os ws [c [-> _]] F IH]; cbn; [reflexivity|]. now rewrite IH. Qed.
Lemma fitted_names (ws : list bed) : forall os sts, map bdName ws = map bdName os -> fitted (combine ws sts) = fitted (combine os sts).
Proof.
  induction ws as [|w ws IH]; intros [|o os] sts E; cbn in E; try discriminate; [reflexivity|]. injection E as E1 E2.
  destruct sts as [|st sts]; [reflexivity|]. specialize (IH os sts E2). unfold fitted in *. cbn [combine filter snd]. destruct (fittable st); cbn [map fst]; rewrite IH, ?E1; reflexivity.
Qed.
Lemma inv_change s os ws : em_inv (setOW os os s) -> map bdName ws = map bdName os -> em_inv (setOW ws ws s).
Proof.
  intros I E. assert (L : List.length ws = List.length os) by (rewrite <- (map_length bdName ws), E, map_length; reflexivity).
  pose proof (fitted_names ws os (emStat s) E) as Fn.
  destruct I as [H1 [H2 [H3 [H4 [H5 [H6 [H7 [H8 H9]]]]]]]]. unfold em_inv, pairs, cont_of, emNorms, emFit in *. cbn [setOW emPm emOrig emWork emStat emAllDir] in *.
  rewrite Fn, L. repeat (split; [assumption || reflexivity|]). auto.
Qed.
Lemma inv2_view s : em_inv2 s -> em_inv (view s) /\ fitted (pairs (view s)) = fitted (pairs s).
Proof.
  intros [I F]. pose proof (reshaped_names _ _ F) as E. split; [apply (inv_change s (emOrig s)); auto|].
  unfold pairs, view, setOW. cbn. apply fitted_names. exact E.
Qed.
Lemma holds_view s d : em_inv2 s -> (holds (view s) d <-> holds s d).
Proof. intros I. unfold holds. rewrite (proj2 (inv2_view s I)). reflexivity. Qed.
Lemma inv2_structure s s' : em_inv2 s -> same_structure s s' -> em_inv2 s'.
Proof.
  intros [I F] T. split; [|destruct T as [-> [-> _]]; exact F].
  assert (T' : same_structure (setOW (emOrig s) (emOrig s) s) (setOW (emOrig s') (emOrig s') s')).
  { destruct T as [A [B [C [D [E [G H]]]]]]. rewrite A. repeat split; assumption. }
  eapply structure_inv; eassumption.
Qed.
Lemma view_structure s s' : same_structure s s' -> same_structure (view s) (view s').
Proof. intros [A [B [C [D [E [F G]]]]]]. unfold view. rewrite B. repeat split; cbn; assumption. Qed.
Lemma reassert2 c s : em_inv2 s -> exists s', em_reassert c s = (s', Ok tt) /\ same_structure s s' /\ forall d, holds s d -> holds s' d.
Proof.
  intros I. destruct (inv2_view s I) as [Iv Fv]. destruct (reassert_ok c (view s) Iv) as [v [E [T _]]].
  unfold view in E. rewrite reassert_swap in E. destruct (em_reassert c s) as [s' r] eqn:Er. cbn [fst snd] in E. injection E as Ev ->.
  exists s'. split; [reflexivity|].
  assert (Sh : emOrig s' = emOrig s /\ emWork s' = emWork s /\ emStat s' = emStat s /\ emAllDir s' = emAllDir s).
  { destruct (inv2_view s I) as [_ _]. pose proof (reassert_swap c (emOrig s) (emOrig s) s) as Q.
    destruct (reassert_ok c _ (proj1 I)) as [u [Eu [Tu _]]]. rewrite Q, Er in Eu. cbn [fst snd] in Eu. injection Eu as Eu.
    destruct Tu as [_ [_ [C [D _]]]]. subst u. cbn in C, D.
    assert (O : emOrig s' = emOrig s /\ emWork s' = emWork s).
    { clear -Er. unfold em_reassert in Er. destruct (emAllDir s); [injection Er as <-; auto|].
      assert (G : forall l (t : edman) j, let r := iterS (fun (st : edman * nat) i => obind st (vat (emStat s) i) (fun x =>
             if (if c then is_direct x else is_indirect x)
             then obind st (vat (emFit s) (snd st)) (fun v => ((em_setNormsC (fst st) (upd (emNorms (fst st)) i v), S (snd st)), Ok tt))
             else (st, Ok tt))) l (t, j) in emOrig (fst (fst r)) = emOrig t /\ emWork (fst (fst r)) = emWork t).
      { induction l as [|i l IH]; intros t j; cbn [iterS]; [auto|]. destruct (vat (emStat s) i) as [x| | | |]; cbn [obind]; auto.
        destruct (if c then is_direct x else is_indirect x); [|apply IH]. cbn [snd fst]. destruct (vat (emFit s) j) as [v| | | |]; cbn [obind]; auto.
        apply (IH (em_setNormsC t (upd (emNorms t) i v))). }
      specialize (G (seq 0 (List.length (emNorms s))) s 0%nat). cbv zeta in G. destruct (iterS _ _ (s, 0%nat)) as [[t j] r]. injection Er as <- _. exact G. }
    tauto. }
  destruct Sh as [A [B [C D]]].
  assert (T' : same_structure s s').
  { destruct T as [_ [_ [_ [_ [T5 [T6 T7]]]]]]. subst v. repeat split; assumption. }
  split; [exact T'|]. intros d H. apply (holds_view s' d (inv2_structure _ _ I T')). apply (holds_view s d I) in H.
  assert (Ev2 : em_reassert c (view s) = (view s', Ok tt)).
  { unfold view at 1. rewrite reassert_swap, Er. cbn [fst snd]. unfold view. rewrite B. reflexivity. }
  pose proof (asks_holds [EReassert c] (view s) d Iv) as Q. cbn [emrun fold_left emdo] in Q. rewrite Ev2 in Q. apply Q; [repeat constructor|exact H].
Qed.
Lemma binProb_view s k : em_inv2 s -> em_binProb (view s) k = (view (fst (em_binProb s k)), snd (em_binProb s k)) /\ same_structure s (fst (em_binProb s k)) /\
  forall d, holds s d -> holds (fst (em_binProb s k)) d.
Proof.
  intros I. destruct (reassert2 true s I) as [s' [E [T H]]].
  assert (Ev : em_reassert true (view s) = (view s', Ok tt)).
  { unfold view at 1. rewrite reassert_swap, E. cbn [fst snd]. unfold view. destruct T as [_ [-> _]]. reflexivity. }
  unfold em_binProb. rewrite E, Ev. cbn [fst snd]. split; [|split; [exact T|exact H]]. reflexivity.
Qed.

(** what ApplySystematics keeps *)
Definition keeps (s s' : edman) : Prop :=
  emOrig s' = emOrig s /\ emStat s' = emStat s /\ emAllDir s' = emAllDir s /\ pmPtrs (emPm s') = pmPtrs (emPm s) /\
  List.length (emNorms s') = List.length (emNorms s) /\ emFit s' = emFit s /\ (emAllDir s = true -> emNorms s' = emNorms s).
Lemma keeps_refl s : keeps s s. Proof. repeat split. Qed.
Lemma keeps_trans a b c : keeps a b -> keeps b c -> keeps a c.
Proof. intros [A1 [A2 [A3 [A4 [A5 [A6 A7]]]]]] [B1 [B2 [B3 [B4 [B5 [B6 B7]]]]]]. repeat split; try congruence. intros H. rewrite B7 by congruence. auto. Qed.
Lemma keeps_holds s s' d : keeps s s' -> holds s d -> holds s' d.
Proof.
  intros [A1 [A2 [A3 [A4 [A5 [A6 A7]]]]]] H. unfold holds, pairs, cont_of in *. rewrite A1, A2, A3.
  intros i n Hi. rewrite (H i n Hi). f_equal. unfold emNorms, emFit in *. destruct (emAllDir s); [rewrite (A7 eq_refl)|rewrite A6]; reflexivity.
Qed.
Lemma keeps_inv2 s s' : em_inv2 s -> keeps s s' -> Forall2 reshaped (emOrig s) (emWork s') -> em_inv2 s'.
Proof.
  intros [I _] K F. pose proof K as [A1 [A2 [A3 [A4 [A5 [A6 A7]]]]]]. split; [|rewrite A1; exact F]. rewrite A1.
  assert (T : same_structure (setOW (emOrig s) (emOrig s) s) (setOW (emOrig s) (emOrig s) s')).
  { repeat split; cbn; auto. change (List.length (emFit s') = List.length (emFit s)). now rewrite A6. }
  eapply structure_inv; eassumption.
Qed.
Lemma applyGroup_shape m g b b' : sm_applyGroup m g b = Ok b' -> exists c, b' = with_contents b c /\ List.length c = hNBins (bdHist b).
Proof.
  unfold sm_applyGroup. destruct (sm_total m g) as [t| | | |]; cbn [bind]; try discriminate.
  destruct (m_apply t (hCont (bdHist b))) as [c| | | |]; cbn [bind]; try discriminate.
  unfold bed_setContents, bed_on, setBinContents. destruct (Nat.eqb_spec (List.length c) (hNBins (bdHist b))) as [E|E]; cbn [negb bed_ret bind]; [|discriminate].
  intros [= <-]. exists c. split; [|exact E]. unfold with_contents, bed_setHist. rewrite E. reflexivity.
Qed.
Lemma distort1_shape m gs o b : List.length (hCont (bdHist o)) = hNBins (bdHist o) -> sm_distort1 m gs o = Ok b -> reshaped o b.
Proof.
  intros L. unfold sm_distort1. destruct (sat EmptyString (smGroups m)) as [g0| | | |]; cbn [bind]; try discriminate.
  assert (K : forall b0, reshaped o b0 -> forall gs b, foldM (fun b g =>
           if String.eqb g EmptyString && Nat.eqb (List.length g0) 0 then Ok b
           else do l <- sat g (smGroups m);
                if Nat.eqb (List.length l) 0 then Throw LogicError else sm_applyGroup m g b) gs b0 = Ok b -> reshaped o b).
  { intros b0 R gs0. revert b0 R. induction gs0 as [|g t IH]; intros b0 R b1; cbn [foldM]; [intros [= <-]; exact R|].
    destruct (String.eqb g EmptyString && Nat.eqb (List.length g0) 0); [apply IH; exact R|].
    destruct (sat g (smGroups m)) as [l| | | |]; cbn [bind]; try discriminate. destruct (Nat.eqb (List.length l) 0); [discriminate|].
    destruct (sm_applyGroup m g b0) as [b2| | | |] eqn:E; cbn [bind]; try discriminate. apply IH.
    apply applyGroup_shape in E as [c [-> Lc]]. destruct R as [c0 [-> L0]]. exists c. split; [apply with_with|]. cbn in Lc. congruence. }
  destruct (negb (inb EmptyString gs) && negb (Nat.eqb (List.length g0) 0)).
  - destruct (sm_applyGroup m EmptyString o) as [b2| | | |] eqn:E; cbn [bind]; try discriminate. apply K.
    apply applyGroup_shape in E as [c [-> Lc]]. exists c. split; [reflexivity|congruence].
  - cbn [bind]. apply K. apply reshaped_refl.
Qed.
Lemma f2_upd {A B} (R : A -> B -> Prop) l r : Forall2 R l r -> forall j a b, nth_error l j = Some a -> R a b -> Forall2 R l (upd r j b).
Proof. induction 1 as [|x y l r Hxy F IH]; intros [|j] a b E Hab; cbn in *; try discriminate; constructor; auto; [congruence|eauto]. Qed.
Lemma distort_shape m origs : Forall (fun o => List.length (hCont (bdHist o)) = hNBins (bdHist o)) origs -> forall works norms works' norms',
  Forall2 reshaped origs works -> sm_distort m origs works norms = Ok (works', norms') ->
  Forall2 reshaped origs works' /\ (forall j o, nth_error origs j = Some o -> sfind (bdName o) (smDists m) = None -> nth_error works' j = nth_error works j) /\
  match norms, norms' with Some a, Some b => List.length b = List.length a | None, None => True | _, _ => False end.
Proof.
  intros L works norms works' norms'. unfold sm_distort.
  generalize (seq 0 (List.length works)). intros l. revert works norms.
  induction l as [|j l IH]; intros works norms F; cbn [foldM]; [intros [= <- <-]; split; [exact F|split; [reflexivity|destruct norms; auto]]|].
  unfold vat at 1. destruct (nth_error origs j) as [o|] eqn:Eo; cbn [bind]; [|discriminate].
  destruct (sfind (bdName o) (smDists m)) as [gs|] eqn:Eg; cbn [bind]; [|apply IH; exact F].
  destruct (sm_distort1 m gs o) as [b| | | |] eqn:Eb; cbn [bind]; try discriminate.
  assert (Rb : reshaped o b) by (eapply distort1_shape; [|exact Eb]; rewrite Forall_forall in L; apply L; eapply nth_error_In; exact Eo).
  pose proof (f2_upd _ _ _ F j o b Eo Rb) as F'.
  assert (U : forall j' o', nth_error origs j' = Some o' -> sfind (bdName o') (smDists m) = None -> nth_error (upd works j b) j' = nth_error works j').
  { intros j' o' E' N'. destruct (Nat.eq_dec j' j) as [->|Hne]; [congruence|]. clear -Hne. revert j j' Hne. induction works as [|w ws IH]; intros [|j] [|j'] Hne; cbn; auto; first [exfalso; lia|apply IH; lia]. }
  cbn [fst snd]. destruct norms as [ns|].
  - destruct (integral (bdHist b)) as [i| | | |]; cbn [bind]; try discriminate. destruct (Nat.ltb j (List.length ns)); cbn [bind]; [|discriminate].
    intros E. destruct (IH _ _ F' E) as [A [B C]]. split; [exact A|]. split; [intros j' o' E' N'; rewrite (B j' o' E' N'); eauto|].
    destruct norms'; [|exact C]. rewrite C. apply upd_length.
  - intros E. destruct (IH _ _ F' E) as [A [B C]]. split; [exact A|]. split; [intros j' o' E' N'; rewrite (B j' o' E' N'); eauto|exact C].
Qed.
Lemma vat_lt {A} (l : list A) i : (i < List.length l)%nat -> exists x, vat l i = Ok x.
Proof. intros H. unfold vat. destruct (nth_error l i) eqn:E; [eauto|]. apply nth_error_None in E. lia. Qed.
Lemma norms_loop_keeps l : forall s (ns : list Qc),  let r := iterS (fun s2 i =>
               obind s2 (vat (emStat s2) i) (fun st =>
               obind s2 (vat ns i) (fun n =>
               match st with
               | NFalse => (em_setNormsC s2 (upd (emNorms s2) i n), Ok tt)
               | NIndirect => (em_setNormsC s2 (upd (emNorms s2) i (nth i (emNorms s2) 0 * n)), Ok tt)
               | NDirect => (s2, Ok tt)
               end))) l s in
  emAllDir s = false -> keeps s (fst r) /\ emWork (fst r) = emWork s /\ ((forall i, In i l -> (i < List.length (emStat s))%nat /\ (i < List.length ns)%nat) -> snd r = Ok tt).
Proof.
  induction l as [|i l IH]; intros s ns; cbv zeta; cbn [iterS]; intros Ha; [split; [apply keeps_refl|auto]|].
  destruct (vat (emStat s) i) as [st| | | |] eqn:E1; cbn [obind fst snd].
  2-5: split; [apply keeps_refl|]; split; [reflexivity|]; intros H; destruct (H i (or_introl eq_refl)) as [H1 _]; destruct (vat_lt _ _ H1); congruence.
  destruct (vat ns i) as [n| | | |] eqn:E2; cbn [obind fst snd].
  2-5: split; [apply keeps_refl|]; split; [reflexivity|]; intros H; destruct (H i (or_introl eq_refl)) as [_ H1]; destruct (vat_lt _ _ H1); congruence.
  assert (K : forall v, keeps s (em_setNormsC s (upd (emNorms s) i v))).
  { intros v. repeat split; cbn; auto; [apply upd_length|congruence]. }
  assert (G : forall s1, keeps s s1 -> emWork s1 = emWork s -> keeps s (fst (iterS (fun s2 i =>
               obind s2 (vat (emStat s2) i) (fun st => obind s2 (vat ns i) (fun n =>
               match st with
               | NFalse => (em_setNormsC s2 (upd (emNorms s2) i n), Ok tt)
               | NIndirect => (em_setNormsC s2 (upd (emNorms s2) i (nth i (emNorms s2) 0 * n)), Ok tt)
               | NDirect => (s2, Ok tt) end))) l s1)) /\
       emWork (fst (iterS (fun s2 i =>
               obind s2 (vat (emStat s2) i) (fun st => obind s2 (vat ns i) (fun n =>
               match st with
               | NFalse => (em_setNormsC s2 (upd (emNorms s2) i n), Ok tt)
               | NIndirect => (em_setNormsC s2 (upd (emNorms s2) i (nth i (emNorms s2) 0 * n)), Ok tt)
               | NDirect => (s2, Ok tt) end))) l s1)) = emWork s /\
       ((forall j, In j (i :: l) -> (j < List.length (emStat s))%nat /\ (j < List.length ns)%nat) -> snd (iterS (fun s2 i =>
               obind s2 (vat (emStat s2) i) (fun st => obind s2 (vat ns i) (fun n =>
               match st with
               | NFalse => (em_setNormsC s2 (upd (emNorms s2) i n), Ok tt)
               | NIndirect => (em_setNormsC s2 (upd (emNorms s2) i (nth i (emNorms s2) 0 * n)), Ok tt)
               | NDirect => (s2, Ok tt) end))) l s1) = Ok tt)).
  { intros s1 K1 W1. assert (Ha1 : emAllDir s1 = false) by (destruct K1 as [_ [_ [-> _]]]; exact Ha).
    destruct (IH s1 ns Ha1) as [A [B C]]. cbv zeta in *. split; [eapply keeps_trans; eassumption|]. split; [rewrite B; exact W1|].
    intros H. apply C. intros j Hj. assert (Es : emStat s1 = emStat s) by apply K1. rewrite Es. apply H. now right. }
  destruct st; apply G; auto using keeps_refl.
Qed.
Definition sized_origs (s : edman) : Prop := Forall (fun o => List.length (hCont (bdHist o)) = hNBins (bdHist o)) (emOrig s).
Lemma systematics_keep s m : em_inv2 s -> sized_origs s -> let s' := fst (em_systematics s m) in
  keeps s s' /\ em_inv2 s' /\ (sm_count m = 0%nat -> emWork s' = emWork s) /\
  (forall j o, nth_error (emOrig s) j = Some o -> sfind (bdName o) (smDists m) = None -> nth_error (emWork s') j = nth_error (emWork s) j).
Proof.
  intros I L. cbv zeta. pose proof I as [_ F]. unfold em_systematics. destruct (Nat.eqb_spec (sm_count m) 0) as [E0|E0]; cbn [fst].
  { split; [apply keeps_refl|]. split; [exact I|]. auto. }
  assert (Q : forall norms works' norms', sm_distort m (emOrig s) (emWork s) norms = Ok (works', norms') -> keeps s (em_setWork s works') /\ em_inv2 (em_setWork s works') /\
     (forall j o, nth_error (emOrig s) j = Some o -> sfind (bdName o) (smDists m) = None -> nth_error works' j = nth_error (emWork s) j)).
  { intros norms works' norms' E. destruct (distort_shape m _ L _ _ _ _ F E) as [A [B _]].
    assert (K : keeps s (em_setWork s works')) by (repeat split). split; [exact K|]. split; [eapply keeps_inv2; eauto|exact B]. }
  destruct (emAllDir s) eqn:Ea.
  - destruct (sm_distort m (emOrig s) (emWork s) None) as [[w' n']| | | |] eqn:E; cbn [obind fst]; try (split; [apply keeps_refl|split; [exact I|auto]]).
    destruct (Q _ _ _ E) as [A [B C]]. split; [exact A|]. split; [exact B|]. split; [intros; contradiction|exact C].
  - destruct (sm_distort m (emOrig s) (emWork s) (Some (repeat 0 (List.length (emNorms s))))) as [[w' n']| | | |] eqn:E; cbn [obind fst snd]; try (split; [apply keeps_refl|split; [exact I|auto]]).
    destruct (Q _ _ _ E) as [A [B C]]. set (s1 := em_setWork s w') in *. set (ns := match n' with Some l => l | None => [] end).
    pose proof (norms_loop_keeps (seq 0 (List.length ns)) s1 ns) as HK. cbv zeta in HK. specialize (HK Ea). destruct HK as [K1 [W1 _]].
    split; [eapply keeps_trans; [exact A|exact K1]|]. split; [|split; [intros; contradiction|]].
    + eapply keeps_inv2; [exact B|exact K1|]. rewrite W1. exact (proj2 B).
    + intros j o Ho Hn. rewrite W1. apply (C j o Ho Hn).
Qed.
