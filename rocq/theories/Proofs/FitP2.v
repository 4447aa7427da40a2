From Coq Require Import ZArith Reals Lia.
From Verif Require Import Base.Res Base.Num Base.RNum Base.SMap Model.Axis Model.Event Model.Cut Model.Hist Model.ED Model.Param Model.Matrix Model.SystMan Model.Shrink Model.EDMan
  Model.Fill Model.Constraint Model.NLLH Model.Grid Model.Fit Spec.AxisSpec Spec.HistSpec Spec.ParamSpec Spec.EDManSpec Spec.SystManSpec Spec.NLLHSpec Spec.NLLHSysSpec Spec.GridSpec Spec.FitSpec
  Proofs.ParamP Proofs.ParamP3 Proofs.EDManP Proofs.NLLHS1 Proofs.NLLHS2 Proofs.NLLHS4 Proofs.NLLHS5 Proofs.NLLHS8 Proofs.GridP3 Proofs.GridP4 Proofs.FitP.
From Coq Require Import Lra.
Local Open Scope res_scope.

Lemma nlrun_app s a b : nlrun s (a ++ b) = nlrun (nlrun s a) b.
Proof. unfold nlrun. apply fold_left_app. Qed.
Lemma same_walk g f fuel : forall vals r0 r, gLoop g one fuel vals r0 = Ok r -> exists pts, grSeen r = grSeen r0 ++ pts /\
  forall fr, (forall p, In p pts -> exists v, f p = Ok v) -> exists r', gLoop g f fuel vals fr = Ok r' /\ grSeen r' = grSeen fr ++ pts.
Proof.
  induction fuel as [|fuel IH]; intros vals r0 r E; [discriminate|]. cbn [gLoop] in *. destruct (gInc g _ 0 _ vals) as [[b v]| | | |]; cbn [bind fst snd] in *; try discriminate. destruct b.
  - unfold one in E at 1. cbn [bind] in E. apply IH in E as [pts [E1 E2]]. exists (v :: pts). split.
    + rewrite E1. destruct (_ || _); cbn [grSeen]; rewrite <- app_assoc; reflexivity.
    + intros fr Hp. destruct (Hp v (or_introl eq_refl)) as [e Ee]. rewrite Ee. cbn [bind]. match goal with |- exists r', gLoop _ _ _ _ ?R = _ /\ _ => destruct (E2 R (fun p H => Hp p (or_intror H))) as [r' [X Y]] end. exists r'. split; [exact X|]. rewrite Y. match goal with |- context [if ?b then mkGres _ _ _ else _] => destruct b end; cbn [grSeen]; rewrite <- app_assoc; reflexivity.
  - injection E as <-. exists []. split; [now rewrite app_nil_r|]. intros fr _. exists fr. split; [reflexivity|now rewrite app_nil_r].
Qed.
Lemma same_order g f r r1 : ends g one (Ok r) -> ends g f (Ok r1) -> (forall p, In p (grSeen r) -> exists v, f p = Ok v) -> grSeen r1 = grSeen r.
Proof.
  intros [n E] [n1 E1] H. specialize (E (n + n1)%nat ltac:(lia)). specialize (E1 (n + n1)%nat ltac:(lia)). unfold gOptimise in *. destruct (_ || _); [discriminate|].
  destruct (mapM (gCount g) (grMin g)) as [l| | | |]; cbn [bind] in *; try discriminate.
  apply (same_walk g f) in E as [pts [X1 X2]]. cbn [grSeen app] in X1. subst pts. destruct (X2 (mkGres sempty 0 []) H) as [r' [X Y]]. rewrite X in E1. injection E1 as <-. exact Y.
Qed.
Lemma fit_pkg names par build obs ops D g m : let pdfs := NLLHSpec.added ops in
  (forall q, comp_ok (par q) /\ ~ is_dict (par q)) -> (forall q c c', comp_ok c -> comp_ok c' -> same_params c c' -> build q c = build q c') ->
  Forall (steady obs) ops -> distinct_names names ops -> bb_in ops = false ->
  data_in ops = Some D -> h_reach (bdHist D) -> NoDup (fitted pdfs) -> direct_first pdfs -> covers D pdfs ->
  well_set g -> List.length (grMin g) = (2 * m)%nat -> (forall n, In n (fitted pdfs) -> has_key (grMin g) n) -> (forall q n, is_sys names ops q -> In n (c_names (par q)) -> has_key (grMin g) n) ->
  (forall p, on_grid g p -> responds names par build ops p /\ exists v, value_at names par build ops p = Ok v) ->
  exists s' r, fends g (nlrun (nl_new names par build) ops) s' r /\ NoDup (fSeen r) /\
    (forall p, In p (fSeen r) <-> on_grid g p /\ p <> grMin g /\ forall k, In k (skipn (m + 1) (skeys (grMin g))) -> val p k = val (grMin g) k) /\
    (forall f, (forall p, on_grid g p -> exists v, f p = Ok v) -> exists r1, ends g f (Ok r1) /\ grSeen r1 = fSeen r) /\
    (fSeen r <> [] -> (forall p, In p (fSeen r) -> value_at names par build ops p <> Ok 0%R) ->
       In (fBest r) (fSeen r) /\ (exists e, value_at names par build ops (fBest r) = Ok e /\ fVal r = rscore g e) /\
       forall p e, In p (fSeen r) -> value_at names par build ops p = Ok e -> (fVal r <= rscore g e)%R) /\
    (forall pre p, fSeen r = pre ++ [p] -> nl_getParams s' = nl_getParams (at_point names par build ops p) /\ snd (nl_eval s') = value_at names par build ops p).
Proof.
  cbv zeta. intros Hpar HB F Hdn Hbb Hdat HD Hnd Hdf Hcov W L Hk Hks Hp.
  destruct (tuning_app ops [NReg] ltac:(repeat constructor)) as [Ta [Ts [Td [Tc [Tb [_ Tf]]]]]].
  assert (Gi : forall g, group_in names (ops ++ [NReg]) g = group_in names ops g) by (intros h; unfold group_in; now rewrite Ts).
  assert (Is : forall q, is_sys names (ops ++ [NReg]) q <-> is_sys names ops q) by (intros q; unfold is_sys; split; intros [h H]; exists h; [rewrite <- Gi|rewrite Gi]; exact H).
  assert (Ao : forall b, acting_on names (ops ++ [NReg]) b = acting_on names ops b).
  { intros b. unfold acting_on. rewrite Ts. destruct (regd _ _) as [gs|]; [|reflexivity]. unfold acting. rewrite Gi. f_equal. apply flat_map_ext, Gi. }
  set (B := nlrun (nl_new names par build) (ops ++ [NReg])).
  set (V := fun p => match value_at names par build ops p with Ok v => v | _ => 0%R end).
  assert (HV : forall p, on_grid g p -> value_at names par build ops p = Ok (V p)) by (intros p H; destruct (Hp p H) as [_ [v E]]; unfold V; now rewrite E).
  assert (Hkey : forall p n, on_grid g p -> has_key (grMin g) n -> has_key p n).
  { intros p n [E _] [x H]. apply sfind_in. rewrite E. apply in_map_iff. exists (n, x). split; [reflexivity|]. apply sfind_In; [apply W|exact H]. }
  assert (Wp : forall p, on_grid g p -> swf p) by (intros p [E _]; unfold swf; rewrite E; apply W).
  (** at any moment of the search *)
  assert (Any : forall ts p k, Forall tuning ts -> on_grid g p -> exists s2, nl_setParams (nlrun B ts) p = (s2, Ok tt) /\
    let e2 := nlrun s2 (repeat NEval k) in nl_getParams e2 = nl_getParams (at_point names par build ops p) /\ snd (nl_eval e2) = value_at names par build ops p).
  { intros ts p k T G. destruct (function_pkg names par build obs (ops ++ [NReg]) ts p D 0 k) as [s1 [s2 [E1 [E2 E3]]]]; rewrite ?Ta, ?Tb, ?Td; auto.
    - exists ops, []. split; [reflexivity|constructor].
    - intros q q' H H'. apply Hdn; now apply Is.
    - intros q n H H'. apply Hkey; [exact G|]. apply (Hks q n); [now apply Is|exact H'].
    - rewrite nlrun_app in E2. fold B in E1, E2. exists s2. split; [exact E2|]. cbv zeta. assert (Ea : at_point names par build ops p = s1) by (unfold at_point; fold B; now rewrite E1).
      destruct (Hp p G) as [[R1 [R2 R3]] _]. rewrite Ea in R1, R2, R3. cbv zeta in E3. rewrite Ta in E3.
      destruct E3 as [X Y]; [intros q H; apply R1; now apply Is| |].
      + split; [intros h; rewrite Gi; apply R2|]. intros b Hb. rewrite Ao. now apply R3.
      + unfold value_at. rewrite Ea. cbn [repeat nlrun fold_left] in X, Y. auto. }
  destruct (even_pkg g one m W L) as [r [[n E] [ND [Ch _]]]]; [intros p _; eexists; reflexivity|].
  assert (HF : forall ts p, Forall tuning ts -> on_grid g p -> exists s1, nl_setParams (nlrun B ts) p = (s1, Ok tt) /\ snd (nl_eval s1) = Ok (V p)).
  { intros ts p T G. destruct (Any ts p 0%nat T G) as [s2 [E1 [_ E2]]]. exists s2. split; [exact E1|]. cbn in E2. rewrite E2. now apply HV. }
  assert (Hg : forall p, In p (grSeen r) -> on_grid g p) by (intros p H; now apply Ch in H).
  assert (Hget : exists q, nl_getParams B = Ok q).
  { assert (K0 : skel (nlSm (nl_new names par build)) (nlSm (nl_new names par build))) by (split; [reflexivity|split; [reflexivity|intros; reflexivity]]).
    destruct (nlrunS names par build obs (ops ++ [NReg]) (nl_new names par build) None _ (calmS_new names par build obs (fun q => proj1 (Hpar q))) K0 (Tf obs F) I) as [A1 _].
    eapply getParams_calm. exact A1. }
  pose proof (run_ends g B V (on_grid g) HF r n E Hg (nlrun (nl_new names par build) ops)) as Rn.
  specialize (Rn ltac:(unfold B; rewrite nlrun_app; reflexivity) Hget).
  eexists _, _. split; [exists n; exact Rn|]. rewrite fold_seen. cbn [fSeen app]. split; [exact ND|]. split; [exact Ch|]. split.
  { intros f Hf. destruct (even_pkg g f m W L Hf) as [r1 [E1 _]]. exists r1. split; [exact E1|]. apply (same_order g f r r1 (ex_intro _ n E) E1). intros p H. apply Hf, Hg, H. }
  split.
  - intros Ne Hz. destruct (fold_best_pkg g V (grSeen r) Ne) as [X1 [X2 X3]].
    + intros p H C. specialize (Hz p H). rewrite HV in Hz by now apply Hg. congruence.
    + split; [exact X1|]. split; [exists (V (fBest (fold_best g V (grSeen r) (mkFres sempty 0 [])))); split; [apply HV, Hg, X1|exact X2]|].
      intros p e H Ee. rewrite HV in Ee by now apply Hg. injection Ee as <-. now apply X3.
  - intros pre p Ep. rewrite Ep. assert (G : on_grid g p) by (apply Hg; rewrite Ep; apply in_or_app; right; now left).
    replace (visits (pre ++ [p])) with (visits pre ++ visit p) by (unfold visits; rewrite flat_map_app; reflexivity). rewrite nlrun_app.
    destruct (Any (visits pre) p 1%nat (visits_tuning pre) G) as [s2 [E1 E2]]. unfold visit, nlrun at 1 3. cbn [fold_left nldo]. rewrite E1. exact E2.
Qed.
