(** C107: exchanging calls. *)
From Coq Require Import ZArith Reals Lia Permutation.
From Verif Require Import Base.Res Base.Num Base.RNum Base.SMap Model.Axis Model.Event Model.Cut Model.Hist Model.ED Model.Param Model.Matrix Model.SystMan Model.Shrink Model.EDMan
  Model.Fill Model.Constraint Model.NLLH Spec.AxisSpec Spec.HistSpec Spec.ParamSpec Spec.EDManSpec Spec.SystManSpec Spec.NLLHSpec Spec.NLLHSysSpec Spec.FitSpec Spec.AsimovSpec Spec.ClientSpec Spec.OrderSpec
  Proofs.ParamP3 Proofs.NLLHP2 Proofs.NLLHS7 Proofs.NLLHS8 Proofs.FitP2 Proofs.ClientP.
Local Open Scope Qc_scope.
Local Open Scope res_scope.

(** ** the spec of a history and an exchange *)
Lemma pdfs_split a b : forall bb, pdfs_from bb (a ++ b) = pdfs_from bb a ++ pdfs_from (fold_left (fun a o => match o with NBB b => b | _ => a end) a bb) b.
Proof.
  induction a as [|o a IH]; intros bb; [reflexivity|].
  destruct o as [x g [r|] st| | | | | | x | | | | | |]; cbn [app pdfs_from fold_left]; rewrite ?IH; try reflexivity. destruct bb; rewrite ?IH; reflexivity.
Qed.
Lemma calls_split a b : forall bb, sys_calls bb (a ++ b) = sys_calls bb a ++ sys_calls (fold_left (fun a o => match o with NBB b => b | _ => a end) a bb) b.
Proof.
  induction a as [|o a IH]; intros bb; [reflexivity|].
  destruct o as [x g [r|] st| | | | | | x | | | | | |]; cbn [app sys_calls fold_left]; rewrite ?IH; try reflexivity. destruct bb; cbn [app]; rewrite ?IH; reflexivity.
Qed.
Lemma swap_pdfs o o' b bb : exchangeable o o' -> Permutation (pdfs_from bb (o :: o' :: b)) (pdfs_from bb (o' :: o :: b)).
Proof.
  destruct o as [x g [r|] st| | | | | | y | | | | | |]; destruct o' as [x' g' [r'|] st'| | | | | | y' | | | | | |]; cbn; intros E; try contradiction; auto;
  destruct bb; try (apply Permutation_refl); try apply perm_swap.
Qed.
Lemma swap_fold {A} (f : A -> nlop -> A) a o o' b s : (forall s, f (f s o) o' = f (f s o') o) -> fold_left f (a ++ o :: o' :: b) s = fold_left f (a ++ o' :: o :: b) s.
Proof. intros E. rewrite !fold_left_app. cbn [fold_left]. now rewrite E. Qed.

(** ** what the systematics accept depends on the systematics added so far only *)
Definition asking (o : smop) : Prop := match o with Add _ _ | AddDist _ _ => True | _ => False end.
Lemma calls_asking ops : forall bb, Forall asking (sys_calls bb ops).
Proof.
  induction ops as [|o ops IH]; intros bb; [constructor|]. destruct o as [x g [r|] st| | | | | | x | | | | | |]; cbn [sys_calls]; auto.
  - constructor; [exact I|apply IH].
  - destruct bb; cbn [app]; [apply IH|constructor; [exact I|apply IH]].
  - constructor; [exact I|apply IH].
Qed.
Definition alike (s s' : sman) : Prop := smObj s = smObj s' /\ smGroups s = smGroups s'.
Lemma alike_call s s' o : asking o -> alike s s' -> alike (fst (smcall s o)) (fst (smcall s' o)) /\ snd (smcall s o) = snd (smcall s' o).
Proof.
  intros K [E1 E2]. destruct s as [ob ng to gr di], s' as [ob' ng' to' gr' di']. cbn in E1, E2. subst ob' gr'.
  destruct o as [p g|n gs| |]; cbn in K; try contradiction; cbn [smcall].
  - unfold sm_add. destruct (String.eqb g EmptyString); [|now split; [split|]].
    unfold sm_addGlobal. change (sm_checkOthers (mkSman ob ng' to' gr di') p) with (sm_checkOthers (mkSman ob ng to gr di) p).
    destruct (sm_checkOthers _ p); cbn; now split; [split|].
  - unfold sm_addDist. change (sm_unique (mkSman ob ng' to' gr di') gs) with (sm_unique (mkSman ob ng to gr di) gs).
    destruct (sm_unique _ gs); cbn; now split; [split|].
Qed.
Lemma alike_accepted l : Forall asking l -> forall s s', alike s s' -> accepted s l = accepted s' l.
Proof.
  induction 1 as [|o l K _ IH]; intros s s' E; [reflexivity|]. cbn [accepted]. destruct (alike_call s s' o K E) as [E1 E2]. rewrite E2. f_equal. now apply IH.
Qed.
Lemma accepted_split a b : forall s, accepted s (a ++ b) = accepted s a ++ accepted (smrun s a) b.
Proof. induction a as [|o a IH]; intros s; [reflexivity|]. cbn [app accepted smrun]. now rewrite IH, app_assoc. Qed.
Lemma dist_alike s n gs : alike (fst (smcall s (AddDist n gs))) s.
Proof. cbn [smcall]. unfold sm_addDist. destruct (sm_unique s gs); cbn; now split. Qed.
Lemma swap_dists n gs n' gs' b s : n <> n' -> Forall asking b -> exists x x' z,
  accepted s (AddDist n gs :: AddDist n' gs' :: b) = x ++ x' ++ z /\ accepted s (AddDist n' gs' :: AddDist n gs :: b) = x' ++ x ++ z /\
  (x = [] \/ x = [AddDist n gs]) /\ (x' = [] \/ x' = [AddDist n' gs']).
Proof.
  intros Hn Kb. set (s1 := fst (smcall s (AddDist n gs))). set (s2 := fst (smcall s (AddDist n' gs'))).
  assert (A1 : alike s1 s) by apply dist_alike. assert (A2 : alike s2 s) by apply dist_alike.
  exists (match snd (smcall s (AddDist n gs)) with Ok _ => [AddDist n gs] | _ => [] end).
  exists (match snd (smcall s (AddDist n' gs')) with Ok _ => [AddDist n' gs'] | _ => [] end). exists (accepted s b).
  cbn [accepted]. fold s1 s2.
  rewrite (proj2 (alike_call s1 s (AddDist n' gs') I A1)), (proj2 (alike_call s2 s (AddDist n gs) I A2)).
  assert (B1 : alike (fst (smcall s1 (AddDist n' gs'))) s) by (destruct (dist_alike s1 n' gs') as [? ?]; destruct A1; split; congruence).
  assert (B2 : alike (fst (smcall s2 (AddDist n gs))) s) by (destruct (dist_alike s2 n gs) as [? ?]; destruct A2; split; congruence).
  rewrite (alike_accepted b Kb _ _ B1), (alike_accepted b Kb _ _ B2).
  split; [reflexivity|]. split; [reflexivity|]. split; [destruct (snd (smcall s (AddDist n gs))); auto|destruct (snd (smcall s (AddDist n' gs'))); auto].
Qed.
(** two lists of accepted calls that mean the same *)
Definition means_same (l l' : list smop) : Prop := (forall g, SystManSpec.added g l = SystManSpec.added g l') /\ forall n, regd n l = regd n l'.
Lemma swap_means n gs n' gs' p x x' z : n <> n' -> (x = [] \/ x = [AddDist n gs]) -> (x' = [] \/ x' = [AddDist n' gs']) -> means_same (p ++ x ++ x' ++ z) (p ++ x' ++ x ++ z).
Proof.
  intros Hn [-> | ->] [-> | ->]; cbn [app]; try (split; reflexivity). split.
  - intros g. unfold SystManSpec.added. rewrite !flat_map_app. reflexivity.
  - intros m. unfold regd. rewrite !fold_left_app. cbn [fold_left]. f_equal. destruct (String.eqb m n) eqn:E; [|reflexivity]. destruct (String.eqb m n') eqn:E'; [|reflexivity].
    apply String.eqb_eq in E, E'. congruence.
Qed.
Lemma swap_sys names a o o' b : exchangeable o o' -> means_same (sys_accepted names (a ++ o :: o' :: b)) (sys_accepted names (a ++ o' :: o :: b)).
Proof.
  intros E. unfold sys_accepted. set (s0 := sm_new _). rewrite !calls_split, !accepted_split. set (s1 := smrun s0 _). set (bb := fold_left _ a false). set (p := accepted s0 _).
  assert (Same : forall l l', l = l' -> means_same (p ++ accepted s1 l) (p ++ accepted s1 l')) by (intros l l' ->; split; reflexivity).
  destruct o as [x g r st| | | | | | y | | | | | |]; destruct o' as [x' g' r' st'| | | | | | y' | | | | | |]; cbn in E; try contradiction;
    try (apply Same; try destruct r; try destruct r'; reflexivity).
  destruct (swap_dists (bdName x) g (bdName x') g' (sys_calls bb b) s1 E (calls_asking b bb)) as [u [u' [z [E1 [E2 [U U']]]]]].
  destruct r as [r|]; destruct r' as [r'|]; cbn [sys_calls]; destruct bb; cbn [app]; try (apply Same; reflexivity);
    rewrite E1, E2; now apply swap_means with (bdName x) g (bdName x') g'.
Qed.
(** ** everything a shuffle keeps *)
Lemma shuffled_keeps ops ops' : shuffled ops ops' ->
  Permutation (NLLHSpec.added ops) (NLLHSpec.added ops') /\ (forall names, means_same (sys_accepted names ops) (sys_accepted names ops')) /\
  data_in ops' = data_in ops /\ con_in ops' = con_in ops /\ bb_in ops' = bb_in ops /\ forall P, Forall P ops -> Forall P ops'.
Proof.
  induction 1 as [ops|a o o' b ops E _ IH]; [repeat split; auto|]. destruct IH as [I1 [I2 [I3 [I4 [I5 I6]]]]].
  split; [|split; [|split; [|split; [|split]]]].
  - etransitivity; [|exact I1]. unfold NLLHSpec.added. apply Permutation_map. rewrite !pdfs_split. apply Permutation_app_head. now apply swap_pdfs.
  - intros names. destruct (I2 names) as [J1 J2]. destruct (swap_sys names a o o' b E) as [S1 S2]. split; intros z; [rewrite S1; apply J1|rewrite S2; apply J2].
  - rewrite I3. unfold data_in. apply swap_fold. intros s. destruct o, o'; cbn in E; try contradiction; reflexivity.
  - rewrite I4. unfold con_in. apply swap_fold. intros s. destruct o, o'; cbn in E; try contradiction; reflexivity.
  - rewrite I5. unfold bb_in. apply swap_fold. intros s. destruct o, o'; cbn in E; try contradiction; reflexivity.
  - intros P F. apply I6. apply Forall_app in F as [Fa F]. inversion F as [|? ? F1 F']; subst. inversion F'; subst. apply Forall_app. auto.
Qed.
