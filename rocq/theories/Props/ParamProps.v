(** C15-C20: fit parameters. *)
From Coq Require Import ZArith.
From Verif Require Import Base.Res Base.Num Base.SMap Model.Axis Model.Hist Model.Param Spec.AxisSpec Spec.HistSpec Spec.ParamSpec
  Proofs.ParamP2 Proofs.ParamP3 Props.AxisProps Props.HistProps.
Local Open Scope Qc_scope.

(** a manager with two doubles and a container of two *)
Definition ex_mem : pmem := mkMem (fun a => qn a) (fun c => [qz 10; qz 11]).
Definition ex_pm : pmgr :=
  fst (pm_addContainer (pm_addDouble (pm_addDouble (pm_new ex_mem) 1 "b") 2 "a") 0 ["c0"; "c1"]%string).
Lemma ex_pm_reach : pm_reach ex_pm.
Proof.
  pose proof (pr_step _ (PAddContainer 0 ["c0"; "c1"]%string) (pr_step _ (PAddDouble 2 "a") (pr_step _ (PAddDouble 1 "b") (pr_new ex_mem)))) as R.
  exact R.
Qed.
Lemma ex_pm_unaliased : unaliased ex_pm.
Proof.
  intros n n' l. unfold bound.
  replace (pmPtrs ex_pm) with [("a", LDouble 2); ("b", LDouble 1); ("c0", LElem 0 0); ("c1", LElem 0 1)]%string by reflexivity.
  cbn [sfind]. repeat match goal with |- context [String.eqb ?x ?y] => destruct (String.eqb_spec x y) end; congruence.
Qed.

(** C15 *)
Theorem C15_registry : forall p, pm_reach p ->
  NoDup (pm_names p) /\ pm_count p = List.length (pm_names p) /\
  (forall n, In n (pm_names p) -> exists l v, bound p n l /\ deref (pmMem p) l = Ok v /\ pm_get p n = Ok v) /\
  (forall n v, ~ In n (pm_names p) -> pm_get p n = Throw ParameterError /\ pm_set p n v = (p, Throw ParameterError)) /\
  (exists d, pm_getAll p = Ok d /\ swf d /\ skeys d = pm_names p /\ forall n v, sfind n d = Some v <-> pm_get p n = Ok v).
Proof. exact registry_pkg. Qed.
Print Assumptions C15_registry.

Theorem C15_add : forall p, pm_reach p ->
  (forall a n, let p' := pm_addDouble p a n in pmMem p' = pmMem p /\
     (forall m, In m (pm_names p') <-> m = n \/ In m (pm_names p)) /\
     pm_get p' n = Ok (mDbl (pmMem p) a) /\ (forall m, m <> n -> pm_get p' m = pm_get p m)) /\
  (forall c names, List.length names <> List.length (mCnt (pmMem p) c) -> pm_addContainer p c names = (p, Throw DimensionError)) /\
  (forall c names, List.length names = List.length (mCnt (pmMem p) c) -> NoDup names ->
     exists p', pm_addContainer p c names = (p', Ok tt) /\ pmMem p' = pmMem p /\
     (forall i n, nth_error names i = Some n -> pm_get p' n = Ok (nth i (mCnt (pmMem p) c) 0)) /\
     (forall m, ~ In m names -> pm_get p' m = pm_get p m)) /\
  (forall c base, let p' := pm_addContainerBase p c base in pmMem p' = pmMem p /\
     (forall i, (i < List.length (mCnt (pmMem p) c))%nat -> pm_get p' (base ++ "_" ++ dec i) = Ok (nth i (mCnt (pmMem p) c) 0)) /\
     (forall m, (forall i, m <> (base ++ "_" ++ dec i)%string) -> pm_get p' m = pm_get p m)).
Proof. exact add_pkg. Qed.
Print Assumptions C15_add.

Theorem C15_set : forall p n v, pm_reach p -> unaliased p -> In n (pm_names p) ->
  exists p', pm_set p n v = (p', Ok tt) /\ pm_names p' = pm_names p /\ unaliased p' /\
    (forall m, pm_get p' m = if String.eqb m n then Ok v else pm_get p m) /\
    (forall l, bound p n l -> deref (pmMem p') l = Ok v) /\
    (forall l, ~ bound p n l -> deref (pmMem p') l = deref (pmMem p) l).
Proof. exact set_pkg. Qed.
Print Assumptions C15_set.

Theorem C15_set_all : forall p d, pm_reach p -> unaliased p ->
  ((forall n, In n (pm_names p) -> has_key d n) ->
   exists p', pm_setAll p d = (p', Ok tt) /\ pm_names p' = pm_names p /\ unaliased p' /\
    (forall n v, In n (pm_names p) -> sfind n d = Some v -> pm_get p' n = Ok v) /\
    (forall l, (forall n, ~ bound p n l) -> deref (pmMem p') l = deref (pmMem p) l)) /\
  ((exists n, In n (pm_names p) /\ ~ has_key d n) -> snd (pm_setAll p d) = Throw ParameterError).
Proof. exact setAll_pkg. Qed.
Print Assumptions C15_set_all.

(** every history of set / set-all / rename calls behaves as on a plain name-to-value map *)
Theorem C15_refines_map : forall ops p V, pm_reach p -> unaliased p -> pm_getAll p = Ok V -> Forall is_value_op ops ->
  match map_run ops V with
  | Some V' => exists p', pm_run ops p = Some p' /\ pm_getAll p' = Ok V' /\ forall n v, sfind n V' = Some v <-> pm_get p' n = Ok v
  | None => pm_run ops p = None
  end.
Proof. exact refine_pkg. Qed.
Print Assumptions C15_refines_map.

Example C15_nonvacuous :
  pm_reach ex_pm /\ unaliased ex_pm /\ pm_names ex_pm = ["a"; "b"; "c0"; "c1"]%string /\
  (let ops := [PSet "a" (qz 7); PRename "c0" "z"; PSetAll (sof [("a", qz 1); ("b", qz 2); ("c1", qz 3); ("z", qz 4); ("q", qz 9)]%string); PSet "z" (qz 5)] in
   Forall is_value_op ops /\
   exists p', pm_run ops ex_pm = Some p' /\ pm_get p' "z" = Ok (qz 5) /\ pm_get p' "a" = Ok (qz 1) /\
     mCnt (pmMem p') 0 = [qz 5; qz 3]) /\
  pm_run [PSet "nope" 0] ex_pm = None.
Proof.
  split; [exact ex_pm_reach|]. split; [exact ex_pm_unaliased|]. split; [vm_compute; reflexivity|].
  split; [|vm_compute; reflexivity]. split; [repeat constructor|]. eexists. split; [vm_compute; reflexivity|]. repeat split.
Qed.

(** C16.  The property as stated is false: *)
Theorem C16_rejected_set_changes_nothing_refuted : exists p d n,
  pm_reach p /\ unaliased p /\ snd (pm_setAll p d) = Throw ParameterError /\
  In n (pm_names p) /\ pm_get (fst (pm_setAll p d)) n <> pm_get p n.
Proof.
  exists ex_pm, [("a"%string, qz 77)], "a"%string. split; [exact ex_pm_reach|]. split; [exact ex_pm_unaliased|].
  split; [vm_compute; reflexivity|]. split; [now left|]. vm_compute. discriminate.
Qed.
Print Assumptions C16_rejected_set_changes_nothing_refuted.
(** exactly the parameters before the first missing name (in name order) have changed.  Missing from
    the full property: nothing at all should have changed. *)
Theorem C16_rejected_set_partial : forall p d pre k post, pm_reach p -> unaliased p -> pm_names p = pre ++ k :: post ->
  (forall n, In n pre -> has_key d n) -> ~ has_key d k ->
  exists p', pm_setAll p d = (p', Throw ParameterError) /\ pm_names p' = pm_names p /\
    (forall n v, In n pre -> sfind n d = Some v -> pm_get p' n = Ok v) /\
    (forall n, ~ In n pre -> pm_get p' n = pm_get p n).
Proof. exact rejected_pkg. Qed.
Print Assumptions C16_rejected_set_partial.
Example C16_nonvacuous : pm_reach ex_pm /\ unaliased ex_pm /\ pm_names ex_pm = ["a"%string] ++ "b"%string :: ["c0"; "c1"]%string /\
  ~ has_key [("a"%string, qz 77)] "b".
Proof.
  split; [exact ex_pm_reach|]. split; [exact ex_pm_unaliased|]. split; [vm_compute; reflexivity|]. intros [v E]. discriminate.
Qed.

(** C17.  Proved: valid renames and unknown old names for every component, collisions for
    ParameterManager.  Missing: collisions are not rejected by the others (refuted below). *)
Theorem C17_rename_partial : forall c o n, comp_ok c ->
  (In o (c_names c) -> ~ In n (c_names c) -> exists c', c_rename c o n = (c', Ok tt) /\ comp_ok c' /\
     c_get c' n = c_get c o /\ c_get c' o = Throw ParameterError /\
     (forall m, m <> o -> m <> n -> c_get c' m = c_get c m) /\ c_count c' = c_count c) /\
  (~ In o (c_names c) -> c_rename c o n = (c, Throw ParameterError)).
Proof. exact rename_pkg. Qed.
Print Assumptions C17_rename_partial.
Theorem C17_rename_collision_manager : forall c o n, is_pm c -> In n (c_names c) -> c_rename c o n = (c, Throw ParameterError).
Proof. exact rename_collision_pkg. Qed.
Print Assumptions C17_rename_collision_manager.
(** Shape/ScaleFunction/Renorm: renaming onto an existing name loses a parameter, and renaming a
    parameter to itself deletes it; SpectralFitDist accepts the collision and one bin is hidden *)
Theorem C17_rename_collision_refuted :
  (exists c o n, comp_ok c /\ is_dict c /\ In o (c_names c) /\ In n (c_names c) /\ o <> n /\
     snd (c_rename c o n) = Ok tt /\ c_count (fst (c_rename c o n)) <> c_count c) /\
  (exists c o, comp_ok c /\ is_dict c /\ In o (c_names c) /\
     snd (c_rename c o o) = Ok tt /\ c_names (fst (c_rename c o o)) = [] ) /\
  (exists c o n, comp_ok c /\ is_spec c /\ In o (c_names c) /\ In n (c_names c) /\ o <> n /\
     snd (c_rename c o n) = Ok tt /\ List.length (c_names (fst (c_rename c o n))) <> c_count (fst (c_rename c o n))).
Proof.
  split; [|split].
  - exists (CDict (sof [("p", qz 1); ("q", qz 2)]%string)), "p"%string, "q"%string.
    split; [apply sof_wf|]. split; [exact I|]. split; [now left|]. split; [right; now left|]. split; [discriminate|].
    split; [reflexivity|]. vm_compute. discriminate.
  - exists (CDict [("p"%string, qz 1)]), "p"%string. split; [repeat constructor|]. repeat split. now left.
  - exists (mk_spectral "s" ex_ac1), "s_bin_0"%string, "s_bin_1"%string.
    split; [apply (mk_spectral_ok "s" ex_ac1 ex_ac1_reach); discriminate|]. split; [exact I|].
    split; [vm_compute; auto|]. split; [vm_compute; auto|]. split; [discriminate|]. split; [vm_compute; reflexivity|]. vm_compute. discriminate.
Qed.
Print Assumptions C17_rename_collision_refuted.
Example C17_nonvacuous : comp_ok (CPm ex_pm) /\ In "b"%string (c_names (CPm ex_pm)) /\ ~ In "new"%string (c_names (CPm ex_pm)) /\
  comp_ok (mk_spectral "s" ex_ac1) /\ In "s_bin_3"%string (c_names (mk_spectral "s" ex_ac1)) /\
  ~ In "new"%string (c_names (mk_spectral "s" ex_ac1)).
Proof.
  split; [split; [exact ex_pm_reach|exact ex_pm_unaliased]|]. split; [vm_compute; auto|]. split; [vm_compute; intuition discriminate|].
  split; [apply (mk_spectral_ok "s" ex_ac1 ex_ac1_reach); discriminate|]. split; vm_compute; intuition discriminate.
Qed.

(** C18.  Shift, Scale (single), ParameterManager-based and spectral components: *)
Theorem C18_own_parameters_partial : forall c d, comp_ok c -> ~ is_dict c -> swf d ->
  ((forall n, In n (c_names c) -> has_key d n) -> exists c', c_setAll c d = (c', Ok tt) /\ comp_ok c' /\
     (forall n, In n (c_names c') <-> In n (c_names c)) /\
     forall n v, In n (c_names c) -> sfind n d = Some v -> c_get c' n = Ok v) /\
  ((exists n, In n (c_names c) /\ ~ has_key d n) -> snd (c_setAll c d) = Throw ParameterError /\
     forall n, In n (c_names (fst (c_setAll c d))) <-> In n (c_names c)).
Proof. exact own_params_pkg. Qed.
Print Assumptions C18_own_parameters_partial.
(** one parameter at a time *)
Theorem C18_set_one_parameter : forall c n v, comp_ok c ->
  (In n (c_names c) -> ~ is_spec c -> exists c', c_set c n v = (c', Ok tt) /\ comp_ok c' /\ c_names c' = c_names c /\
     c_get c' n = Ok v /\ (forall m, m <> n -> c_get c' m = c_get c m)) /\
  (~ In n (c_names c) -> c_set c n v = (c, Throw ParameterError)).
Proof. exact set_one_pkg. Qed.
Print Assumptions C18_set_one_parameter.
(** Shape, ScaleFunction, Renorm: the dictionary's keys are all absorbed, missing ones go unnoticed *)
Theorem C18_dict_absorbs : forall d0 d, swf d0 -> swf d -> exists c', c_setAll (CDict d0) d = (c', Ok tt) /\
  (forall n, In n (c_names c') <-> In n (c_names (CDict d0)) \/ has_key d n) /\
  (forall n v, sfind n d = Some v -> c_get c' n = Ok v) /\
  (forall n, ~ has_key d n -> c_get c' n = c_get (CDict d0) n).
Proof. exact dict_params_pkg. Qed.
Print Assumptions C18_dict_absorbs.
Theorem C18_dict_parameters_refuted : exists c d, comp_ok c /\ swf d /\ is_dict c /\
  (exists n, In n (c_names c) /\ ~ has_key d n) /\ snd (c_setAll c d) = Ok tt /\
  c_names (fst (c_setAll c d)) <> c_names c.
Proof.
  exists (mk_dict ["mine"]%string), [("other"%string, qz 3)]. split; [apply sof_wf|]. split; [repeat constructor|]. split; [exact I|].
  split; [exists "mine"%string; split; [now left|intros [v E]; discriminate]|]. split; [reflexivity|]. vm_compute. discriminate.
Qed.
Print Assumptions C18_dict_parameters_refuted.
Example C18_nonvacuous : comp_ok (CSingle "shift" (qz 2)) /\ ~ is_dict (CSingle "shift" (qz 2)) /\
  c_setAll (CSingle "shift" (qz 2)) (sof [("a", qz 1); ("shift", qz 5)]%string) = (CSingle "shift" (qz 5), Ok tt) /\
  snd (c_setAll (CSingle "shift" (qz 2)) (sof [("a", qz 1)]%string)) = Throw ParameterError.
Proof. split; [exact I|]. split; [intros []|]. split; reflexivity. Qed.

(** C19.  Proved: reading, SetParameters, names.  Missing: SetParameter (refuted below). *)
Theorem C19_spectral_partial : forall ns h, comp_ok (CSpec ns h) ->
  (forall i n, nth_error ns i = Some n -> c_get (CSpec ns h) n = Ok (cont h i)) /\
  (forall d, (forall n, In n ns -> has_key d n) -> exists h', c_setAll (CSpec ns h) d = (CSpec ns h', Ok tt) /\ same_axes h' h /\
     forall i n v, nth_error ns i = Some n -> sfind n d = Some v -> cont h' i = v) /\
  (forall d, (exists n, In n ns /\ ~ has_key d n) -> exists h', c_setAll (CSpec ns h) d = (CSpec ns h', Throw ParameterError)).
Proof. exact spectral_pkg. Qed.
Print Assumptions C19_spectral_partial.
Theorem C19_spectral_construction : forall name ac, ac_reach ac -> acAxes ac <> [] -> comp_ok (mk_spectral name ac) /\
  c_count (mk_spectral name ac) = acNBins ac /\
  forall i, (i < acNBins ac)%nat -> c_get (mk_spectral name ac) (name ++ "_bin_" ++ dec i) = Ok 0.
Proof. exact mk_spectral_ok. Qed.
Print Assumptions C19_spectral_construction.
(** SetParameter never writes a bin: at best it destroys the parameter's name *)
Theorem C19_set_parameter_never_writes : forall ns h n v, comp_ok (CSpec ns h) -> In n ns ->
  (exists ns', c_set (CSpec ns h) n v = (CSpec ns' h, Ok tt)) \/ c_set (CSpec ns h) n v = (CSpec ns h, UB).
Proof. exact spectral_set_pkg. Qed.
Print Assumptions C19_set_parameter_never_writes.
Theorem C19_set_parameter_refuted : exists c n v, comp_ok c /\ is_spec c /\ In n (c_names c) /\
  snd (c_set c n v) = Ok tt /\ c_get (fst (c_set c n v)) n = Throw ParameterError /\
  In "A"%string (c_names (fst (c_set c n v))).
Proof.
  exists (mk_spectral "s" ex_ac1), "s_bin_2"%string, (qz 65).
  split; [apply (mk_spectral_ok "s" ex_ac1 ex_ac1_reach); discriminate|]. split; [exact I|]. split; [vm_compute; auto|].
  split; [vm_compute; reflexivity|]. split; vm_compute; auto.
Qed.
Print Assumptions C19_set_parameter_refuted.
Example C19_nonvacuous : ac_reach ex_ac1 /\ acAxes ex_ac1 <> [] /\ acNBins ex_ac1 = 5%nat /\
  (let d := sof (map (fun i => ("s_bin_" ++ dec i, qn (i * i))%string) (seq 0 5)) in
   c_get (fst (c_setAll (mk_spectral "s" ex_ac1) d)) "s_bin_3" = Ok (qz 9)).
Proof. split; [exact ex_ac1_reach|]. split; [discriminate|]. split; reflexivity. Qed.

(** C20 *)
Theorem C20_broadcast : forall cs d, Forall comp_ok cs -> swf d -> d <> [] ->
  (forall cs', cm_setAll cs d = (cs', Ok tt) <-> Forall2 (fun c c' => c_setAll c d = (c', Ok tt)) cs cs') /\
  (forall cs', cm_setAll cs d = (cs', Ok tt) -> forall i c c' n v, nth_error cs i = Some c -> nth_error cs' i = Some c' ->
     In n (c_names c) -> sfind n d = Some v -> c_get c' n = Ok v) /\
  (forall n, (exists c, In c cs /\ ~ is_dict c /\ In n (c_names c)) -> ~ has_key d n -> snd (cm_setAll cs d) = Throw ParameterError).
Proof. exact cm_set_pkg. Qed.
Print Assumptions C20_broadcast.
Theorem C20_merge : forall cs, Forall comp_ok cs -> exists d, cm_getAll cs = Ok d /\ swf d /\
  cm_names cs = Ok (skeys d) /\ cm_total cs = Ok (List.length d) /\
  (forall n v, sfind n d = Some v <-> exists i c, nth_error cs i = Some c /\ c_get c n = Ok v /\
     forall j c', (j < i)%nat -> nth_error cs j = Some c' -> ~ In n (c_names c')) /\
  (forall n, cm_get cs n = match sfind n d with Some v => Ok v | None => Throw ParameterError end).
Proof. exact cm_get_pkg. Qed.
Print Assumptions C20_merge.
(** an empty dictionary is silently ignored *)
Theorem C20_empty_dictionary : forall cs, cm_setAll cs sempty = (cs, Ok tt).
Proof. exact (fun cs => eq_refl). Qed.
Print Assumptions C20_empty_dictionary.
Example C20_nonvacuous :
  let cs := [CSingle "s" (qz 1); CPm ex_pm; CDict [("s"%string, qz 4)]] in
  Forall comp_ok cs /\ cm_get cs "s" = Ok (qz 1) /\ cm_total cs = Ok 5%nat /\
  (let d := sof [("s", qz 8); ("a", qz 1); ("b", qz 2); ("c0", qz 3); ("c1", qz 4)]%string in
   exists cs', cm_setAll cs d = (cs', Ok tt) /\ nth_error cs' 0 = Some (CSingle "s" (qz 8)) /\ cm_get (tl cs') "s" = Ok (qz 8)).
Proof.
  split. { repeat constructor; [exact ex_pm_reach|exact ex_pm_unaliased]. }
  split; [vm_compute; reflexivity|]. split; [vm_compute; reflexivity|]. eexists. split; [vm_compute; reflexivity|]. split; vm_compute; reflexivity.
Qed.
