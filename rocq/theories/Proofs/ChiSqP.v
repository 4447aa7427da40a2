From Coq Require Import ZArith Lia.
From Verif Require Import Base.Res Base.Num Base.SMap Model.Axis Model.Event Model.Cut Model.Hist Model.ED Model.Param Model.Matrix Model.SystMan
  Model.Shrink Model.EDMan Model.Constraint Model.NLLH Model.Grid Model.ChiSq Spec.ChiSqSpec.
Local Open Scope Qc_scope.

(** the private members are those of a new object *)
Definition blank (s : chisq) : Prop :=
  csCalc s = false /\ csData s = bed0 /\ csPm s = em_new /\ smGroups (csSm s) = [(EmptyString, [])] /\ Forall (fun c => c = RPdfs) (csReg s).
Lemma blank_comps : forall s, blank s -> map (cs_comp s) (csReg s) = repeat (CPm (emPm em_new)) (List.length (csReg s)).
Proof.
  intros s (_ & _ & HP & _ & HR). induction (csReg s) as [|c l IH]; [reflexivity|].
  inversion HR as [|c' l' Hc Hl]; subst. cbn [map repeat List.length]. rewrite IH by exact Hl. cbn [cs_comp]. rewrite HP. reflexivity.
Qed.
Lemma blank_setLoop : forall n d, cm_setLoop (repeat (CPm (emPm em_new)) n) d = (repeat (CPm (emPm em_new)) n, Ok tt).
Proof. induction n as [|n IH]; intros d; [reflexivity|]. cbn [repeat cm_setLoop]. cbn. rewrite IH. reflexivity. Qed.
Lemma blank_setAll : forall n d, cm_setAll (repeat (CPm (emPm em_new)) n) d = (repeat (CPm (emPm em_new)) n, Ok tt).
Proof. intros n [|kv d]; [reflexivity|]. apply blank_setLoop. Qed.
Lemma with_same : forall s, csPm s = em_new -> cs_withPm s (em_withPm (csPm s) (emPm em_new)) = s.
Proof. intros [b c d st p m r f] H. cbn in *. subst p. reflexivity. Qed.
Lemma blank_put : forall s l, csPm s = em_new -> Forall (fun c => c = RPdfs) l ->
  fold_left cs_putComp (combine l (repeat (CPm (emPm em_new)) (List.length l))) s = s.
Proof.
  intros s l HP. induction l as [|c l IH]; intros HF; [reflexivity|]. inversion HF as [|c' l' Hc Hl]; subst.
  cbn [List.length repeat combine fold_left cs_putComp]. rewrite with_same by exact HP. apply IH. exact Hl.
Qed.
Lemma blank_params : forall s d, blank s -> cs_setParams s d = (s, Ok tt).
Proof.
  intros s d HB. unfold cs_setParams. rewrite (blank_comps s HB), blank_setAll. destruct HB as (_ & _ & HP & _ & HR).
  rewrite blank_put by assumption. reflexivity.
Qed.
Lemma blank_get : forall s, blank s -> cs_getParams s = Ok [].
Proof.
  intros s HB. unfold cs_getParams. rewrite (blank_comps s HB). induction (List.length (csReg s)) as [|n IH]; [reflexivity|].
  cbn [repeat]. unfold cm_getAll in *. cbn. exact IH.
Qed.
Lemma blank_eval : forall s, blank s -> cs_eval s = (s, Throw std_out_of_range).
Proof. intros s (HC & _ & HP & _). unfold cs_eval, cs_binData. rewrite HC, HP. reflexivity. Qed.
Lemma blank_sysRefs : forall s, blank s -> nl_sysRefs (csSm s) = [].
Proof. intros s (_ & _ & _ & HS & _). unfold nl_sysRefs. rewrite HS. reflexivity. Qed.
Lemma blank_step : forall s c, blank s -> blank (cs_step s c).
Proof.
  intros s c HB. destruct c; cbn [cs_step]; try exact HB.
  - unfold cs_register, blank. cbn. rewrite (blank_sysRefs s HB). destruct HB as (H1 & H2 & H3 & H4 & H5). repeat split; auto.
    apply Forall_app. split; [exact H5|]. constructor; [reflexivity|constructor].
  - rewrite (blank_params s d HB). exact HB.
  - rewrite (blank_eval s HB). exact HB.
Qed.
Lemma blank_run : forall calls s, blank s -> blank (fold_left cs_step calls s).
Proof. induction calls as [|c l IH]; intros s HB; [exact HB|]. cbn [fold_left]. apply IH, blank_step, HB. Qed.
Lemma blank_program : forall obj par calls, blank (program obj par calls).
Proof. intros. apply blank_run. repeat split; constructor. Qed.

Lemma never_pkg : forall obj par calls, cs_eval (program obj par calls) = (program obj par calls, Throw std_out_of_range).
Proof. intros. apply blank_eval, blank_program. Qed.
Lemma params_pkg : forall obj par calls d, let s := program obj par calls in
  cs_getParams s = Ok [] /\ cs_names s = Ok [] /\ cs_count s = Ok 0%nat /\ cs_setParams s d = (s, Ok tt).
Proof.
  intros obj par calls d s. assert (HB : blank s) by apply blank_program.
  unfold cs_names, cs_count. rewrite (blank_get s HB), (blank_params s d HB). repeat split.
Qed.
Lemma data_run : forall calls s, blank s ->
  csSet (fold_left cs_step calls s) = fold_left (fun a c => match c with XData d => Some d | _ => a end) calls (csSet s) /\
  tsSet (csBase (fold_left cs_step calls s)) = fold_left (fun a c => match c with XBaseData d => d | _ => a end) calls (tsSet (csBase s)).
Proof.
  assert (HA : forall ps b, tsSet (fst (iterS (fun b1 p => ts_addSys b1 p EmptyString) ps b)) = tsSet b).
  { induction ps as [|p ps IH]; intros b; [reflexivity|]. cbn [iterS]. unfold ts_addSys at 1. destruct (sm_add (tsSm b) p EmptyString) as [m [[]| | | |]]; try reflexivity.
    rewrite IH. reflexivity. }
  assert (HG : forall ps gs l b, tsSet (fst (iterS (fun b1 i => obind b1 (vat ps i) (fun p => obind b1 (vat gs i) (fun g => ts_addSys b1 p g))) l b)) = tsSet b).
  { intros ps gs. induction l as [|i l IH]; intros b; [reflexivity|]. cbn [iterS]. destruct (vat ps i); try reflexivity. cbn [obind].
    destruct (vat gs i); try reflexivity. cbn [obind]. unfold ts_addSys at 1. destruct (sm_add (tsSm b) _ _) as [m [[]| | | |]]; try reflexivity.
    rewrite IH. reflexivity. }
  induction calls as [|c l IH]; intros s HB; [split; reflexivity|]. cbn [fold_left].
  destruct (IH (cs_step s c) (blank_step s c HB)) as [E1 E2]. rewrite E1, E2.
  assert (K : forall a b a' b', a = a' -> b = b' ->
    fold_left (fun (a : option (option (list event))) c => match c with XData d => Some d | _ => a end) l a =
    fold_left (fun a c => match c with XData d => Some d | _ => a end) l a' /\
    fold_left (fun (a : option (list event)) c => match c with XBaseData d => d | _ => a end) l b =
    fold_left (fun a c => match c with XBaseData d => d | _ => a end) l b') by (intros; subst; split; reflexivity).
  apply K; destruct c; cbn [cs_step]; try reflexivity.
  - rewrite (blank_params s d HB). reflexivity.
  - rewrite (blank_eval s HB). reflexivity.
  - rewrite (blank_params s d HB). reflexivity.
  - rewrite (blank_eval s HB). reflexivity.
  - unfold ts_addSys. destruct (sm_add (tsSm (csBase s)) p g) as [m r]. reflexivity.
  - apply HA.
  - unfold ts_addSystematicsG. destruct (negb _); [reflexivity|]. apply HG.
  - unfold ts_onCm. destruct (f (tsCm (csBase s))) as [m r]. reflexivity.
Qed.
Lemma data_pkg : forall obj par calls,
  cs_getSet (program obj par calls) = match given calls with None => UB | Some d => Ok d end /\
  tsSet (csBase (program obj par calls)) = base_given calls.
Proof.
  intros. unfold program. destruct (data_run calls (cs_new obj par)) as [E1 E2]; [repeat split; constructor|].
  unfold cs_getSet. rewrite E1, E2. split; reflexivity.
Qed.
Lemma grid_loop : forall g fuel vals r0 r, gLoop g (fun _ => Throw std_out_of_range) fuel vals r0 = Ok r -> r = r0.
Proof.
  intros g [|fuel] vals r0 r H; cbn [gLoop] in H; [discriminate|].
  destruct (gInc g (skeys (grStep g)) 0 (Z.of_nat (List.length (grStep g))) vals) as [[b p]| | | |]; cbn [bind] in H; try discriminate.
  destruct b; cbn [fst bind] in H; [discriminate|]. injection H as <-. reflexivity.
Qed.
Lemma gLoop_ext : forall g f f' fuel vals r, (forall p, f p = f' p) -> gLoop g f fuel vals r = gLoop g f' fuel vals r.
Proof.
  intros g f f' fuel vals r HE. revert vals r. induction fuel as [|k IH]; intros vals r; [reflexivity|]. cbn [gLoop].
  destruct (gInc _ _ _ _ _) as [p| | | |]; try reflexivity. cbn [bind]. destruct (fst p); [|reflexivity]. rewrite HE.
  destruct (f' (snd p)); try reflexivity. cbn [bind]. apply IH.
Qed.
Lemma grid_pkg : forall obj par calls g fuel r, let s := program obj par calls in
  gOptimise g (fun p => snd (cs_eval (fst (cs_setParams s p)))) fuel = Ok r -> grSeen r = [] /\ grBest r = [].
Proof.
  intros obj par calls g fuel r s H. unfold gOptimise in H.
  destruct (_ || _)%bool; [discriminate|]. destruct (mapM (gCount g) (grMin g)); cbn [bind] in H; try discriminate.
  rewrite (gLoop_ext g _ (fun _ => Throw std_out_of_range)) in H.
  2:{ intros p. assert (HB : blank s) by apply blank_program. rewrite (blank_params s p HB). cbn [fst]. rewrite (blank_eval s HB). reflexivity. }
  apply grid_loop in H. subst r. split; reflexivity.
Qed.

Lemma syss_sm : forall ps b, tsSm (fst (ts_addSystematics b ps)) = fst (iterS (fun m p => sm_add m p EmptyString) ps (tsSm b)) /\
  tsCuts (fst (ts_addSystematics b ps)) = tsCuts b.
Proof.
  unfold ts_addSystematics. induction ps as [|p ps IH]; intros b; [split; reflexivity|]. cbn [iterS]. unfold ts_addSys at 1 3.
  destruct (sm_add (tsSm b) p EmptyString) as [m [[]| | | |]]; try (split; reflexivity). destruct (IH (ts_withSm b m)) as [E1 E2]. rewrite E1, E2. split; reflexivity.
Qed.
Lemma syssG_sm : forall ps gs k b P G, List.length P = k -> List.length G = k ->
  let r := iterS (fun b1 i => obind b1 (vat (P ++ ps) i) (fun p => obind b1 (vat (G ++ gs) i) (fun g => ts_addSys b1 p g))) (seq k (List.length ps)) b in
  List.length ps = List.length gs ->
  tsSm (fst r) = fst (iterS (fun m pg => sm_add m (fst pg) (snd pg)) (combine ps gs) (tsSm b)) /\ tsCuts (fst r) = tsCuts b.
Proof.
  induction ps as [|p ps IH]; intros gs k b P G HP HG r HL; [split; reflexivity|]. destruct gs as [|g gs]; [discriminate|].
  injection HL as HL. subst r. cbn [List.length seq iterS combine].
  assert (VP : vat (P ++ p :: ps) k = Ok p) by (unfold vat; rewrite nth_error_app2, HP, Nat.sub_diag by lia; reflexivity).
  assert (VG : vat (G ++ g :: gs) k = Ok g) by (unfold vat; rewrite nth_error_app2, HG, Nat.sub_diag by lia; reflexivity).
  rewrite VP, VG. cbn [obind fst snd]. unfold ts_addSys at 1 3. destruct (sm_add (tsSm b) p g) as [m [[]| | | |]]; try (split; reflexivity).
  specialize (IH gs (S k) (ts_withSm b m) (P ++ [p]) (G ++ [g])). rewrite !app_length, HP, HG in IH. rewrite <- !app_assoc in IH.
  cbn [List.app] in IH. destruct IH as [E1 E2]; [cbn; lia|cbn; lia|exact HL|]. rewrite E1, E2. split; reflexivity.
Qed.
Lemma kept_step : forall s c, blank s ->
  tsSm (csBase (cs_step s c)) = sys_calls c (tsSm (csBase s)) /\ tsCuts (csBase (cs_step s c)) = cut_calls c (tsCuts (csBase s)).
Proof.
  intros s c HB. destruct c; cbn [cs_step sys_calls cut_calls]; try (split; reflexivity).
  - rewrite (blank_params s d HB). split; reflexivity.
  - rewrite (blank_eval s HB). split; reflexivity.
  - cbn. unfold ts_addSys. destruct (sm_add (tsSm (csBase s)) p g) as [m r]. split; reflexivity.
  - exact (syss_sm ps (csBase s)).
  - cbn. unfold ts_addSystematicsG. rewrite Nat.eqb_sym. destruct (Nat.eqb_spec (List.length ps) (List.length gs)) as [E|E]; cbn [negb]; [|split; reflexivity].
    exact (syssG_sm ps gs 0%nat (csBase s) [] [] eq_refl eq_refl E).
  - cbn. unfold ts_onCm. destruct (f (tsCm (csBase s))) as [m r]. split; reflexivity.
Qed.
Lemma kept_pkg : forall obj par calls,
  tsSm (csBase (program obj par calls)) = fold_left (fun m c => sys_calls c m) calls (sm_new obj) /\
  tsCuts (csBase (program obj par calls)) = fold_left (fun l c => cut_calls c l) calls [].
Proof.
  intros obj par calls. unfold program.
  assert (H : forall calls s, blank s -> tsSm (csBase (fold_left cs_step calls s)) = fold_left (fun m c => sys_calls c m) calls (tsSm (csBase s)) /\
    tsCuts (csBase (fold_left cs_step calls s)) = fold_left (fun l c => cut_calls c l) calls (tsCuts (csBase s))).
  { clear. induction calls as [|c l IH]; intros s HB; [split; reflexivity|]. cbn [fold_left].
    destruct (IH (cs_step s c) (blank_step s c HB)) as [E1 E2]. destruct (kept_step s c HB) as [K1 K2]. rewrite E1, E2, K1, K2. split; reflexivity. }
  apply (H calls (cs_new obj par)). repeat split; constructor.
Qed.
