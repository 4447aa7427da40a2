From Coq Require Import ZArith Reals.
From Verif Require Import Base.Res Base.Num Base.RNum Base.SMap Model.Axis Model.Event Model.Cut Model.Hist Model.ED Model.Param
  Model.Matrix Model.SystMan Model.Shrink Model.EDMan Model.Fill Model.Constraint Model.NLLH Spec.AxisSpec Spec.HistSpec Spec.ParamSpec Spec.EDManSpec Spec.NLLHSpec
  Proofs.AxisP Proofs.HistP Proofs.HistP2 Proofs.ParamP Proofs.EDManP Proofs.EDManP2 Proofs.NLLHP.
Local Open Scope Qc_scope.
Local Open Scope res_scope.

Lemma calm_pm' obs s p : calm obs s -> em_inv p -> pairs p = pairs (nlPm s) -> calm obs (nl_withPm s p).
Proof. intros C I E. constructor; cbn; try apply C; auto. rewrite E. apply C. Qed.
Lemma calm_new obs names par build : calm obs (nl_new names par build).
Proof. constructor; try reflexivity. - exact em_new_inv. - constructor. - discriminate. - now left. Qed.

Definition same_mode (s s' : nllh) : Prop :=
  nlCm s' = nlCm s /\ nlBB s' = nlBB s /\ nlReg s' = nlReg s /\ nlCalc s' = nlCalc s /\ nlData s' = nlData s.
Lemma add_calm obs s b st rate : calm obs s -> osNames (bdObs b) = obs ->
  let s' := fst (nl_addPdf s b [EmptyString] rate st) in let new := pdfs_from (nlBB s) [NAdd b [EmptyString] rate st] in
  calm obs s' /\ same_mode s s' /\ pairs (nlPm s') = pairs (nlPm s) ++ map fst new /\
  nlGen s' = nlGen s ++ match rate with Some g => [u32 g] | None => [] end.
Proof.
  intros C Ho. cbv zeta. unfold nl_addPdf. cbn [pdfs_from].
  destruct (match rate with None => nlBB s | Some _ => false end) eqn:Eb; cbn [fst].
  { destruct rate; [discriminate|]. rewrite Eb, !app_nil_r. repeat split; apply C. }
  destruct (addPdf_ok (nlPm s) b st (cmInv _ _ C)) as [p [E [I [P _]]]]. rewrite E. cbn [obind].
  assert (Eu : sm_addDist (nlSm (nl_withPm s p)) (bdName b) [EmptyString] =
    (mkSman (smObj (nlSm s)) (smNGroups (nlSm s)) (smTotal (nlSm s)) (smGroups (nlSm s)) (sset (bdName b) [EmptyString] (smDists (nlSm s))), Ok tt)).
  { unfold sm_addDist, sm_unique. cbn [nlSm nl_withPm]. rewrite (cmGrp _ _ C). reflexivity. }
  rewrite Eu. cbn [obind].
  assert (Cx : forall m g, smGroups m = [(EmptyString, [])] -> calm obs (nl_withGen (nl_withSm (nl_withPm s p) m) g)).
  { intros m g Hm. constructor; cbn; try apply C; auto. rewrite P. apply Forall_app. split; [apply C|]. constructor; [exact Ho|constructor]. }
  assert (En : map fst (match rate with
    | Some r => (b, st, Some r) :: []
    | None => if nlBB s then [] else (b, st, None) :: [] end) = [(b, st)]).
  { destruct rate; [reflexivity|]. rewrite Eb. reflexivity. }
  destruct rate as [g|]; cbn [fst].
  - split; [apply Cx; exact (cmGrp _ _ C)|]. split; [repeat split|]. split; [|reflexivity]. cbn [nlPm nl_withGen nl_withSm nl_withPm]. rewrite P. reflexivity.
  - split; [match goal with |- calm _ (nl_withSm _ ?m) => exact (Cx m (nlGen s) (cmGrp _ _ C)) end|]. split; [repeat split|]. split; [|rewrite app_nil_r; reflexivity].
    cbn [nlPm nl_withGen nl_withSm nl_withPm]. rewrite P. rewrite Eb. reflexivity.
Qed.

Lemma setParams_pm obs s d : calm obs s -> exists p, em_inv p /\ pairs p = pairs (nlPm s) /\ fst (nl_setParams s d) = nl_withPm s p.
Proof.
  intros C. unfold nl_setParams. destruct (cmReg _ _ C) as [-> | ->]; cbn [map].
  - exists (nlPm s). split; [apply C|]. split; [reflexivity|]. destruct d; cbn; symmetry; apply withPm_id.
  - unfold cm_setAll. destruct d as [|kv d].
    + exists (nlPm s). split; [apply C|]. split; [reflexivity|]. cbn. unfold em_withPm. f_equal. destruct (nlPm s); reflexivity.
    + set (dd := kv :: d). exists (fst (em_setAll (nlPm s) dd)). pose proof (setAll_structure (nlPm s) dd) as T.
      split; [eapply structure_inv; [exact T|apply C]|]. split; [apply structure_pairs; exact T|].
      unfold em_setAll. cbn [cm_setLoop nl_comp c_setAll]. destruct (pm_setAll (emPm (nlPm s)) dd) as [p r].
      destruct r as [u|x| | |]; reflexivity.
Qed.
Lemma setParams_ok s d s' : nlReg s = [RPdfs] -> d <> [] -> em_setAll (nlPm s) d = (s', Ok tt) -> nl_setParams s d = (nl_withPm s s', Ok tt).
Proof.
  intros Hr Hd E. unfold nl_setParams. rewrite Hr. cbn [map]. destruct d as [|kv d]; [congruence|]. unfold cm_setAll, em_setAll in *.
  cbn [cm_setLoop nl_comp c_setAll]. destruct (pm_setAll (emPm (nlPm s)) (kv :: d)) as [p r]. injection E as <- ->. reflexivity.
Qed.

Definition dstep (a : option bed) (o : nlop) : option bed := match o with NData b => Some b | NDataSet _ => None | _ => a end.
Definition cstep (a : cman) (o : nlop) : cman := match o with NCon c => c | _ => a end.
Definition bstep (a : bool) (o : nlop) : bool := match o with NBB b => b | _ => a end.
Definition rates_of (l : list (bed * nfs * option Z)) : list Z :=
  flat_map (fun p => match snd p with Some g => [u32 g] | None => [] end) l.
Definition has_data (s : nllh) (a : option bed) : Prop := match a with Some D => nlCalc s = true /\ nlData s = D | None => True end.
Definition is_reg (o : nlop) : bool := match o with NReg => true | _ => false end.

Lemma nldo_calm obs s o a : calm obs s -> plain obs o -> has_data s a ->
  let s' := nldo s o in
  calm obs s' /\ pairs (nlPm s') = pairs (nlPm s) ++ map fst (pdfs_from (nlBB s) [o]) /\
  nlCm s' = cstep (nlCm s) o /\ nlBB s' = bstep (nlBB s) o /\
  nlGen s' = nlGen s ++ rates_of (pdfs_from (nlBB s) [o]) /\
  (nlReg s = [RPdfs] \/ is_reg o = true -> nlReg s' = [RPdfs]) /\ has_data s' (dstep a o).
Proof.
  intros C P HD. cbv zeta.
  assert (K : forall s', calm obs s' -> nlPm s' = nlPm s \/ pairs (nlPm s') = pairs (nlPm s) -> nlCm s' = cstep (nlCm s) o -> nlBB s' = bstep (nlBB s) o -> nlGen s' = nlGen s ->
     nlReg s' = nlReg s -> is_reg o = false -> pdfs_from (nlBB s) [o] = [] -> has_data s' (dstep a o) ->
     calm obs s' /\ pairs (nlPm s') = pairs (nlPm s) ++ map fst (pdfs_from (nlBB s) [o]) /\
     nlCm s' = cstep (nlCm s) o /\ nlBB s' = bstep (nlBB s) o /\ nlGen s' = nlGen s ++ rates_of (pdfs_from (nlBB s) [o]) /\
     (nlReg s = [RPdfs] \/ is_reg o = true -> nlReg s' = [RPdfs]) /\ has_data s' (dstep a o)).
  { intros s' C' E1 E2 E3 E4 E5 Er E6 E7. rewrite E6. cbn [map rates_of flat_map]. rewrite !app_nil_r, E4, E5, Er.
    split; [exact C'|]. split; [destruct E1 as [->|E1]; [reflexivity|exact E1]|]. repeat (split; [assumption || reflexivity|]).
    split; [intros [H|H]; [exact H|discriminate]|exact E7]. }
  destruct o; cbn [plain] in P; try contradiction.
  - destruct P as [-> Ho]. cbn [nldo]. destruct (add_calm obs s b st rate C Ho) as [A1 [A2 [A3 A4]]]. cbv zeta in *.
    destruct A2 as [M1 [M2 [M3 [M4 M5]]]].
    set (s' := fst (nl_addPdf s b [EmptyString] rate st)) in *. split; [exact A1|]. split; [exact A3|].
    split; [exact M1|]. split; [exact M2|]. split; [|split; [|destruct a as [D|]; [cbn in *; rewrite M4, M5; exact HD|exact I]]].
    + rewrite A4. f_equal. destruct rate; cbn; [reflexivity|]. destruct (nlBB s); reflexivity.
    + intros [H|H]; [rewrite M3; exact H|discriminate].
  - apply K; auto; [constructor; cbn; try apply C; auto|split; reflexivity].
  - apply K; auto. constructor; cbn; try apply C; discriminate.
  - apply K; auto. constructor; cbn; apply C.
  - apply K; auto. constructor; cbn; apply C.
  - apply K; auto. constructor; cbn; apply C.
  - apply K; auto. constructor; cbn; try apply C.
  - destruct (emdo_ok (nlPm s) (ENorms l) (cmInv _ _ C)) as [I1 [P1 _]]. cbn [emdo pdfs_by] in I1, P1. rewrite app_nil_r in P1.
    apply K; auto; cbn [nldo]; unfold nl_setNorms; destruct (em_setNorms (nlPm s) l) as [p r]; cbn [fst] in *; auto.
    apply calm_pm'; auto.
  - cbn [nldo pdfs_from map]. rewrite !app_nil_r.
    assert (E : nl_register s = nl_withReg s [RPdfs]).
    { unfold nl_register, nl_sysRefs. rewrite (cmGrp _ _ C). reflexivity. }
    rewrite E. split; [constructor; cbn; try apply C; now right|]. split; [reflexivity|]. split; [reflexivity|]. split; [reflexivity|].
    split; [reflexivity|]. split; [reflexivity|exact HD].
  - destruct (setParams_pm obs s d C) as [p [I1 [P1 E1]]]. apply K; auto; cbn [nldo]; rewrite E1; auto. apply calm_pm'; auto.
  - destruct (eval_calm obs s C) as [C1 [E0 [E1 [E2 [E3 [E4 [E5 [E6 [E7 [E8 [E9 [T [H Dd]]]]]]]]]]]]]. cbn [nldo].
    apply K; auto. + right. apply structure_pairs. exact T.
    + destruct a as [D|]; cbn in *; [|exact I]. destruct HD as [H1 H2]. destruct (Dd H1) as [H3 H4]. rewrite H4. auto.
Qed.

Lemma pdfs_from_cons bb o ops : pdfs_from bb (o :: ops) = pdfs_from bb [o] ++ pdfs_from (bstep bb o) ops.
Proof. destruct o; try reflexivity. destruct rate; [reflexivity|]. cbn. destruct bb; reflexivity. Qed.
Lemma nlrun_calm obs ops : forall s a, calm obs s -> Forall (plain obs) ops -> has_data s a ->
  let s' := nlrun s ops in
  calm obs s' /\ pairs (nlPm s') = pairs (nlPm s) ++ map fst (pdfs_from (nlBB s) ops) /\
  nlCm s' = fold_left cstep ops (nlCm s) /\ nlBB s' = fold_left bstep ops (nlBB s) /\
  nlGen s' = nlGen s ++ rates_of (pdfs_from (nlBB s) ops) /\
  (nlReg s = [RPdfs] \/ In NReg ops -> nlReg s' = [RPdfs]) /\ has_data s' (fold_left dstep ops a).
Proof.
  induction ops as [|o ops IH]; intros s a C F HD; cbv zeta.
  - cbn. rewrite !app_nil_r. repeat (split; [first [exact C|reflexivity]|]). split; [intros [H|[]]; exact H|exact HD].
  - inversion F as [|? ? F1 F2]; subst. destruct (nldo_calm obs s o a C F1 HD) as [A1 [A2 [A3 [A4 [A5 [A6 A7]]]]]]. cbv zeta in *.
    cbn [nlrun fold_left]. destruct (IH (nldo s o) _ A1 F2 A7) as [B1 [B2 [B3 [B4 [B5 [B6 B7]]]]]]. cbv zeta in *. unfold nlrun in *.
    split; [exact B1|]. split; [|split; [|split; [|split; [|split; [|exact B7]]]]].
    + rewrite B2, A2, A4, <- app_assoc, <- map_app, <- pdfs_from_cons. reflexivity.
    + rewrite B3, A3. reflexivity.
    + rewrite B4, A4. reflexivity.
    + rewrite B5, A5, A4, <- app_assoc. unfold rates_of. rewrite <- flat_map_app, <- pdfs_from_cons. reflexivity.
    + intros H. apply B6. destruct H as [H|[->|H]]; [left; auto|left; auto|right; exact H].
Qed.
