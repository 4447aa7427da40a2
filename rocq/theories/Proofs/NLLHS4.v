(** C89: histories of calls on a likelihood with systematics. *)
From Coq Require Import ZArith Reals Lia.
From Verif Require Import Base.Res Base.Num Base.RNum Base.SMap Model.Axis Model.Event Model.Cut Model.Hist Model.ED Model.Param Model.Matrix Model.SystMan Model.Shrink Model.EDMan
  Model.Fill Model.Constraint Model.NLLH Spec.AxisSpec Spec.HistSpec Spec.ParamSpec Spec.EDManSpec Spec.SystManSpec Spec.NLLHSpec Spec.NLLHSysSpec
  Proofs.AxisP Proofs.HistP Proofs.HistP2 Proofs.ParamP Proofs.ParamP2 Proofs.ParamP3 Proofs.EDManP Proofs.EDManP2 Proofs.SystManP Proofs.SystManP2 Proofs.SystManP3 Proofs.NLLHP Proofs.NLLHP2 Proofs.NLLHS1 Proofs.NLLHS2 Proofs.NLLHS3.
Local Open Scope Qc_scope.
Local Open Scope res_scope.

Lemma refs_eq a b : smGroups a = smGroups b -> (forall q, syName (smObj a q) = syName (smObj b q)) -> nl_sysRefs a = nl_sysRefs b.
Proof.
  intros G N. unfold nl_sysRefs. rewrite G. f_equal. generalize (@nil cref, @nil string). generalize (List.concat (map snd (smGroups b))).
  induction l as [|p l IH]; intros st; cbn [fold_left]; [reflexivity|]. rewrite N. apply IH.
Qed.
Definition is_nsys (o : nlop) : Prop := match o with NSys _ _ => True | _ => False end.
Lemma calls_cons bb o ops : sys_calls bb (o :: ops) = sys_calls bb [o] ++ sys_calls (NLLHP2.bstep bb o) ops.
Proof. destruct o; try reflexivity. destruct rate; [reflexivity|]. cbn. destruct bb; reflexivity. Qed.
Lemma calls_refs t bb o : ~ is_nsys o -> nl_sysRefs (smrun t (sys_calls bb [o])) = nl_sysRefs t.
Proof.
  intros H. destruct o; try reflexivity; [|exfalso; apply H; exact I].
  assert (K : nl_sysRefs (fst (sm_addDist t (bdName b) groups)) = nl_sysRefs t).
  { unfold sm_addDist. destruct (sm_unique t groups); cbn [obind fst]; try reflexivity. }
  cbn. destruct rate; [exact K|]. destruct bb; [reflexivity|exact K].
Qed.
Lemma refs_shape m : exists qs, nl_sysRefs m = map RSys qs /\ NoDup qs /\
  (forall q, In q qs -> In q (List.concat (map snd (smGroups m)))) /\
  (forall p, In p (List.concat (map snd (smGroups m))) -> exists q, In q qs /\ syName (smObj m q) = syName (smObj m p)).
Proof.
  unfold nl_sysRefs. set (l := List.concat (map snd (smGroups m))). clearbody l.
  assert (G : forall l qs ns, ns = map (fun q => syName (smObj m q)) qs -> NoDup ns ->
    exists qs', fold_left (fun (st : list cref * list string) p =>
         let n := syName (smObj m p) in
         if inb n (snd st) then st else (fst st ++ [RSys p], snd st ++ [n])) l (map RSys qs, ns) = (map RSys (qs ++ qs'), ns ++ map (fun q => syName (smObj m q)) qs') /\
      NoDup (ns ++ map (fun q => syName (smObj m q)) qs') /\ (forall q, In q qs' -> In q l) /\
      (forall p, In p l -> In (syName (smObj m p)) (ns ++ map (fun q => syName (smObj m q)) qs'))).
  { clear l. induction l as [|p l IH]; intros qs ns Hns ND; cbn [fold_left].
    - exists []. cbn. rewrite !app_nil_r. split; [reflexivity|]. split; [exact ND|]. split; intros q [].
    - cbn [fst snd]. destruct (inb (syName (smObj m p)) ns) eqn:E.
      + destruct (IH qs ns Hns ND) as [qs' [F [N1 [I1 I2]]]]. exists qs'. split; [exact F|]. split; [exact N1|]. split; [intros q Hq; right; auto|].
        intros q [<-|Hq]; [|auto]. apply in_or_app. left. now apply inb_In.
      + destruct (IH (qs ++ [p]) (ns ++ [syName (smObj m p)])) as [qs' [F [N1 [I1 I2]]]].
        * rewrite map_app, Hns. reflexivity.
        * rewrite <- (rev_involutive (ns ++ _)), rev_unit. apply NoDup_rev. constructor; [|apply NoDup_rev; exact ND]. rewrite <- in_rev. intros C. apply inb_In in C. congruence.
        * exists (p :: qs'). rewrite map_app in F. cbn [map] in F. rewrite F. rewrite <- !app_assoc in *. cbn [app map] in *. split; [reflexivity|]. split; [exact N1|]. split.
          -- intros q [<-|Hq]; [now left|right; auto].
          -- intros q [<-|Hq]; [|auto]. apply in_or_app. right. now left. }
  destruct (G l [] [] eq_refl (NoDup_nil _)) as [qs [F [N1 [I1 I2]]]]. cbn [map app] in F. rewrite F. cbn [app fst] in *. exists qs. split; [reflexivity|]. split; [eapply NoDup_map_inv; exact N1|].
  split; [exact I1|]. intros p Hp. apply I2 in Hp. apply in_map_iff in Hp as [q [E Hq]]. exists q. auto.
Qed.
Lemma in_groups m q : sm_inv m -> (In q (List.concat (map snd (smGroups m))) <-> exists g, In q (sm_grp m g)).
Proof.
  intros [W _]. rewrite in_concat. split.
  - intros [l [Hl Hq]]. apply in_map_iff in Hl as [[g l'] [<- Hg]]. exists g. unfold sm_grp. apply sfind_In in Hg; [|exact W]; rewrite Hg. exact Hq.
  - intros [g Hq]. unfold sm_grp in Hq. destruct (sfind g (smGroups m)) as [l|] eqn:E; [|destruct Hq]. exists l. split; [|exact Hq].
    apply in_map_iff. exists (g, l). split; [reflexivity|]. now apply sfind_In.
Qed.

Section Hist4.
Variables (names : nat -> string) (par : nat -> comp) (build : nat -> comp -> smat * res unit) (obs : list string).
Notation calmS := (calmS names par build obs).
Definition regs (s : nllh) : Prop := nlReg s = RPdfs :: nl_sysRefs (nlSm s).

Lemma nldoS s o a t : calmS s -> skel (nlSm s) t -> steady obs o -> has_data s a ->
  let s' := nldo s o in let t' := smrun t (sys_calls (nlBB s) [o]) in
  calmS s' /\ skel (nlSm s') t' /\ pairs (nlPm s') = pairs (nlPm s) ++ map fst (pdfs_from (nlBB s) [o]) /\
  nlCm s' = cstep (nlCm s) o /\ nlBB s' = NLLHP2.bstep (nlBB s) o /\ has_data s' (NLLHP2.dstep a o) /\
  (is_reg o = true \/ (~ is_nsys o /\ regs s) -> regs s').
Proof.
  intros C K P HD. cbv zeta.
  assert (RG : forall s' t', skel (nlSm s') t' -> nlReg s' = nlReg s -> nl_sysRefs t' = nl_sysRefs t -> regs s -> regs s').
  { intros s' t' [G' [_ N']] Er Et R. unfold regs in *. rewrite Er, R. f_equal. rewrite (refs_eq _ _ G' N'), Et. destruct K as [KG [_ KN]]. apply refs_eq; assumption. }
  assert (B : forall s', calmS s' -> skel (nlSm s') t -> pairs (nlPm s') = pairs (nlPm s) -> nlCm s' = cstep (nlCm s) o -> nlBB s' = NLLHP2.bstep (nlBB s) o -> nlReg s' = nlReg s ->
     is_reg o = false -> sys_calls (nlBB s) [o] = [] -> pdfs_from (nlBB s) [o] = [] -> has_data s' (NLLHP2.dstep a o) ->
     calmS s' /\ skel (nlSm s') (smrun t (sys_calls (nlBB s) [o])) /\ pairs (nlPm s') = pairs (nlPm s) ++ map fst (pdfs_from (nlBB s) [o]) /\
     nlCm s' = cstep (nlCm s) o /\ nlBB s' = NLLHP2.bstep (nlBB s) o /\ has_data s' (NLLHP2.dstep a o) /\ (is_reg o = true \/ (~ is_nsys o /\ regs s) -> regs s')).
  { intros s' C' K' Pp Ec Eb Er Io Es Ep Hd. rewrite Es, Ep. cbn [map smrun]. rewrite app_nil_r. repeat (split; [assumption|]).
    intros [H|[_ H]]; [congruence|]. exact (RG s' t K' Er eq_refl H). }
  assert (Ksame : forall s', nlSm s' = nlSm s -> skel (nlSm s') t) by (intros s' ->; exact K).
  destruct o; cbn [steady] in P; try contradiction.
  - destruct P as [Ho Hb]. cbn [nldo]. destruct (addS names par build obs s b groups rate st t C K Ho Hb) as [C1 [M1 [_ Q1]]]. cbv zeta in *.
    set (s' := fst (nl_addPdf s b groups rate st)) in *. destruct M1 as [M1 [M2 [M3 [M4 M5]]]].
    assert (HD' : has_data s' (NLLHP2.dstep a (NAdd b groups rate st))) by (cbn [NLLHP2.dstep]; destruct a as [D|]; [cbn in *; rewrite M4, M5; exact HD|exact I]).
    assert (QQ : pairs (nlPm s') = pairs (nlPm s) ++ map fst (pdfs_from (nlBB s) [NAdd b groups rate st]) /\ skel (nlSm s') (smrun t (sys_calls (nlBB s) [NAdd b groups rate st]))).
    { unfold effective in Q1. destruct rate as [r|].
      - destruct Q1 as [Q1 Q2]. split; [exact Q1|exact Q2].
      - cbn [pdfs_from sys_calls app]. destruct (nlBB s); cbn [negb] in Q1; [rewrite Q1; cbn; rewrite app_nil_r; split; [reflexivity|exact K]|]. destruct Q1 as [Q1 Q2]. split; [exact Q1|exact Q2]. }
    destruct QQ as [QP QK]. repeat (split; [assumption|]). intros [H|[_ H]]; [discriminate|].
    apply (RG s' _ QK M3); [|exact H]. apply calls_refs. intros [].
  - cbn [nldo]. destruct (sysS names par build obs s p g t C K) as [C1 [K1 [M1 [Pm1 _]]]]. cbv zeta in *. set (s' := fst (nl_addSys s p g)) in *. destruct M1 as [M1 [M2 [M3 [M4 M5]]]].
    split; [exact C1|]. split; [exact K1|]. split; [rewrite Pm1; cbn; now rewrite app_nil_r|]. split; [exact M1|]. split; [exact M2|]. split.
    + destruct a as [D|]; [cbn in *; rewrite M4, M5; exact HD|exact I].
    + intros [H|[H _]]; [discriminate|]. exfalso. apply H. exact I.
  - apply B; auto; [constructor; cbn; try apply C; auto|split; reflexivity].
  - apply B; auto. constructor; cbn; try apply C; discriminate.
  - apply B; auto. constructor; cbn; apply C.
  - apply B; auto. constructor; cbn; apply C.
  - apply B; auto. constructor; cbn; apply C.
  - apply B; auto. constructor; cbn; try apply C.
  - assert (T : same_structure (nlPm s) (fst (em_setNorms (nlPm s) l))).
    { unfold em_setNorms. destruct (Nat.eqb_spec (List.length l) (List.length (emOrig (nlPm s)))) as [E|E]; cbn [negb fst]; [|apply structure_refl].
      pose proof (csInv _ _ _ _ _ C) as [[_ [L2 _]] _]. cbn in L2. repeat split; cbn. change (List.length l = List.length (emNorms (nlPm s))). unfold emNorms in *. cbn in L2. congruence. }
    cbn [nldo]. unfold nl_setNorms. destruct (em_setNorms (nlPm s) l) as [p r]. cbn [fst] in *. apply B; auto; [apply calmS_pm; auto|apply structure_pairs; exact T].
  - cbn [nldo pdfs_from map sys_calls smrun]. rewrite app_nil_r. destruct (refs_shape (nlSm s)) as [qs [Eq _]].
    split; [constructor; cbn; try apply C; right; exists qs; rewrite Eq; reflexivity|]. split; [exact K|]. repeat (split; [reflexivity|]). split; [exact HD|]. intros _. reflexivity.
  - destruct (paramsS names par build obs s d t C K) as [C1 [K1 [M1 T1]]]. cbv zeta in *. cbn [nldo]. set (s' := fst (nl_setParams s d)) in *. destruct M1 as [M1 [M2 [M3 [M4 M5]]]].
    apply B; auto; [apply structure_pairs; exact T1|]. destruct a as [D|]; [cbn in *; rewrite M4, M5; exact HD|exact I].
  - destruct (evalS names par build obs s C) as [C1 [A1 [A2 [A3 [A4 [A5 [A6 [A7 [A8 [[A9 A9'] [A10 A11]]]]]]]]]]]. cbn [nldo]. set (s' := fst (nl_eval s)) in *.
    apply B; auto; [eapply skel_shape; eassumption|]. destruct a as [D|]; [cbn in *|exact I]. destruct HD as [H1 H2]. destruct (A11 H1) as [H3 H4]. rewrite H4. auto.
Qed.
Lemma smrun_app2 a b : forall s, smrun s (a ++ b) = smrun (smrun s a) b.
Proof. induction a as [|o a IH]; intros s; cbn; [reflexivity|apply IH]. Qed.
Lemma nlrunS ops : forall s a t, calmS s -> skel (nlSm s) t -> Forall (steady obs) ops -> has_data s a ->
  let s' := nlrun s ops in
  calmS s' /\ skel (nlSm s') (smrun t (sys_calls (nlBB s) ops)) /\ pairs (nlPm s') = pairs (nlPm s) ++ map fst (pdfs_from (nlBB s) ops) /\
  nlCm s' = fold_left cstep ops (nlCm s) /\ nlBB s' = fold_left NLLHP2.bstep ops (nlBB s) /\ has_data s' (fold_left NLLHP2.dstep ops a) /\
  (regs s /\ Forall (fun o => match o with NSys _ _ => False | _ => True end) ops \/ registered ops -> regs s').
Proof.
  induction ops as [|o ops IH]; intros s a t C K F HD; cbv zeta.
  - cbn. rewrite !app_nil_r. repeat (split; [first [assumption|reflexivity]|]). intros [[H _]|[o1 [o2 [H _]]]]; [exact H|]. destruct o1; discriminate.
  - inversion F as [|? ? F1 F2]; subst. destruct (nldoS s o a t C K F1 HD) as [A1 [A2 [A3 [A4 [A5 [A6 A7]]]]]]. cbv zeta in *.
    cbn [nlrun fold_left]. destruct (IH (nldo s o) _ _ A1 A2 F2 A6) as [B1 [B2 [B3 [B4 [B5 [B6 B7]]]]]]. cbv zeta in *. unfold nlrun in *.
    split; [exact B1|]. split; [rewrite calls_cons, smrun_app2, <- A5; exact B2|]. split; [rewrite B3, A3, A5, <- app_assoc, <- map_app, <- pdfs_from_cons; reflexivity|].
    split; [rewrite B4, A4; reflexivity|]. split; [rewrite B5, A5; reflexivity|]. split; [exact B6|].
    intros [[H G]|[o1 [o2 [E G]]]].
    + inversion G as [|? ? G1 G2]; subst. apply B7. left. split; [|exact G2]. apply A7. right. split; [|exact H]. destruct o; auto.
    + destruct o1 as [|o' o1]; cbn [app] in E; injection E as E1 E2; subst.
      * apply B7. left. split; [apply A7; now left|exact G].
      * apply B7. right. exists o1, o2. auto.
Qed.
End Hist4.
