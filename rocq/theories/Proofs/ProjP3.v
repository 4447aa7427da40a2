(** C99: the generic theorem, for a history of calls. *)
From Coq Require Import ZArith Reals Lia.
From Verif Require Import Base.Res Base.Num Base.RNum Base.SMap Model.Axis Model.Event Model.Cut Model.Hist Model.ED Model.Param Model.Matrix Model.SystMan Model.Shrink Model.EDMan
  Model.Fill Model.Constraint Model.NLLH Spec.AxisSpec Spec.HistSpec Spec.ParamSpec Spec.EDManSpec Spec.SystManSpec Spec.NLLHSpec Spec.NLLHSysSpec Spec.ShrinkSpec Spec.BufferSpec Spec.ProjSpec
  Proofs.AxisP Proofs.HistP Proofs.HistP2 Proofs.HistP4 Proofs.ParamP Proofs.ParamP2 Proofs.ParamP3 Proofs.EDManP Proofs.EDManP2 Proofs.SystManP Proofs.SystManP2 Proofs.SystManP3 Proofs.NLLHP Proofs.NLLHP2
  Proofs.NLLHP3 Proofs.NLLHS1 Proofs.NLLHS2 Proofs.NLLHS3 Proofs.NLLHS4 Proofs.NLLHS5 Proofs.NLLHS6 Proofs.NLLHS8 Proofs.BufferP1 Proofs.BufferP2 Proofs.BufferP3 Proofs.BufferP4 Proofs.BufferP5 Proofs.ProjP2.
Local Open Scope Qc_scope.
Local Open Scope res_scope.

Section C.
Variable obs : list string.
Definition fakeD : bed := mkBed EmptyString hist0 (mk_obsset obs).
Definition dullP (o : nlop) : nlop := match o with NBuffer _ _ _ => NOver false | NData _ => NData fakeD | _ => o end.
Definition coreP (ops : list nlop) : list nlop := map dullP ops.
Definition last_data (ops : list nlop) (B : bed) : bed := fold_left (fun B o => match o with NData b => b | _ => B end) ops B.
Lemma coreP_pdfs ops : forall bb, pdfs_from bb (coreP ops) = pdfs_from bb ops.
Proof. induction ops as [|o ops IH]; intros bb; [reflexivity|]. destruct o as [b g [r|] st| | | | | | y | | | | | |]; cbn [coreP map dullP pdfs_from]; fold (coreP ops); rewrite ?IH; auto. Qed.
Lemma coreP_calls ops : forall bb, sys_calls bb (coreP ops) = sys_calls bb ops.
Proof. induction ops as [|o ops IH]; intros bb; [reflexivity|]. destruct o as [b g [r|] st| | | | | | y | | | | | |]; cbn [coreP map dullP sys_calls]; fold (coreP ops); rewrite ?IH; auto. Qed.
Lemma coreP_fold {A} (f : A -> nlop -> A) ops : (forall a n lo up, f a (NBuffer n lo up) = f a (NOver false)) -> (forall a b, f a (NData b) = f a (NData fakeD)) -> forall a, fold_left f (coreP ops) a = fold_left f ops a.
Proof. intros H H2. induction ops as [|o ops IH]; intros a; [reflexivity|]. destruct o; cbn [coreP map dullP fold_left]; fold (coreP ops); rewrite ?H; try apply IH. rewrite (H2 a b). apply IH. Qed.
Lemma coreP_reg ops : registered ops -> registered (coreP ops).
Proof.
  intros [o1 [o2 [-> F]]]. exists (coreP o1), (coreP o2). split; [unfold coreP; now rewrite map_app|]. unfold coreP. rewrite Forall_map. eapply Forall_impl; [|exact F]. now intros [].
Qed.
Lemma coreP_steady ops : Forall (setting_pdfs obs) ops -> Forall (steady obs) (coreP ops).
Proof. intros F. unfold coreP. rewrite Forall_map. eapply Forall_impl; [|exact F]. intros []; cbn; auto. Qed.
Lemma coreP_data ops : forall a b, (a = None <-> b = None) -> (forall E, b = Some E -> E = fakeD) ->
  match fold_left NLLHP2.dstep ops a with Some _ => fold_left NLLHP2.dstep (coreP ops) b = Some fakeD | None => fold_left NLLHP2.dstep (coreP ops) b = None end.
Proof.
  induction ops as [|o ops IH]; intros a b H1 H2; cbn [fold_left coreP map].
  - destruct a as [E|]; [|now apply H1]. destruct b as [E'|]; [f_equal; now apply H2|]. destruct H1 as [_ H1]. discriminate (H1 eq_refl).
  - fold (coreP ops). destruct o; cbn [dullP NLLHP2.dstep]; try (apply IH; auto; fail).
    + apply IH; [split; discriminate|]. now intros E [= <-].
    + apply IH; [tauto|discriminate].
Qed.
Lemma last_of ops D : forall a B, (forall E, a = Some E -> E = B) -> fold_left NLLHP2.dstep ops a = Some D -> last_data ops B = D.
Proof.
  unfold last_data. induction ops as [|o ops IH]; intros a B Ha H; cbn [fold_left] in *; [symmetry; now apply Ha|].
  destruct o; cbn [NLLHP2.dstep] in H; try (eapply IH; eassumption).
  - eapply IH; [|exact H]. now intros E [= <-].
  - eapply IH; [|exact H]. discriminate.
Qed.
Definition dress (u : nllh) (y : shrinker) (B : bed) : nllh := nl_withSh (nl_withData u B (nlCalc u)) y.
Lemma puts_dress l : forall u y B, fold_left nl_putComp l (dress u y B) = dress (fold_left nl_putComp l u) y B.
Proof. induction l as [|rc l IH]; intros u y B; cbn [fold_left]; [reflexivity|]. rewrite <- IH. f_equal. destruct rc as [[|q] c]; [destruct c|]; reflexivity. Qed.
Lemma do_dress u y B o : setting_pdfs obs o -> (forall n lo up, o <> NBuffer n lo up) -> (forall b, o <> NOver b) -> (forall b, o <> NData b) -> nldo (dress u y B) o = dress (nldo u o) y B.
Proof.
  intros H H1 H2 H3. destruct o; cbn [setting_pdfs] in H; try contradiction; cbn [nldo]; try reflexivity; try (exfalso; now eapply H1); try (exfalso; now eapply H2); try (exfalso; now eapply H3).
  - unfold nl_addPdf. cbn [dress nl_withData nl_withSh nlBB nlPm]. destruct (match rate with None => nlBB u | Some _ => false end); [reflexivity|].
    destruct (em_addPdf (nlPm u) b st) as [p [[]|e| | |]]; cbn [obind fst]; try reflexivity. cbn [nl_withPm nl_withData nl_withSh dress nlSm]. destruct (sm_addDist (nlSm u) (bdName b) groups) as [m [[]|e| | |]]; cbn [obind fst]; try reflexivity.
    destruct rate; reflexivity.
  - unfold nl_addSys. cbn [dress nl_withData nl_withSh nlSm]. destruct (sm_add (nlSm u) p g); reflexivity.
  - unfold nl_setNorms. cbn [dress nl_withData nl_withSh nlPm]. destruct (em_setNorms (nlPm u) l); reflexivity.
  - unfold nl_setParams. change (nlReg (dress u y B)) with (nlReg u). replace (map (nl_comp (dress u y B)) (nlReg u)) with (map (nl_comp u) (nlReg u)) by (apply map_ext; intros [|q]; reflexivity).
    destruct (cm_setAll _ d) as [cs r]. cbn [fst]. apply puts_dress.
Qed.
Lemma run_coreP ops : Forall (setting_pdfs obs) ops -> forall u y B, nlrun (dress u y B) ops = dress (nlrun u (coreP ops)) (fold_left sh_do (buffers ops) y) (last_data ops B).
Proof.
  unfold nlrun, last_data. induction 1 as [|o ops H F IH]; intros u y B; [reflexivity|]. cbn [fold_left].
  destruct o; try (rewrite do_dress by (try exact H; discriminate); apply IH).
  - cbn [nldo coreP map dullP buffers fold_left]. fold (coreP ops). change (nl_setData (dress u y B) b) with (dress (nl_setData u fakeD) y b). apply IH.
  - cbn [nldo coreP map dullP buffers fold_left sh_do]. fold (coreP ops). change (nl_setBuffer (dress u y B) n lo up) with (dress (nl_setOver u false) (sh_setBuffer y n lo up) B). apply IH.
  - cbn [nldo coreP map dullP buffers fold_left sh_do]. fold (coreP ops). change (nl_setOver (dress u y B) b) with (dress (nl_setOver u b) (sh_setOver y b) B). apply IH.
Qed.
Lemma run_shrunkP ops : Forall (setting_pdfs obs) ops -> forall s, nlShrunk s = false -> nlShrunk (nlrun s ops) = false.
Proof.
  unfold nlrun. induction 1 as [|o ops H F IH]; intros s E; [exact E|]. cbn [fold_left]. apply IH. destruct o; cbn [setting_pdfs] in H; try contradiction; cbn [nldo]; auto.
  - unfold nl_addPdf. destruct (match rate with None => nlBB s | Some _ => false end); [exact E|].
    destruct (em_addPdf (nlPm s) b st) as [p [[]|e| | |]]; cbn [obind fst]; try exact E. cbn [nl_withPm nlSm]. destruct (sm_addDist (nlSm s) (bdName b) groups) as [m [[]|e| | |]]; cbn [obind fst]; try exact E.
    destruct rate; exact E.
  - unfold nl_addSys. destruct (sm_add (nlSm s) p g); exact E.
  - unfold nl_setNorms. destruct (em_setNorms (nlPm s) l); exact E.
  - unfold nl_setParams. destruct (cm_setAll _ d) as [cs r]. cbn [fst]. generalize (combine (nlReg s) cs). intros l. revert s E. induction l as [|rc l IHl]; intros s E; cbn [fold_left]; [exact E|]. apply IHl. destruct rc as [[|q] c]; [destruct c|]; exact E.
Qed.
End C.

Lemma gen_pkg names par build obs ops ts d D D' x nk (F : bed -> nfs -> bed) (ok : bed -> nfs -> Prop) : let pdfs := NLLHSpec.added ops in let bs := buffers ops in
  (forall q, comp_ok (par q)) -> Forall (setting_pdfs obs) ops -> registered ops -> distinct_names names ops -> bb_in ops = false -> data_in ops = Some D ->
  sh_setBinMap (configured bs) D = (x, Ok tt) -> sh_shrink x D = Ok D' -> h_reach (bdHist D') /\ hNBins (bdHist D') = nk ->
  NoDup (fitted pdfs) -> direct_first pdfs ->
  (forall w st, h_reach (bdHist w) -> (exists o, In (o, st) pdfs /\ w = with_contents o (hCont (bdHist w))) -> ok w st -> h_reach (bdHist (F w st)) /\ hNBins (bdHist (F w st)) = nk) ->
  (forall p R, loose p -> pairs p = pdfs -> (forall o st, In (o, st) pdfs -> h_reach (bdHist (R o)) /\ R o = with_contents o (hCont (bdHist (R o))) /\ ok (R o) st) ->
     worksG p (fun o _ => R o) -> exists p', tailG D' x p = (p', Ok tt) /\ worksG p' (fun o st => F (R o) st)) ->
  (forall q, ~ is_sys names ops q) \/ (forall b, In b pdfs -> regd (bdName (fst b)) (sys_accepted names ops) <> None) ->
  ((forall q, ~ is_sys names ops q) -> (forall o st, In (o, st) pdfs -> ok o st) /\
    forall p, loose p -> pairs p = pdfs -> worksG p F -> exists p', tailG D' x p = (p', Ok tt) /\ worksG p' F) ->
  swf d -> (forall n, In n (fitted pdfs) -> has_key d n) ->
  (forall q n, is_sys names ops q -> ~ is_dict (par q) -> In n (c_names (par q)) -> has_key d n) -> Forall tuning ts ->
  exists s p, nl_setParams (nlrun (nl_new names par build) (ops ++ ts)) d = (s, Ok tt) /\
    (forall q n v, is_sys names ops q -> In n (c_names (par q)) -> sfind n d = Some v -> c_get (nlPar s q) n = Ok v) /\
    let M := fun q => fst (build q (nlPar s q)) in
    (forall q, is_sys names ops q -> snd (build q (nlPar s q)) = Ok tt) -> fits names ops M pdfs ->
    (forall b, In b pdfs -> ok (with_contents (fst b) (responded names ops M (fst b))) (snd b)) ->
    forall m, let s' := nlrun s (repeat NEval m) in
     nl_getParams s' = Ok p /\
     (forall n v, sfind n d = Some v -> In n (fitted pdfs) \/ (exists q, is_sys names ops q /\ In n (c_names (par q))) -> sfind n p = Some v) /\
     snd (nl_eval s') = outcome (cont (bdHist D')) (fun k => qsum (map (fun b => norm_in d b * cont (bdHist (F (with_contents (fst b) (responded names ops M (fst b))) (snd b))) k) pdfs)) (hNBins (bdHist D')) (cman_eval (con_in ops) p).
Proof.
  cbv zeta. intros Hpar Fo Hreg Hdn Hbb Hdat Hmap Hsh HD' Hnd Hdf HF Htail Hmode0 Hagain Wd Hk Hks Ht. set (bs := buffers ops) in *. set (pdfs := NLLHSpec.added ops) in *.
  (* set up *)
  assert (K0 : skel (nlSm (nl_new names par build)) (sm_new (obj0 names))) by (repeat split).
  destruct (nlrunS names par build obs (coreP obs ops) (nl_new names par build) None _ (calmS_new names par build obs Hpar) K0 (coreP_steady obs ops Fo) I) as [A1 [A2 [A3 [A4 [A5 [A6 A7]]]]]]. cbv zeta in *.
  specialize (A7 (or_intror (coreP_reg obs ops Hreg))).
  pose proof (run_coreP obs ops Fo (nl_new names par build) sh_new bed0) as RC. change (dress (nl_new names par build) sh_new bed0) with (nl_new names par build) in RC. fold bs in RC. change (fold_left sh_do bs sh_new) with (configured bs) in RC.
  pose proof (run_shrunkP obs ops Fo (nl_new names par build) eq_refl) as RS.
  set (u := nlrun (nl_new names par build) (coreP obs ops)) in *. set (s0 := nlrun (nl_new names par build) ops) in *. change (nlBB (nl_new names par build)) with false in *.
  rewrite coreP_calls in A2. rewrite coreP_pdfs in A3. rewrite coreP_fold in A4 by reflexivity. rewrite coreP_fold in A5 by reflexivity.
  change (data_in ops) with (fold_left NLLHP2.dstep ops None) in Hdat. pose proof (coreP_data obs ops None None) as Cd. rewrite Hdat in Cd. rewrite Cd in A6 by (try tauto; discriminate). destruct A6 as [Hc _].
  assert (LD : last_data ops bed0 = D) by (eapply last_of; [|exact Hdat]; discriminate). rewrite LD in RC.
  destruct (history_pkg (obj0 names) (sys_calls false ops)) as [HG HDs]. cbv zeta in *.
  change (accepted (sm_new (obj0 names)) (sys_calls false ops)) with (sys_accepted names ops) in HG, HDs.
  set (t := smrun (sm_new (obj0 names)) (sys_calls false ops)) in *.
  assert (Gr : forall a, skel a t -> forall g, sm_grp a g = group_in names ops g).
  { intros a [Ga _] g. unfold group_in. rewrite <- HG. unfold sm_grp. now rewrite Ga. }
  assert (Ac : forall a b, skel a t -> actS a b = acting_on names ops b).
  { intros a b Ka. pose proof Ka as [_ [Da _]]. unfold actS, acting_on. rewrite Da, HDs. destruct (regd (bdName b) (sys_accepted names ops)) as [gs|]; [|reflexivity].
    unfold acting. rewrite (Gr a Ka). f_equal. apply flat_map_ext. apply (Gr a Ka). }
  assert (Cnt : forall m, sm_count m = List.length (List.concat (map snd (smGroups m)))).
  { intros m. unfold sm_count. generalize (smGroups m). induction s as [|kv l IH]; cbn; [reflexivity|]. rewrite app_length. unfold list_sum in IH. lia. }
  assert (Hmode : (sm_count t = 0%nat /\ (forall o st, In (o, st) pdfs -> ok o st) /\
    forall p, loose p -> pairs p = pdfs -> worksG p F -> exists p', tailG D' x p = (p', Ok tt) /\ worksG p' F) \/
    (sm_count t <> 0%nat /\ forall b, In b pdfs -> sfind (bdName (fst b)) (smDists t) <> None)).
  { assert (N0 : (forall q, ~ is_sys names ops q) -> sm_count t = 0%nat).
    { intros N. pose proof A2 as [G2 _]. rewrite <- (count_groups _ _ G2), Cnt. destruct (List.concat (map snd (smGroups (nlSm u)))) as [|q l] eqn:E; [reflexivity|]. exfalso.
      apply (N q). destruct (proj1 (in_groups (nlSm u) q (csSm _ _ _ _ _ A1))) as [g Hg]; [rewrite E; now left|]. exists g. rewrite <- (Gr _ A2). exact Hg. }
    destruct (Nat.eq_dec (sm_count t) 0) as [Z|Z].
    - left. split; [exact Z|]. apply Hagain. intros q [g Hq]. unfold group_in in Hq. rewrite <- HG in Hq. rewrite (grp0 t Z) in Hq. destruct Hq.
    - right. split; [exact Z|]. destruct Hmode0 as [N|H]; [exfalso; apply Z, N0, N|]. intros b Hi. rewrite HDs. exact (H b Hi). }
  assert (Pu : pairs (nlPm u) = pdfs) by (rewrite A3; reflexivity).
  assert (Es0 : nlPm s0 = nlPm u /\ nlSm s0 = nlSm u /\ nlCm s0 = nlCm u /\ nlBB s0 = nlBB u /\ nlReg s0 = nlReg u /\ nlCalc s0 = nlCalc u /\ nlData s0 = D /\ nlSh s0 = configured bs /\ nlPar s0 = nlPar u /\ nlBuild s0 = nlBuild u) by (rewrite RC; repeat split).
  destruct Es0 as [Z1 [Z2 [Z3 [Z4 [Z5 [Z6 [Z7 [Z8 [Z9 Z10]]]]]]]]].
  assert (LW : List.length (emWork (nlPm u)) = List.length (emOrig (nlPm u))).
  { pose proof (csInv _ _ _ _ _ A1) as [_ F2]. apply reshaped_names in F2; apply (f_equal (@List.length _)) in F2; rewrite !map_length in F2; exact F2. }
  assert (U0 : NLLHS2.calmS names par build obs (un obs s0)).
  { constructor; cbn [un nlPm nlSh nlSm nlCalc nlData nlReg nlBuild nlPar]; rewrite ?Z1, ?Z2, ?Z5, ?Z9, ?Z10; try apply A1.
    - apply base_inv2. split; [apply (csInv _ _ _ _ _ A1)|exact LW].
    - reflexivity.
    - intros _. reflexivity.
    - cbn. intros j o w H1 H2 _. congruence. }
  assert (G0 : goodG names par build obs bs D D' x pdfs (con_in ops) t F s0).
  { assert (Lo0 : loose (nlPm s0)) by (rewrite Z1; split; [apply (csInv _ _ _ _ _ A1)|exact LW]).
    assert (K0' : skel (nlSm s0) t) by (rewrite Z2; exact A2). assert (Pp0 : pairs (nlPm s0) = pdfs) by (rewrite Z1; exact Pu).
    pose proof (live_of D' x nk HD' pdfs t F ok Hmode s0 Lo0 K0' Pp0) as Lv. constructor; auto.
    - constructor; auto; [apply Lo0|congruence|]. left. split; [exact RS|]. split; [exact Z7|exact Z8].
    - rewrite Z3, A4. reflexivity.
    - rewrite Z4, A5. exact Hbb.
    - unfold regs in *. rewrite Z5, Z2. exact A7.
    - intros Z. left. rewrite Z1. intros i o st Ho Hst. destruct (nth_error (emWork (nlPm u)) i) as [w|] eqn:Ew.
      + f_equal. apply (csWork _ _ _ _ _ A1 i o w Ho Ew). right. destruct A2 as [G2 _]. rewrite (count_groups _ _ G2). exact Z.
      + apply nth_error_None in Ew. assert (i < List.length (emOrig (nlPm u)))%nat by (apply nth_error_Some; congruence). lia. }
  assert (G1 : goodG names par build obs bs D D' x pdfs (con_in ops) t F (nlrun (nl_new names par build) (ops ++ ts))).
  { unfold nlrun. rewrite fold_left_app. apply (tunesG names par build obs bs D D' x nk Hmap Hsh HD' pdfs (con_in ops) t F ok Htail Hmode ts Ht). exact G0. }
  set (s1 := nlrun (nl_new names par build) (ops ++ ts)) in *. pose proof G1 as [C1 K1 Pp1 Cm1 BB1 Rg1 _]. pose proof (cbUn _ _ _ _ _ _ _ _ _ C1) as U1.
  destruct (refs_shape (nlSm s1)) as [qs [Eqs [Nqs [Iq1 Iq2]]]]. unfold regs in Rg1. rewrite Eqs in Rg1.
  assert (Sys : forall q, In q (List.concat (map snd (smGroups (nlSm s1)))) <-> is_sys names ops q).
  { intros q. rewrite (in_groups _ q (csSm _ _ _ _ _ U1)). unfold is_sys. split; intros [g Hg]; exists g; [rewrite <- (Gr _ K1)|rewrite <- (Gr _ K1) in Hg]; exact Hg. }
  assert (Qs : forall q, In q qs <-> is_sys names ops q).
  { intros q. split; [intros Hq; apply Sys, Iq1, Hq|]. intros Hq. destruct (Iq2 q (proj2 (Sys q) Hq)) as [q' [Hin En]].
    replace q with q'; [exact Hin|]. apply Hdn; [apply Sys, Iq1, Hin|exact Hq|]. rewrite <- (proj1 (csObj _ _ _ _ _ U1 q)), <- (proj1 (csObj _ _ _ _ _ U1 q')). exact En. }
  assert (Pu1 : pairs (nlPm (un obs s1)) = pdfs) by exact Pp1.
  destruct (setP names par build obs (un obs s1) d qs t U1 K1 Rg1 Nqs Wd) as [v [Ev [Cv [Kv [Mo [T [Hh Hq]]]]]]]; [rewrite Pu1; exact Hnd|rewrite Pu1; exact Hk|intros q n Hin; apply Hks, Qs, Hin|].
  assert (Pp2 : nlPm (fst (nl_setParams s1 d)) = nlPm (fst (nl_setParams s1 d))) by reflexivity.
  destruct (setParams_un obs s1 d) as [Eu As]. rewrite Eu in Ev. destruct (nl_setParams s1 d) as [s r] eqn:Es. cbn [fst snd] in *. injection Ev as Ev ->. subst v.
  assert (Ps : pairs (nlPm (un obs s)) = pdfs) by (rewrite (structure_pairs _ _ T); exact Pp1).
  destruct Mo as [M1 [M2 [M3 [M4 M5]]]]. cbn [un nlCm nlBB nlReg] in M1, M2, M3.
  pose proof T as [TO [_ [TS _]]]. cbn [un nlPm base setOW emOrig emStat] in TO, TS.
  assert (Gs : goodG names par build obs bs D D' x pdfs (con_in ops) t F s).
  { apply (backG names par build obs bs D D' x nk HD' pdfs (con_in ops) t F ok Hmode s1 s); auto; try congruence.
    unfold regs. rewrite M3, Rg1. rewrite <- Eqs. f_equal. apply refs_eq; [|].
    - destruct K1 as [X _]. destruct Kv as [Y _]. cbn in Y. congruence.
    - intros q. pose proof (proj1 (csObj _ _ _ _ _ U1 q)) as X1. pose proof (proj1 (csObj _ _ _ _ _ Cv q)) as X2. cbn [un nlSm] in X1, X2. congruence. }
  destruct (getP names par build obs (un obs s) d qs Cv) as [p [Ep [Wp [Sp [P1 P2]]]]]; [cbn [un nlReg]; congruence|rewrite Ps; exact Hnd|rewrite Ps; exact Hk|exact Hh|exact Hq|]. rewrite Ps in P1, P2.
  exists s, p. split; [reflexivity|]. split; [intros q n w Hs; apply (Hq q), Qs, Hs|]. intros HB [HF1 HF2] HT m.
  set (M := fun q => fst (build q (nlPar s q))) in *. pose proof Gs as [Cs _ _ _ _ _ _].
  destruct (evalsB names par build obs bs D D' x Hmap Hsh m s Cs) as [C' S'].
  pose proof (evals_good names par build obs bs D D' x nk Hmap Hsh HD' pdfs (con_in ops) t F ok Htail Hmode m s Gs) as G'.
  set (s' := nlrun s (repeat NEval m)) in *.
  pose proof S' as [B1 [B2 [B3 [B4 [B5 [B6 [B7 [B8 [[B9 B9'] [B10 B11]]]]]]]]]]. cbn [un nlCm nlBB nlReg nlPar nlSm] in B1, B2, B3, B5, B8.
  pose proof G' as [_ K' Pp' Cm' _ _ _].
  assert (Er : forall a b, skel a t -> respS a M b = with_contents b (responded names ops M b)) by (intros a b Ka; unfold respS, responded; now rewrite (Ac a b Ka)).
  assert (Ep' : nl_getParams s' = Ok p) by (rewrite <- (getParams_un obs s'); apply Sp; auto; apply (cbUn _ _ _ _ _ _ _ _ _ C')).
  split; [exact Ep'|]. split; [intros n w Hv H; apply P1; [exact Hv|]; destruct H as [H|[q [Hs Hn]]]; [now left|right]; exists q; split; [now apply Qs|exact Hn]|].
  assert (Mm : (fun q => fst (build q (nlPar s' q))) = M) by (unfold M; rewrite B5; reflexivity).
  rewrite (eval_gen names par build obs bs D D' x nk Hmap Hsh HD' pdfs (con_in ops) t F ok HF Htail Hmode d Hnd Hdf s' p G'); auto; rewrite ?Mm.
  - rewrite Cm'. f_equal. apply FunctionalExtensionality.functional_extensionality. intros k. f_equal. apply map_ext. intros b. now rewrite (Er _ _ K').
  - exact (B10 d Hh).
  - intros s3 C3 R3 P3 Q3 H3. apply Sp; auto; cbn [un nlReg nlPar]; try congruence.
  - intros g q Hq'. rewrite B5. apply HB. exists g. rewrite <- (Gr _ K'). exact Hq'.
  - intros g. destruct (HF1 g) as [n Hn]. exists n. rewrite (Gr _ K'), B5. exact Hn.
  - intros o st Hi. rewrite (Ac _ _ K'), B5. exact (HF2 (o, st) Hi).
  - intros o st Hi. rewrite (Er _ _ K'). exact (HT (o, st) Hi).
Qed.
