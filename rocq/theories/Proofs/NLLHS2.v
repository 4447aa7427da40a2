(** C89: what holds after every call on a likelihood with systematics. *)
From Coq Require Import ZArith Reals Lia.
From Verif Require Import Base.Res Base.Num Base.RNum Base.SMap Model.Axis Model.Event Model.Cut Model.Hist Model.ED Model.Param Model.Matrix Model.SystMan Model.Shrink Model.EDMan
  Model.Fill Model.Constraint Model.NLLH Spec.AxisSpec Spec.HistSpec Spec.ParamSpec Spec.EDManSpec Spec.SystManSpec Spec.NLLHSpec Spec.NLLHSysSpec
  Proofs.AxisP Proofs.HistP Proofs.HistP2 Proofs.ParamP Proofs.ParamP2 Proofs.ParamP3 Proofs.EDManP Proofs.EDManP2 Proofs.SystManP Proofs.SystManP2 Proofs.NLLHP Proofs.NLLHP2 Proofs.NLLHS1.
Local Open Scope Qc_scope.
Local Open Scope res_scope.

(** a component keeps its kind and its parameters *)
Definition evolves (c c' : comp) : Prop :=
  (is_dict c' <-> is_dict c) /\ (forall n, In n (c_names c) -> In n (c_names c')) /\ (~ is_dict c -> forall n, In n (c_names c') -> In n (c_names c)).
Lemma evolves_refl c : evolves c c. Proof. repeat split; auto. Qed.
Lemma evolves_trans a b c : evolves a b -> evolves b c -> evolves a c.
Proof. intros [A1 [A2 A3]] [B1 [B2 B3]]. split; [tauto|]. split; [auto|]. intros H n Hn. apply A3, B3; tauto. Qed.
Lemma setAll_keep c d : comp_ok c -> comp_ok (fst (c_setAll c d)) /\ evolves c (fst (c_setAll c d)).
Proof.
  intros H. destruct c as [nm v|d0|p|ns h]; cbn [c_setAll].
  - destruct (sfind nm d); cbn [fst]; (split; [exact I|]); repeat split; auto.
  - cbn [fst]. split; [apply sof_gen_wf; exact H|]. split; [reflexivity|]. split; [|intros C; exfalso; apply C; exact I].
    intros n. cbn [c_names]. intros Hn. apply sfind_in. revert Hn. revert d0 H. induction d as [|[k w] d IH]; intros d0 H Hn; cbn [fold_left fst snd]; [now apply sfind_in|].
    apply IH; [now apply sset_wf|]. apply skeys_sset_in. now right.
  - destruct H as [HR HU]. pose proof (pr_step p (PSetAll d) HR) as R. cbn [pm_step] in R.
    assert (P : pmPtrs (fst (pm_setAll p d)) = pmPtrs p) by (unfold pm_setAll; destruct (pm_setLoop _ _ _ _); reflexivity).
    destruct (pm_setAll p d) as [p' r]. cbn [fst] in *. split; [split; [exact R|]|].
    + intros n n' l B1 B2. unfold bound in *. rewrite P in B1, B2. eapply HU; eassumption.
    + unfold evolves. cbn [c_names is_dict]. unfold pm_names. rewrite P. repeat split; auto.
  - destruct H as [HR [Hn Hl]]. pose proof (spec_setLoop_reach d ns h 0 HR) as Q. destruct (spec_setLoop h d 0 ns) as [h' r]. cbn [fst] in *.
    destruct Q as [Q1 Q2]; [lia|]. split.
    + split; [exact Q1|]. split; [exact Hn|]. rewrite Hl. symmetry. apply Q2.
    + unfold evolves. cbn [is_dict]. split; [reflexivity|]. split; [|intros _]; intros n; rewrite !c_names_spec; auto.
Qed.

(** the shape of the systematic manager without its responses *)
Definition skel (a b : sman) : Prop := smGroups a = smGroups b /\ smDists a = smDists b /\ forall q, syName (smObj a q) = syName (smObj b q).
Lemma skel_names a b l : skel a b -> sm_names a l = sm_names b l.
Proof. intros [_ [_ N]]. unfold sm_names. apply map_ext. intros q. apply N. Qed.
Lemma foldM_ext {A B} (f g : B -> A -> res B) l : (forall s x, f s x = g s x) -> forall s, foldM f l s = foldM g l s.
Proof. intros H. induction l as [|x l IH]; intros s; cbn [foldM]; [reflexivity|]. rewrite H. destruct (g s x); cbn [bind]; auto. Qed.
Lemma skel_add a b p g : skel a b -> skel (fst (sm_add a p g)) (fst (sm_add b p g)) /\ snd (sm_add a p g) = snd (sm_add b p g).
Proof.
  intros K. pose proof K as [G [D N]]. unfold sm_add, sm_addGlobal.
  assert (Eg : forall n, sm_grp a n = sm_grp b n) by (intros; unfold sm_grp; now rewrite G).
  assert (S1 : forall n, skel (sm_setGroups a (sset n (sm_grp a n ++ [p]) (smGroups a))) (sm_setGroups b (sset n (sm_grp b n ++ [p]) (smGroups b)))).
  { intros n. unfold sm_setGroups. rewrite G, Eg. split; [reflexivity|]. split; [exact D|exact N]. }
  destruct (String.eqb g EmptyString); [|split; [apply S1|reflexivity]].
  assert (Ec : sm_checkOthers a p = sm_checkOthers b p).
  { unfold sm_checkOthers. rewrite G, N. destruct (sat EmptyString (smGroups b)) as [g0| | | |]; cbn [bind]; auto. rewrite (skel_names a b g0 K).
    destruct (foldM see (sm_names b g0) [syName (smObj b p)]) as [s1| | | |]; cbn [bind]; auto.
    erewrite foldM_ext; [reflexivity|]. intros s [k l]. cbn [fst snd]. now rewrite (skel_names a b l K). }
  rewrite Ec. destruct (sm_checkOthers b p); cbn [obind fst snd]; (split; [|reflexivity]); try exact K. apply S1.
Qed.
Lemma skel_dist a b n gs : skel a b -> skel (fst (sm_addDist a n gs)) (fst (sm_addDist b n gs)) /\ snd (sm_addDist a n gs) = snd (sm_addDist b n gs).
Proof.
  intros K. pose proof K as [G [D N]]. unfold sm_addDist.
  assert (Eu : sm_unique a gs = sm_unique b gs).
  { unfold sm_unique, sm_grp. rewrite G.
    rewrite (foldM_ext _ (fun sn (ig : nat * string) => match sfind (snd ig) (smGroups b) with None => Throw NotFoundError | Some g => sm_seeGroup b g (fst ig) sn end)).
    2: { intros s [i g]. cbn [fst snd]. unfold sm_seeGroup. destruct (sfind g (smGroups b)) as [l|]; [rewrite (skel_names a b l K)|]; reflexivity. }
    match goal with |- bind ?X _ = _ => destruct X as [seen| | | |]; cbn [bind]; auto end.
    destruct (list_eq_dec string_dec gs [EmptyString]); [reflexivity|]. rewrite (skel_names a b _ K). reflexivity. }
  rewrite Eu. destruct (sm_unique b gs); cbn [obind fst snd]; (split; [|reflexivity]); try exact K. split; [exact G|]. cbn [smDists smObj]. split; [now rewrite D|exact N].
Qed.
Lemma skel_shape a b a' : skel a b -> same_shape a a' -> skel a' b.
Proof. intros [A [B C]] [A' [B' [C' _]]]. split; [congruence|]. split; [congruence|]. intros q. rewrite C'. apply C. Qed.
Lemma skel_inv a b : skel a b -> sm_inv b -> sm_inv a.
Proof. intros [A [B _]] H. unfold sm_inv. rewrite A, B. exact H. Qed.

Section Calm.
Variables (names : nat -> string) (par : nat -> comp) (build : nat -> comp -> smat * res unit) (obs : list string).
Hypothesis Hpar : forall q, comp_ok (par q).
Definition obj0 : nat -> syst := fun p => mkSyst (names p) mat_empty (mat_empty, Ok tt).

Record calmS (s : nllh) : Prop := mkCalmS {
  csInv : em_inv2 (nlPm s);
  csBuf : shBuf (nlSh s) = [];
  csSm : sm_inv (nlSm s);
  csOrig : Forall (fun o => osNames (bdObs o) = obs /\ h_reach (bdHist o)) (emOrig (nlPm s));
  csDat : nlCalc s = true -> osNames (bdObs (nlData s)) = obs;
  csReg : nlReg s = [] \/ exists qs, nlReg s = RPdfs :: map RSys qs;
  csBuild : nlBuild s = build;
  csObj : forall p, syName (smObj (nlSm s) p) = names p /\ syBuild (smObj (nlSm s) p) = build p (nlPar s p);
  csPar : forall p, comp_ok (nlPar s p) /\ evolves (par p) (nlPar s p);
  csWork : forall j o w, nth_error (emOrig (nlPm s)) j = Some o -> nth_error (emWork (nlPm s)) j = Some w ->
           sfind (bdName o) (smDists (nlSm s)) = None \/ sm_count (nlSm s) = 0%nat -> w = o }.

Lemma calmS_new : calmS (nl_new names par build).
Proof.
  constructor; cbn; auto.
  - split; [exact em_new_inv|constructor].
  - apply sm_new_inv.
  - discriminate.
  - intros p. split; [apply Hpar|apply evolves_refl].
  - intros [|j]; discriminate.
Qed.
Lemma sized_of s : calmS s -> sized_origs (nlPm s).
Proof. intros C. eapply Forall_impl; [|apply (csOrig _ C)]. intros o [_ H]. apply h_reach_ok in H. destruct H as [_ [_ [_ [_ H]]]]. exact H. Qed.
(** changing only the values held by the pdf manager *)
Lemma calmS_pm s p : calmS s -> same_structure (nlPm s) p -> calmS (nl_withPm s p).
Proof.
  intros C T. pose proof T as [A [B _]]. constructor; cbn; try apply C.
  - eapply inv2_structure; [apply C|exact T]. - rewrite A. apply C. - rewrite A, B. apply C.
Qed.
Lemma reg2 (s : edman) w : em_register (setOW (emOrig s) w s) = (setOW (emOrig s) w (fst (em_register s)), snd (em_register s)).
Proof.
  unfold em_register, em_regNames. cbn [setOW emOrig emStat emAllDir emPm em_withPm].
  match goal with |- obind _ ?x _ = _ => destruct x as [ns| | | |] end; cbn [obind fst snd]; try reflexivity.
  destruct (pm_addContainer _ _ _) as [q r]. reflexivity.
Qed.
Lemma addPdf2 s b st : em_inv2 s -> exists s', em_addPdf s b st = (s', Ok tt) /\ em_inv2 s' /\ emOrig s' = emOrig s ++ [b] /\ emWork s' = emWork s ++ [b] /\ emStat s' = emStat s ++ [st].
Proof.
  intros [I F]. destruct (addPdf_ok _ b st I) as [t [E [It [Pt _]]]]. unfold em_addPdf in *. cbn [setOW emOrig emWork emStat emAllDir emPm] in E.
  change (emNorms (setOW (emOrig s) (emOrig s) s)) with (emNorms s) in E. change (emFit (setOW (emOrig s) (emOrig s) s)) with (emFit s) in E.
  set (pp := if fittable st then _ else _) in *. set (al := if is_direct st then _ else _) in *.
  pose proof (reg2 (mkEm pp (emOrig s ++ [b]) (emWork s ++ [b]) (emStat s ++ [st]) al) (emOrig s ++ [b])) as Q. unfold setOW at 1 in Q. cbn [emOrig emPm emStat emAllDir] in Q.
  rewrite Q in E. clear Q. destruct (em_register (mkEm pp (emOrig s ++ [b]) (emWork s ++ [b]) (emStat s ++ [st]) al)) as [s' r] eqn:Es. cbn [fst snd] in E. injection E as <- ->.
  exists s'. split; [reflexivity|].
  assert (Sh : emOrig s' = emOrig s ++ [b] /\ emWork s' = emWork s ++ [b] /\ emStat s' = emStat s ++ [st]).
  { unfold em_register in Es. destruct (em_regNames _) as [ns| | | |]; cbn [obind] in Es; try discriminate. destruct (pm_addContainer _ _ _) as [q r]. injection Es as <- _. repeat split. }
  destruct Sh as [A [B Cc]]. split; [split; [rewrite A; exact It|]|auto]. rewrite A, B. apply Forall2_app; [exact F|]. constructor; [apply reshaped_refl|constructor].
Qed.
Lemma nth_snoc {A} (l : list A) x j a : nth_error (l ++ [x]) j = Some a -> nth_error l j = Some a \/ (j = List.length l /\ a = x).
Proof.
  intros H. destruct (Nat.lt_ge_cases j (List.length l)) as [L|L].
  - left. now rewrite nth_error_app1 in H.
  - rewrite nth_error_app2 in H by exact L. destruct (j - List.length l)%nat as [|k] eqn:E; cbn in H; [|destruct k; discriminate]. injection H as <-. right. split; [lia|reflexivity].
Qed.
Lemma count_groups a b : smGroups a = smGroups b -> sm_count a = sm_count b.
Proof. unfold sm_count. now intros ->. Qed.

(** adding a pdf *)
Definition effective (bb : bool) (rate : option Z) : bool := match rate with None => negb bb | Some _ => true end.
Lemma addS s b gs rate st t : calmS s -> skel (nlSm s) t -> osNames (bdObs b) = obs -> h_reach (bdHist b) ->
  let s' := fst (nl_addPdf s b gs rate st) in
  calmS s' /\ same_mode s s' /\ nlPar s' = nlPar s /\
  (if effective (nlBB s) rate then pairs (nlPm s') = pairs (nlPm s) ++ [(b, st)] /\ skel (nlSm s') (fst (sm_addDist t (bdName b) gs)) else s' = s).
Proof.
  intros C K Ho Hb. cbv zeta. unfold nl_addPdf, effective.
  destruct (match rate with None => nlBB s | Some _ => false end) eqn:Eb.
  { destruct rate; [discriminate|]. rewrite Eb. cbn [negb fst]. split; [exact C|]. split; [repeat split|]. split; reflexivity. }
  replace (match rate with None => negb (nlBB s) | Some _ => true end) with true by (destruct rate; [reflexivity|now rewrite Eb]).
  destruct (addPdf2 (nlPm s) b st (csInv _ C)) as [p [E [I [O [W St]]]]]. rewrite E. cbn [obind].
  destruct (skel_dist (nlSm s) t (bdName b) gs K) as [K1 _].
  assert (Pp : pairs p = pairs (nlPm s) ++ [(b, st)]).
  { unfold pairs. rewrite O, St. pose proof (csInv _ C) as [[L1 _] _]. cbn in L1. revert L1. generalize (emStat (nlPm s)). generalize (emOrig (nlPm s)).
    induction l as [|o l IH]; intros [|x l0] Hl; cbn in *; try discriminate; auto. f_equal. apply IH. lia. }
  cbn [nlSm nl_withPm].
  assert (Q : forall m r g, sm_addDist (nlSm s) (bdName b) gs = (m, r) -> calmS (nl_withGen (nl_withSm (nl_withPm s p) m) g)).
  { intros m r g Em. assert (Hm : smGroups m = smGroups (nlSm s) /\ smObj m = smObj (nlSm s) /\ (smDists m = smDists (nlSm s) \/ smDists m = sset (bdName b) gs (smDists (nlSm s)))).
    { unfold sm_addDist in Em. destruct (sm_unique (nlSm s) gs); cbn [obind] in Em; injection Em as <- _; cbn; auto. }
    destruct Hm as [Hg [Hob Hd]].
    constructor; cbn; try apply C.
    - exact I.
    - pose proof (call_inv (nlSm s) (AddDist (bdName b) gs) (csSm _ C)) as Q. cbn [smcall] in Q. rewrite Em in Q. exact Q.
    - rewrite O. apply Forall_app. split; [apply C|]. constructor; [auto|constructor].
    - rewrite Hob. apply C.
    - rewrite O, W. intros j o w Ho1 Hw1 Hc. apply nth_snoc in Ho1 as [Ho1|[-> ->]].
      + apply nth_snoc in Hw1 as [Hw1|[-> ->]].
        * apply (csWork _ C j o w Ho1 Hw1). rewrite (count_groups m (nlSm s) Hg) in Hc. destruct Hc as [Hc|Hc]; [left|now right].
          destruct Hd as [Hd|Hd]; [now rewrite <- Hd|]. rewrite Hd, sfind_sset in Hc. destruct (String.eqb (bdName o) (bdName b)); [discriminate|exact Hc].
        * exfalso. assert (List.length (emWork (nlPm s)) < List.length (emOrig (nlPm s)))%nat by (apply nth_error_Some; congruence).
          pose proof (csInv _ C) as [_ F]. apply reshaped_names in F. apply (f_equal (@List.length _)) in F. rewrite !map_length in F. lia.
      + apply nth_snoc in Hw1 as [Hw1|[_ ->]]; [|reflexivity]. exfalso.
        assert (List.length (emOrig (nlPm s)) < List.length (emWork (nlPm s)))%nat by (apply nth_error_Some; congruence).
        pose proof (csInv _ C) as [_ F]. apply reshaped_names in F. apply (f_equal (@List.length _)) in F. rewrite !map_length in F. lia. }
  destruct (sm_addDist (nlSm s) (bdName b) gs) as [m r] eqn:Em. cbn [fst] in K1. specialize (Q m r).
  assert (Q1 := Q (nlGen s) eq_refl). change (nl_withGen (nl_withSm (nl_withPm s p) m) (nlGen s)) with (nl_withSm (nl_withPm s p) m) in Q1.
  destruct r as [[]|e| | |]; cbn [obind fst]; try (split; [exact Q1|]; split; [repeat split|]; split; [reflexivity|]; split; [exact Pp|exact K1]).
  destruct rate as [g|]; cbn [fst].
  - split; [apply Q; reflexivity|]. split; [repeat split|]. split; [reflexivity|]. split; [exact Pp|exact K1].
  - split; [exact Q1|]. split; [repeat split|]. split; [reflexivity|]. split; [exact Pp|exact K1].
Qed.
(** adding a systematic *)
Lemma sysS s p g t : calmS s -> skel (nlSm s) t -> let s' := fst (nl_addSys s p g) in
  calmS s' /\ skel (nlSm s') (fst (sm_add t p g)) /\ same_mode s s' /\ nlPm s' = nlPm s /\ nlPar s' = nlPar s.
Proof.
  intros C K. cbv zeta. unfold nl_addSys. destruct (skel_add (nlSm s) t p g K) as [K1 _].
  pose proof (call_inv (nlSm s) (Add p g) (csSm _ C)) as I1. cbn [smcall] in I1.
  assert (H : smObj (fst (sm_add (nlSm s) p g)) = smObj (nlSm s) /\ smDists (fst (sm_add (nlSm s) p g)) = smDists (nlSm s) /\
     (sm_count (fst (sm_add (nlSm s) p g)) = 0%nat -> sm_count (nlSm s) = 0%nat)).
  { assert (Z : forall k l, sm_count (sm_setGroups (nlSm s) (sset k (l ++ [p]) (smGroups (nlSm s)))) = 0%nat -> sm_count (nlSm s) = 0%nat).
    { intros k l. unfold sm_count, sm_setGroups. cbn [smGroups]. generalize (smGroups (nlSm s)). intros gsm H. exfalso. revert H.
      induction gsm as [|[k0 v0] t0 IH]; cbn [sset map list_sum fold_right snd].
      - rewrite app_length. cbn. lia.
      - destruct (String.compare k k0); cbn [map list_sum fold_right snd]; rewrite ?app_length; cbn; try lia.
        intros H. apply IH. unfold list_sum in *. lia. }
    unfold sm_add, sm_addGlobal. destruct (String.eqb g EmptyString).
    - destruct (sm_checkOthers (nlSm s) p); cbn [obind fst]; (split; [reflexivity|split; [reflexivity|]]); auto. apply Z.
    - cbn [fst]. split; [reflexivity|split; [reflexivity|apply Z]]. }
  destruct (sm_add (nlSm s) p g) as [m r]. cbn [fst] in *. destruct H as [H1 [H2 H3]].
  split; [|split; [exact K1|split; [repeat split|auto]]].
  constructor; cbn; try apply C; auto.
  - rewrite H1. apply C.
  - rewrite H2. intros j o w Ho Hw Hc. apply (csWork _ C j o w Ho Hw). destruct Hc; auto.
Qed.
End Calm.
