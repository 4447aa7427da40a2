(** C46: burn-in, thinning, acceptance rate. *)
From Coq Require Import ZArith.
From Verif Require Import Base.Res Base.Num Base.SMap Model.Axis Model.Hist Model.HistTools Model.MCMC
  Spec.AxisSpec Spec.HistSpec Spec.HistToolsSpec Spec.MCMCSpec Proofs.AxisP Proofs.HistP Proofs.HistP4 Proofs.HistToolsP Proofs.HistToolsP2 Proofs.MCMCP Proofs.MCMCP2.
From Coq Require Import Lia.
Local Open Scope nat_scope.
Local Open Scope res_scope.

(** filling that succeeds *)
Inductive okfilled : hist -> list (smap Qc) -> hist -> Prop :=
| okf_nil h : okfilled h [] h
| okf_cons h p ps h1 h2 : fill_map h p 1%Qc = (h1, Ok tt) -> okfilled h1 ps h2 -> okfilled h (p :: ps) h2.
Lemma okfilled_app h a h1 b h2 : okfilled h a h1 -> okfilled h1 b h2 -> okfilled h (a ++ b) h2.
Proof. induction 1; intros H2; cbn [app]; [exact H2|]. econstructor; [eassumption|auto]. Qed.
Lemma fill_map_inv h p h1 : h_reach h -> fill_map h p 1%Qc = (h1, Ok tt) ->
  h_reach h1 /\ same_axes h1 h /\ (total h1 = total h + 1)%Qc.
Proof.
  intros Hr E. assert (D : (forall n0, In n0 (names_of h) -> exists x, sfind n0 p = Some x) \/ exists n0, In n0 (names_of h) /\ sfind n0 p = None).
  { generalize (names_of h). intros l. induction l as [|x l IHl]; [left; intros n0 []|].
    destruct IHl as [D|[n0 [D1 D2]]].
    - destruct (sfind x p) eqn:Ex; [left; intros n0 [<-|H0]; eauto|right; exists x; split; [now left|exact Ex]].
    - right. exists n0. split; [now right|exact D2]. }
  destruct D as [D|D].
  - destruct (fill_map_ok h p Hr D) as [h' [E' [A [B C]]]]. rewrite E in E'. injection E' as <-. auto.
  - rewrite (proj2 (fill_map_pkg h p 1%Qc Hr) D) in E. discriminate.
Qed.
Lemma okfilled_facts h ps h' : okfilled h ps h' -> h_reach h ->
  h' = filled h ps /\ h_reach h' /\ same_axes h' h /\ integral h' = Ok (total h + qn (List.length ps))%Qc.
Proof.
  intros H. induction H as [h|h p ps h1 h2 E H IH]; intros Hr.
  - split; [reflexivity|]. split; [exact Hr|]. split; [repeat split|]. rewrite (integral_total h (h_reach_ok _ Hr)). cbn [List.length].
    f_equal. change (qn 0) with 0%Qc. ring.
  - destruct (fill_map_inv h p h1 Hr E) as [A [B C]]. destruct (IH A) as [I1 [I2 [I3 I4]]]. split; [|split; [|split]].
    + unfold filled in *. cbn [fold_left]. rewrite E. exact I1.
    + exact I2.
    + destruct B as [B3 [B4 B5]], I3 as [B6 [B7 B8]]. repeat split; congruence.
    + rewrite I4, C. f_equal. cbn [List.length]. rewrite qn_S. ring.
Qed.

(** the recording condition *)
Lemma recordStep_kept s b t : sBurn s = Z.of_nat b -> sThin s = Z.of_nat t -> t <> 0 -> recordStep s = Ok (kept b t (sTot s)).
Proof.
  intros Hb Ht H0. unfold recordStep, kept. rewrite Hb, Ht.
  destruct (Z.ltb_spec (Z.of_nat b) (Z.of_nat (sTot s))) as [H|H].
  - rewrite (proj2 (Nat.ltb_lt b (sTot s))) by lia. cbn [negb]. destruct (Z.eqb_spec (Z.of_nat t) 0) as [C|_]; [lia|].
    cbn [andb]. f_equal. rewrite Z.rem_mod_nonneg by lia. rewrite <- Nat2Z.inj_mod.
    destruct (Z.eqb_spec (Z.of_nat (sTot s mod t)) 0) as [C|C]; destruct (Nat.eqb_spec (sTot s mod t) 0) as [D|D]; try reflexivity; lia.
  - cbn [negb]. assert (E : Nat.ltb b (sTot s) = false) by (apply Nat.ltb_ge; lia). rewrite E. reflexivity.
Qed.

(** FillAllHists that succeeds *)
Lemma fillRet_ok hs p : forall hs', fillRet hs p = Ok hs' ->
  Forall2 (fun a b => fst b = fst a /\ fill_map (snd a) p 1%Qc = (snd b, Ok tt)) hs hs'.
Proof.
  unfold fillRet. induction hs as [|[k h] t IH]; intros hs'; cbn [fillAllHists].
  - intros E. injection E as <-. constructor.
  - destruct (fill_map h p 1%Qc) as [h1 o] eqn:Ef. destruct o as [[]| | | |]; cbn [bind]; try discriminate.
    destruct (fillAllHists t p) as [t' o2]. destruct o2 as [[]| | | |]; cbn [bind]; try discriminate. intros E. injection E as <-.
    constructor; [auto|]. apply IH. reflexivity.
Qed.

Definition map_filled (ps : list (smap Qc)) (a b : smap hist) : Prop :=
  Forall2 (fun x y => fst y = fst x /\ okfilled (snd x) ps (snd y)) a b.
Lemma map_filled_refl a : map_filled [] a a.
Proof. induction a as [|x a IH]; constructor; [split; [reflexivity|constructor]|exact IH]. Qed.
Lemma map_filled_step p ps a b c : Forall2 (fun x y => fst y = fst x /\ fill_map (snd x) p 1%Qc = (snd y, Ok tt)) a b ->
  map_filled ps b c -> map_filled (p :: ps) a c.
Proof.
  intros H. revert c. induction H as [|x y a b [E1 E2] H IH]; intros c Hc; inversion Hc as [|? z ? c' [F1 F2] F3]; subst; constructor.
  - split; [congruence|]. econstructor; eassumption.
  - apply IH. exact F3.
Qed.

(** what one Fill does to an initialised object *)
Lemma sFill_step g mi ma n s e s' b t : sInit s = true -> sBurn s = Z.of_nat b -> sThin s = Z.of_nat t -> t <> 0 ->
  sFill g mi ma n s (eP e) (eV e) (eA e) = Ok s' ->
  let ps := if kept b t (sTot s) then [e] else [] in
  (sFull s = true -> okfilled (sHist s) (map eP ps) (sHist s') /\ s1D s' = s1D s /\ s2D s' = s2D s) /\
  (sFull s = false -> sHist s' = sHist s /\ map_filled (map eP ps) (s1D s) (s1D s') /\ map_filled (map eP ps) (s2D s) (s2D s')) /\
  foldM (fun c x => cFill c (eV x)) ps (sCorr s) = Ok (sCorr s').
Proof.
  intros Hi Hb Ht H0 E. unfold sFill in E. rewrite Hi in E. cbn [bind] in E. rewrite (recordStep_kept s b t Hb Ht H0) in E. cbn [bind] in E.
  destruct (kept b t (sTot s)); cbv zeta; cbn [map].
  - destruct (sFull s) eqn:Ef.
    + destruct (fill_map (sHist s) (eP e) 1%Qc) as [h1 o] eqn:Efm. unfold ret in E. destruct o as [[]| | | |]; cbn [bind] in E; try discriminate.
      destruct (cFill (sCorr s) (eV e)) as [c| | | |] eqn:Ec; cbn [bind] in E; try discriminate. injection E as <-.
      cbn [sHist s1D s2D sCorr fst snd]. split; [|split; [discriminate|]].
      * intros _. split; [|auto]. econstructor; [exact Efm|constructor].
      * cbn [foldM]. rewrite Ec. reflexivity.
    + destruct (fillRet (s1D s) (eP e)) as [a| | | |] eqn:Ea; cbn [bind] in E; try discriminate.
      destruct (fillRet (s2D s) (eP e)) as [c2| | | |] eqn:Ed; cbn [bind] in E; try discriminate.
      destruct (cFill (sCorr s) (eV e)) as [c| | | |] eqn:Ec; cbn [bind] in E; try discriminate. injection E as <-.
      cbn [sHist s1D s2D sCorr fst snd]. split; [discriminate|split].
      * intros _. split; [reflexivity|]. split; (eapply map_filled_step; [apply fillRet_ok; eassumption|apply map_filled_refl]).
      * cbn [foldM]. rewrite Ec. reflexivity.
  - cbn [bind] in E. injection E as <-. cbn [sHist s1D s2D sCorr]. split; [|split].
    + intros _. split; [constructor|auto].
    + intros _. split; [reflexivity|]. split; apply map_filled_refl.
    + reflexivity.
Qed.
Lemma okfilled_app_map h a h1 b h2 : okfilled h (map eP a) h1 -> okfilled h1 (map eP b) h2 -> okfilled h (map eP (a ++ b)) h2.
Proof. rewrite map_app. apply okfilled_app. Qed.
Lemma map_filled_trans a b x y z : map_filled (map eP a) x y -> map_filled (map eP b) y z -> map_filled (map eP (a ++ b)) x z.
Proof.
  intros H. revert z. induction H as [|u v x y [E1 E2] H IH]; intros z Hz; inversion Hz as [|? w ? z' [F1 F2] F3]; subst; constructor.
  - split; [congruence|]. eapply okfilled_app_map; eassumption.
  - apply IH. exact F3.
Qed.
Lemma foldM_app' {A S0} (f : S0 -> A -> res S0) a : forall s b, foldM f (a ++ b) s = do s1 <- foldM f a s; foldM f b s1.
Proof. induction a as [|x a IH]; intros s b; cbn [app foldM bind]; [reflexivity|]. destruct (f s x); cbn [bind]; auto. Qed.

Lemma fill_calls_counts g mi ma n log : forall s s', fill_calls g mi ma n s log = Ok s' ->
  sTot s' = sTot s + List.length log /\ sAcc s' = sAcc s + n_accepted log /\ sBurn s' = sBurn s /\ sThin s' = sThin s /\
  sFull s' = sFull s /\ (sInit s = true -> sInit s' = true) /\ sLog s' = sLog s ++ log.
Proof.
  unfold fill_calls. induction log as [|e log IH]; intros s s'; cbn [foldM].
  - intros E. injection E as <-. unfold n_accepted. cbn [List.length filter]. rewrite app_nil_r. repeat split; auto; lia.
  - destruct (sFill g mi ma n s (eP e) (eV e) (eA e)) as [s1| | | |] eqn:E1; cbn [bind]; try discriminate. intros E2.
    destruct (sFill_log _ _ _ _ _ _ _ _ _ E1) as [A [B [C [D [F [G K]]]]]].
    destruct (IH _ _ E2) as [A2 [B2 [C2 [D2 [F2 [G2 K2]]]]]]. unfold n_accepted in *. cbn [filter List.length].
    rewrite A2, B2, C2, D2, F2, B, C, D, F, G, K2, A. destruct e as [[p v] a]. cbn [eP eV eA fst snd] in *.
    repeat split; auto; [lia|destruct a; cbn [List.length]; lia|rewrite <- app_assoc; reflexivity].
Qed.
Lemma fill_calls_inited g mi ma n b t log : t <> 0 -> forall s s', sInit s = true -> sBurn s = Z.of_nat b -> sThin s = Z.of_nat t ->
  fill_calls g mi ma n s log = Ok s' ->
  let ps := recorded b t (sTot s) log in
  (sFull s = true -> okfilled (sHist s) (map eP ps) (sHist s') /\ s1D s' = s1D s /\ s2D s' = s2D s) /\
  (sFull s = false -> sHist s' = sHist s /\ map_filled (map eP ps) (s1D s) (s1D s') /\ map_filled (map eP ps) (s2D s) (s2D s')) /\
  foldM (fun c x => cFill c (eV x)) ps (sCorr s) = Ok (sCorr s').
Proof.
  intros H0. unfold fill_calls. induction log as [|e log IH]; intros s s' Hi Hb Ht; cbn [foldM recorded]; cbv zeta.
  - intros E. injection E as <-. cbn [map]. split; [intros _; split; [constructor|auto]|]. split; [|reflexivity].
    intros _. split; [reflexivity|]. split; apply map_filled_refl.
  - destruct (sFill g mi ma n s (eP e) (eV e) (eA e)) as [s1| | | |] eqn:E1; cbn [bind]; try discriminate. intros E2.
    destruct (sFill_step _ _ _ _ _ _ _ b t Hi Hb Ht H0 E1) as [A [B C]].
    destruct (sFill_log _ _ _ _ _ _ _ _ _ E1) as [_ [D1 [_ [D2 [D3 [D4 D5]]]]]].
    destruct (IH s1 s' D5 ltac:(congruence) ltac:(congruence) E2) as [A2 [B2 C2]]. rewrite D1 in *. rewrite D4 in *.
    split; [|split].
    + intros Hf. destruct (A Hf) as [X1 [X2 X3]], (A2 Hf) as [Y1 [Y2 Y3]]. split; [|split; congruence].
      eapply okfilled_app_map; eassumption.
    + intros Hf. destruct (B Hf) as [X1 [X2 X3]], (B2 Hf) as [Y1 [Y2 Y3]]. split; [congruence|].
      split; eapply map_filled_trans; eassumption.
    + rewrite foldM_app'. cbv zeta in C. rewrite C. cbn [bind]. exact C2.
Qed.
(** Fill on a fresh object = InitialiseHistograms, then Fill *)
Lemma sFill_init g mi ma n s p v a : sInit s = false ->
  sFill g mi ma n s p v a = do s1 <- initHists g mi ma n s; sFill g mi ma n s1 p v a.
Proof.
  intros Hi. unfold sFill at 1. rewrite Hi. destruct (initHists g mi ma n s) as [s1| | | |] eqn:E; cbn [bind]; try reflexivity.
  unfold sFill. destruct (init_log _ _ _ _ _ _ E) as [_ [_ [_ [_ [_ [_ [_ [Ht _]]]]]]]].
  replace (if sInit s1 then Ok s1 else initHists g mi ma n s1) with (Ok s1) by (rewrite Ht; reflexivity). reflexivity.
Qed.

(** the axes InitialiseHistograms chooses *)
Lemma guessed_axes (g : nat -> nat -> nat) (mi ma : smap Qc) (N : nat) names : forall ac ac', ac_reach ac ->
  foldM (fun ac n => do mx <- sat n ma; do mn <- sat n mi; let mx' := if qeqb mx mn then (mx + qq 1 100)%Qc else mx in
                     do a <- mk_equal n mn mx' (g N (List.length mi)) ""; addAxis ac a) names ac = Ok ac' ->
  ac_reach ac' /\ map aName (acAxes ac') = map aName (acAxes ac) ++ names.
Proof.
  induction names as [|n names IH]; intros ac ac' Hr; cbn [foldM].
  - intros E. injection E as <-. rewrite app_nil_r. auto.
  - destruct (sat n ma) as [mx| | | |]; cbn [bind]; try discriminate. destruct (sat n mi) as [mn| | | |]; cbn [bind]; try discriminate. cbv zeta.
    destruct (mk_equal n mn _ _ _) as [a| | | |] eqn:Ea; cbn [bind]; try discriminate.
    destruct (addAxis ac a) as [ac1| | | |] eqn:E1; cbn [bind]; try discriminate. intros E2.
    assert (Hb : built a) by (eapply built_equal; exact Ea).
    destruct (IH ac1 ac' (ar_add _ _ _ Hr Hb E1) E2) as [A B]. split; [exact A|].
    destruct (addAxis_ok _ _ _ (ac_reach_ok _ Hr) Hb E1) as [_ [Hx _]]. rewrite B, Hx, map_app, <- app_assoc. cbn [map app].
    f_equal. f_equal. unfold mk_equal in Ea. destruct (_ || _)%bool in Ea; [discriminate|]. injection Ea as <-. reflexivity.
Qed.
Lemma init_ok g mi ma N s s1 : swf mi -> mi <> [] -> ac_reach (sAxes s) -> initHists g mi ma N s = Ok s1 ->
  exists axes, ac_reach axes /\ List.length (acAxes axes) = List.length mi /\
    (acAxes (sAxes s) <> [] -> axes = sAxes s) /\ (acAxes (sAxes s) = [] -> map aName (acAxes axes) = skeys mi) /\
    (sFull s = true -> sHist s1 = mk_hist axes) /\
    (sFull s = false -> swf (s1D s1) /\ swf (s2D s1) /\
       (forall n, In n (skeys (s1D s1)) <-> In n (skeys mi)) /\
       (forall n h, sfind n (s1D s1) = Some h -> h_reach h /\ axes_named axes [n] h /\ all_zero h) /\
       (forall n h, sfind n (s2D s1) = Some h -> exists p, h_reach h /\ distinct_pair (skeys mi) p /\
          n = (fst p ++ "_" ++ snd p)%string /\ axes_named axes [fst p; snd p] h /\ all_zero h) /\
       (forall a b, In a (skeys mi) -> In b (skeys mi) -> a <> b ->
          In (a ++ "_" ++ b)%string (skeys (s2D s1)) \/ In (b ++ "_" ++ a)%string (skeys (s2D s1)))).
Proof.
  intros Hw Hne Hr E. unfold initHists in E. cbv zeta in E.
  match type of E with bind ?x _ = _ => destruct x as [axes| | | |] eqn:Ex; cbn [bind] in E; try discriminate end.
  exists axes. pose proof (ac_reach_ok _ Hr) as Hok. destruct Hok as [_ [_ [Hnd _]]].
  assert (Hax : ac_reach axes /\ List.length (acAxes axes) = List.length mi /\ (acAxes (sAxes s) <> [] -> axes = sAxes s) /\
     (acAxes (sAxes s) = [] -> map aName (acAxes axes) = skeys mi)).
  { rewrite Hnd in Ex. destruct (Nat.eqb_spec (List.length (acAxes (sAxes s))) 0) as [Hz|Hz]; cbn [negb] in Ex.
    - destruct (guessed_axes g mi ma N (skeys mi) ac_empty axes ar_empty Ex) as [A B]. cbn [map app ac_empty acAxes] in B.
      apply length_zero_iff_nil in Hz. repeat split; auto; [|congruence]. rewrite <- (map_length aName), B. apply map_length.
    - destruct (Nat.eqb_spec (List.length (acAxes (sAxes s))) (List.length mi)) as [Hq|Hq]; cbn [negb] in Ex; [|discriminate].
      injection Ex as <-. repeat split; auto. intros C. rewrite C in Hz. cbn [List.length] in Hz. lia. }
  destruct Hax as [H1 [H2 [H3 H4]]]. split; [exact H1|]. split; [exact H2|]. split; [exact H3|]. split; [exact H4|].
  destruct (sFull s).
  - injection E as <-. split; [reflexivity|discriminate].
  - split; [discriminate|]. intros _.
    destruct (makeHists2 axes (allCombsNoDiag (skeys mi))) as [h2| | | |] eqn:E2; cbn [bind] in E; try discriminate.
    destruct (makeHists1 axes (skeys mi)) as [h1| | | |] eqn:E1; cbn [bind] in E; try discriminate. injection E as <-. cbn [s1D s2D].
    destruct (makeHists1_pkg axes (skeys mi) H1) as [P1 P2].
    assert (Hincl : incl (skeys mi) (map aName (acAxes axes))).
    { intros n Hn. destruct (in_dec string_dec n (map aName (acAxes axes))) as [Hi|Hi]; [exact Hi|]. exfalso.
      assert (C : ~ incl (skeys mi) (map aName (acAxes axes))) by (intros C; apply Hi, C, Hn). specialize (P2 C). congruence. }
    destruct (P1 Hincl) as [h1' [F1 [W1 [K1 G1]]]]. rewrite E1 in F1. injection F1 as <-.
    destruct (pairs_pkg (skeys mi) (swf_nodup _ Hw)) as [[C1 [C2 C3]] _].
    destruct (makeHists2_gen axes (allCombsNoDiag (skeys mi)) H1) with (hs0 := @nil (string * hist)) as [h2' [F2 [W2 [K2 G2]]]].
    { intros p Hp. destruct (C2 p Hp) as [X1 [X2 X3]]. repeat split; auto. }
    { constructor. }
    change (foldM (mk2 axes) (allCombsNoDiag (skeys mi)) [] = Ok h2) in E2. rewrite E2 in F2. injection F2 as <-.
    split; [exact W1|]. split; [exact W2|]. split; [exact K1|]. split; [exact G1|]. split.
    + intros k h Ek. destruct (in_dec string_dec k (map pairKey (allCombsNoDiag (skeys mi)))) as [Hi|Hi].
      * apply in_map_iff in Hi. destruct Hi as [p [<- Hp]]. destruct (K2 p Hp) as [q [h' [Q1 [Q2 [Q3 [Q4 [Q5 Q6]]]]]]].
        rewrite Ek in Q3. injection Q3 as <-. exists q. split; [exact Q4|]. split; [exact (C2 q Q1)|]. split; [symmetry; exact Q2|auto].
      * rewrite (G2 k Hi) in Ek. discriminate.
    + intros a b Ha Hb Hab. destruct (C3 a b Ha Hb Hab) as [[X _]|[X _]]; [left|right];
      destruct (K2 _ X) as [q [h' [_ [_ [Q3 _]]]]]; apply sfind_in; exists h'; exact Q3.
Qed.

Lemma map_filled_sfind ps a b : map_filled ps a b -> forall k,
  match sfind k a with None => sfind k b = None | Some h => exists h', sfind k b = Some h' /\ okfilled h ps h' end.
Proof.
  induction 1 as [|[k0 x] [k1 y] a b [E H] F IH]; intros k; cbn [sfind fst snd] in *; [reflexivity|]. subst k1.
  destruct (String.eqb k k0); [eauto|apply IH].
Qed.
Lemma map_filled_keys ps a b : map_filled ps a b -> skeys b = skeys a.
Proof. induction 1 as [|x y a b [E H] F IH]; [reflexivity|]. unfold skeys in *. cbn [map]. congruence. Qed.
Lemma all_zero_total h : all_zero h -> total h = 0%Qc.
Proof.
  intros H. unfold total. generalize (seq 0 (hNBins h)). intros l. induction l as [|x l IH]; cbn [map qsum]; [reflexivity|].
  rewrite H, IH. ring.
Qed.
