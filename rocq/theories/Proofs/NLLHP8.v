(** Whatever the configuration: a finite answer is the Poisson sum over the expectations the pdf manager reports. *)
From Coq Require Import ZArith Reals Lra.
From Verif Require Import Base.Res Base.Num Base.RNum Base.SMap Model.Axis Model.Event Model.Cut Model.Hist Model.ED Model.Param
  Model.Matrix Model.SystMan Model.Shrink Model.EDMan Model.Fill Model.Constraint Model.NLLH Spec.AxisSpec Spec.CutSpec Spec.HistSpec Spec.ParamSpec Spec.FillSpec Spec.EDManSpec Spec.NLLHSpec
  Proofs.AxisP Proofs.HistP Proofs.HistP2 Proofs.HistP4 Proofs.ParamP Proofs.ParamP3 Proofs.EDManP Proofs.EDManP2 Proofs.NLLHP Proofs.NLLHP2 Proofs.NLLHP3 Proofs.NLLHP7.
Local Open Scope Qc_scope.
Local Open Scope res_scope.

Definition appl (u : list (nat * Qc)) (s : edman) : edman :=
  fold_left (fun s iv => em_setNormsC s (upd (emNorms s) (fst iv) (snd iv))) u s.
Lemma appl_veqs u : forall s, same_structure s (appl u s) /\ emFit (appl u s) = emFit s.
Proof.
  induction u as [|[i v] u IH]; intros s; [split; [apply structure_refl|reflexivity]|].
  change (appl ((i, v) :: u) s) with (appl u (em_setNormsC s (upd (emNorms s) i v))).
  destruct (IH (em_setNormsC s (upd (emNorms s) i v))) as [A B]. split; [|rewrite B; reflexivity].
  eapply structure_trans; [|exact A]. apply setNormsC_structure, upd_length.
Qed.
Lemma appl_nth u : forall s m, NoDup (map fst u) -> (forall i v, In (i, v) u -> (i < List.length (emNorms s))%nat) ->
  nth m (emNorms (appl u s)) 0 = match find (fun iv => Nat.eqb (fst iv) m) u with Some iv => snd iv | None => nth m (emNorms s) 0 end.
Proof.
  induction u as [|[i v] u IH]; intros s m Nd Hl; cbn [appl fold_left find fst snd]; [reflexivity|].
  cbn in Nd. apply NoDup_cons_iff in Nd as [Ni Nd]. change (fold_left _ u ?x) with (appl u x).
  assert (N1 : emNorms (em_setNormsC s (upd (emNorms s) i v)) = upd (emNorms s) i v) by reflexivity.
  rewrite IH; [|exact Nd|rewrite N1, upd_length; intros; eapply Hl; right; eassumption].
  rewrite N1, nth_upd by (apply (Hl i v); now left). destruct (Nat.eqb_spec i m) as [->|Hn].
  - rewrite Nat.eqb_refl. destruct (find (fun iv => Nat.eqb (fst iv) m) u) as [iv|] eqn:E; [|reflexivity].
    apply find_some in E as [Hin He]. apply Nat.eqb_eq in He. exfalso. apply Ni. rewrite <- He. apply in_map, Hin.
  - destruct (Nat.eqb_spec m i); [congruence|reflexivity].
Qed.
Lemma appl_twice u s : NoDup (map fst u) -> (forall i v, In (i, v) u -> (i < List.length (emNorms s))%nat) -> veq (appl u s) (appl u (appl u s)).
Proof.
  intros Nd Hl. destruct (appl_veqs u (appl u s)) as [A B]. split; [exact A|]. split; [exact B|].
  apply (nth_ext _ _ 0 0); [apply A|]. intros m _. rewrite !appl_nth; auto.
  - destruct (find _ u); reflexivity.
  - intros i v Hi. destruct (appl_veqs u s) as [[_ [_ [_ [_ [_ [-> _]]]]]] _]. eapply Hl, Hi.
Qed.

(** the loop of ReassertNorms as a list of updates that does not depend on the norms *)
Definition rstep (calcing : bool) (stat : list nfs) (fit : list Qc) (st : edman * nat) (i : nat) : (edman * nat) * res unit :=
  obind st (vat stat i) (fun x =>
    if (if calcing then is_direct x else is_indirect x)
    then obind st (vat fit (snd st)) (fun v => ((em_setNormsC (fst st) (upd (emNorms (fst st)) i v), S (snd st)), Ok tt))
    else (st, Ok tt)).
Lemma rloop c stat fit l : forall j, NoDup l -> exists u, NoDup (map fst u) /\ (forall i v, In (i, v) u -> In i l) /\
  exists j' r, forall s, iterS (rstep c stat fit) l (s, j) = ((appl u s, j'), r).
Proof.
  induction l as [|i l IH]; intros j Nd.
  - exists []. split; [constructor|]. split; [intros ? ? []|]. exists j, (Ok tt). reflexivity.
  - apply NoDup_cons_iff in Nd as [Ni Nd]. cbn [iterS]. unfold rstep at 1. 
    assert (Stop : forall r : res unit, r <> Ok tt -> exists u : list (nat * Qc), NoDup (map fst u) /\ (forall i0 v, In (i0, v) u -> In i0 (i :: l)) /\
       exists j' r', forall s : edman, ((s, j), r) = ((appl u s, j'), r')).
    { intros r _. exists []. split; [constructor|]. split; [intros ? ? []|]. exists j, r. reflexivity. }
    unfold vat at 1. destruct (nth_error stat i) as [x|]; cbn [obind].
    2:{ exists []. split; [constructor|]. split; [intros ? ? []|]. exists j, (Throw std_out_of_range). intros s. unfold rstep, vat. reflexivity. }
    destruct (if c then is_direct x else is_indirect x) eqn:Ec.
    + destruct (nth_error fit j) as [v|] eqn:Ef.
      * destruct (IH (S j) Nd) as [u [U1 [U2 [j' [r U3]]]]]. exists ((i, v) :: u). split; [|split].
        -- cbn. constructor; [|exact U1]. intros Hin. apply in_map_iff in Hin as [[a b] [Ea Hin]]. cbn in Ea. subst a. apply Ni, (U2 _ _ Hin).
        -- intros a b [[= <- <-]|Hin]; [now left|right; eapply U2, Hin].
        -- exists j', r. intros s. cbn [fst snd]. unfold vat. rewrite Ef. cbn [obind]. apply U3.
      * exists []. split; [constructor|]. split; [intros ? ? []|]. exists j, (Throw std_out_of_range). intros s. cbn [fst snd]. unfold vat. rewrite Ef. reflexivity.
    + destruct (IH j Nd) as [u [U1 [U2 [j' [r U3]]]]]. exists u. split; [exact U1|]. split; [intros; right; eapply U2; eassumption|]. exists j', r. exact U3.
Qed.
Lemma reassert_twice c s p : em_reassert c s = (p, Ok tt) -> exists q, em_reassert c p = (q, Ok tt) /\ veq p q /\ same_structure s p /\ emFit p = emFit s.
Proof.
  unfold em_reassert. destruct (emAllDir s) eqn:Ea.
  - intros [= <-]. rewrite Ea. exists s. split; [reflexivity|]. split; [split; [apply structure_refl|auto]|]. split; [apply structure_refl|reflexivity].
  - destruct (rloop c (emStat s) (emFit s) (seq 0 (List.length (emNorms s))) 0%nat (seq_NoDup _ _)) as [u [U1 [U2 [j' [r U3]]]]].
    pose proof (U3 s) as Hs. unfold rstep in Hs at 1. rewrite Hs. cbn [fst]. intros [= <- ->].
    destruct (appl_veqs u s) as [T F]. pose proof T as [_ [_ [T3 [T4 [_ [T6 _]]]]]]. rewrite T4, Ea, T3, F, T6.
    pose proof (U3 (appl u s)) as Hp. unfold rstep in Hp at 1. rewrite Hp. cbn [fst]. exists (appl u (appl u s)). split; [reflexivity|]. split; [|split; [exact T|first [exact F|reflexivity]]].
    apply appl_twice; [exact U1|]. intros i v Hi. apply U2 in Hi. apply in_seq in Hi. lia.
Qed.

Lemma veq_trans a b c : veq a b -> veq b c -> veq a c.
Proof. intros [A1 [A2 A3]] [B1 [B2 B3]]. split; [eapply structure_trans; eassumption|]. split; congruence. Qed.
Definition cls (p t : edman) : Prop := exists q, em_reassert true t = (q, Ok tt) /\ veq p q.
Definition prob_at (p : edman) (k : nat) : res Qc :=
  oor_to_logic (rmap fst (foldM (em_term p (fun w => getBinContent (bdHist w) k)) (seq 0 (List.length (emWork p))) (0, 0%nat))).
Lemma veq_prob p q k : veq p q -> prob_at q k = prob_at p k.
Proof.
  intros V. unfold prob_at. pose proof V as [[_ [A2 _]] _]. rewrite A2. do 2 f_equal. apply foldM_ext'. intros. apply veq_term, V.
Qed.
Lemma cls_prob p t k : cls p t -> exists q, em_binProb t k = (q, prob_at p k) /\ cls p q.
Proof.
  intros [q [E V]]. unfold em_binProb. rewrite E. exists q. rewrite <- (veq_prob p q k V). split; [reflexivity|].
  destruct (reassert_twice true t q E) as [q' [E' [V' _]]]. exists q'. split; [exact E'|]. eapply veq_trans; eassumption.
Qed.
Lemma bin_cls_start s k x : snd (nl_bin s k) = Ok x -> exists p, cls p (nlPm s).
Proof.
  unfold nl_bin, em_binProb. destruct (em_reassert true (nlPm s)) as [p r] eqn:E. destruct r as [[]|e| | |]; cbn; try discriminate.
  intros _. exists p. exists p. split; [exact E|]. split; [apply structure_refl|auto].
Qed.

Lemma bin_cls p s k x : cls p (nlPm s) -> nlBB s = false -> snd (nl_bin s k) = Ok (Ok x) ->
  exists mu n, prob_at p k = Ok mu /\ getBinContent (bdHist (nlData s)) k = Ok n /\ 0 < mu /\ x = poisson_nll (qr n) (qr mu).
Proof.
  intros C Hb. destruct (cls_prob p (nlPm s) k C) as [q [E _]]. unfold nl_bin. rewrite E. cbn [snd].
  destruct (prob_at p k) as [mu|e| | |]; cbn [bind]; try discriminate. destruct (qeqb mu 0); [discriminate|].
  destruct (getBinContent (bdHist (nlData s)) k) as [n|e| | |]; cbn [bind]; try discriminate. rewrite Hb. unfold poisson_term.
  destruct (Rlt_dec 0 (qr mu)) as [H|H]; [|discriminate]. intros [= <-]. exists mu, n. split; [reflexivity|]. split; [reflexivity|]. split.
  - apply qr_lt. rewrite qr_0. exact H.
  - unfold poisson_nll. ring.
Qed.
Lemma bin_state p s k : cls p (nlPm s) -> exists q, fst (nl_bin s k) = nl_withPm s q /\ cls p q.
Proof. intros C. destruct (cls_prob p (nlPm s) k C) as [q [E C']]. exists q. unfold nl_bin. rewrite E. split; [reflexivity|exact C']. Qed.

Lemma loop_finite l : forall s acc v, snd (nl_loop s l acc) = Ok (Ok v) -> exists a, acc = Ok a.
Proof.
  induction l as [|k l IH]; intros s acc v H.
  - cbn in H. injection H as ->. now exists v.
  - rewrite loop_step in H. destruct (snd (nl_bin s k)) as [x| | | |]; try discriminate. apply IH in H as [a E]. destruct acc; try discriminate. eauto.
Qed.
Lemma loop_cls p l : forall s a v, cls p (nlPm s) -> nlBB s = false -> snd (nl_loop s l (Ok a)) = Ok (Ok v) ->
  let s' := fst (nl_loop s l (Ok a)) in
  cls p (nlPm s') /\ s' = nl_withPm s (nlPm s') /\
  exists mu n : nat -> Qc, (forall k, In k l -> prob_at p k = Ok (mu k) /\ getBinContent (bdHist (nlData s)) k = Ok (n k) /\ 0 < mu k) /\
    v = (a + rsum (map (fun k => poisson_nll (qr (n k)) (qr (mu k))) l))%R.
Proof.
  induction l as [|k l IH]; intros s a v C Hb H; cbv zeta.
  - cbn in H. injection H as <-. split; [exact C|]. split; [symmetry; apply withPm_id|]. exists (fun _ => 0), (fun _ => 0). split; [intros k []|]. cbn. ring.
  - rewrite loop_step in *. destruct (snd (nl_bin s k)) as [x| | | |] eqn:Eb; try discriminate.
    destruct (loop_finite _ _ _ _ H) as [b Ex]. destruct x as [x| | | |]; cbn [rlift2] in Ex; try discriminate. cbn [rlift2] in *.
    destruct (bin_cls p s k x C Hb Eb) as [mu [n [E1 [E2 [E3 ->]]]]]. destruct (bin_state p s k C) as [q [Es Cq]]. rewrite Es in *.
    destruct (IH (nl_withPm s q) _ v Cq Hb H) as [I1 [I2 [mu' [n' [I3 I4]]]]]. split; [exact I1|]. split; [rewrite I2; reflexivity|].
    exists (fun j => if Nat.eqb j k then mu else mu' j), (fun j => if Nat.eqb j k then n else n' j). split.
    + intros j Hj. destruct (Nat.eqb_spec j k) as [->|Nj]; [auto|]. destruct Hj as [->|Hj]; [congruence|]. apply I3, Hj.
    + rewrite I4. cbn [map rsum]. rewrite Nat.eqb_refl.
      assert (Q : map (fun j => poisson_nll (qr (if Nat.eqb j k then n else n' j)) (qr (if Nat.eqb j k then mu else mu' j))) l =
                  map (fun j => poisson_nll (qr (n' j)) (qr (mu' j))) l).
      { apply map_ext_in. intros j Hj. destruct (Nat.eqb_spec j k) as [->|Nj]; [|reflexivity]. destruct (I3 k Hj) as [X1 [X2 _]].
        cbn [nlData nl_withPm] in X2. rewrite E1 in X1. rewrite E2 in X2. injection X1 as ->. injection X2 as ->. reflexivity. }
      rewrite Q. ring.
Qed.

(** the switches an evaluation leaves alone *)
Definition keeps (s s' : nllh) : Prop := nlBB s' = nlBB s /\ nlCm s' = nlCm s.
Lemma keeps_refl s : keeps s s. Proof. split; reflexivity. Qed.
Lemma keeps_trans a b c : keeps a b -> keeps b c -> keeps a c.
Proof. intros [A1 A2] [B1 B2]. split; congruence. Qed.
Lemma onPm_keeps s f : keeps s (fst (nl_onPm s f)).
Proof. unfold nl_onPm. destruct (f (nlPm s)). (split; reflexivity). Qed.
Lemma chain_keeps s x f : keeps s (fst x) -> (forall t, keeps t (fst (f t))) -> keeps s (fst (@chain nllh x f)).
Proof. intros H Hf. destruct x as [t [| | | |]]; cbn; auto. eapply keeps_trans; [exact H|apply Hf]. Qed.
Lemma prepare_keeps s : keeps s (fst (nl_prepare s)).
Proof.
  unfold nl_prepare. repeat apply chain_keeps; try (intros t; apply onPm_keeps).
  - unfold nl_needData. destruct (negb (nlCalc s)); [|(split; reflexivity)]. destruct (nlSet s); [|(split; reflexivity)]. 
    destruct (binData_setup s) as [[_ [_ [_ [A4 [_ [A6 _]]]]]] _]. split; assumption.
  - intros t. unfold nl_shrinkData. destruct (nlShrunk t); [(split; reflexivity)|]. destruct (sh_setBinMap (nlSh t) (nlData t)) as [x r].
    destruct r as [[]| | | |]; cbn [obind fst]; try (split; reflexivity). destruct (sh_shrink x (nlData t)); cbn [obind fst]; (split; reflexivity).
  - intros t. unfold nl_construct. destruct (sm_construct (nlSm t)). (split; reflexivity).
Qed.

Lemma any_pkg s x : nlBB s = false -> snd (nl_eval s) = Ok x ->
  let s' := fst (nl_eval s) in let nbins := hNBins (bdHist (nlData s')) in
  exists p c (mu n : nat -> Qc), nl_getParams s' = Ok p /\ cman_eval (nlCm s) p = Ok c /\
    (forall k, (k < nbins)%nat -> snd (em_binProb (nlPm s') k) = Ok (mu k) /\ getBinContent (bdHist (nlData s')) k = Ok (n k) /\ 0 < mu k) /\
    x = (rsum (map (fun k => poisson_nll (qr (n k)) (qr (mu k))) (seq 0 nbins)) + qr c)%R.
Proof.
  intros Hb. cbv zeta. pose proof (prepare_keeps s) as [K1 K2]. unfold nl_eval.
  destruct (nl_prepare s) as [s1 r] eqn:Ep. cbn [fst] in *. destruct r as [[]| | | |]; cbn [snd fst]; try discriminate.
  set (bins := seq 0 (hNBins (bdHist (nlData s1)))). 
  destruct (nl_loop s1 bins (Ok 0%R)) as [s2 r2] eqn:El. destruct r2 as [acc| | | |]; cbn [snd fst]; try discriminate.
  destruct (nl_getParams s2) as [p| | | |] eqn:Eg; cbn [bind]; try discriminate.
  destruct (cman_eval (nlCm s2) p) as [c| | | |] eqn:Ec; try discriminate. destruct acc as [v| | | |]; cbn [rlift2]; try discriminate. intros [= <-].
  exists p, c. destruct bins as [|k0 bins'] eqn:Ebins.
  - cbn in El. injection El as <- <-. rewrite K2 in Ec. exists (fun _ => 0), (fun _ => 0). split; [first [exact Eg|reflexivity]|]. split; [exact Ec|].
    assert (N0 : hNBins (bdHist (nlData s1)) = 0%nat) by (unfold bins in Ebins; destruct (hNBins (bdHist (nlData s1))); [reflexivity|discriminate]).
    rewrite N0. split; [intros; lia|]. cbn. ring.
  - assert (Hp : exists p0, cls p0 (nlPm s1)).
    { rewrite loop_step in El. destruct (snd (nl_bin s1 k0)) as [y| | | |] eqn:Eb; try discriminate. eapply bin_cls_start, Eb. }
    destruct Hp as [p0 Hp]. pose proof (loop_cls p0 (k0 :: bins') s1 0%R v Hp) as L. cbv zeta in L. rewrite El in L. cbn [fst snd] in L.
    destruct L as [L1 [L2 [mu [n [L3 L4]]]]]; [congruence|reflexivity|]. exists mu, n. split; [first [exact Eg|reflexivity]|]. split.
    { rewrite <- Ec. rewrite L2. cbn. congruence. }
    assert (Ed : nlData s2 = nlData s1) by (rewrite L2; reflexivity). rewrite Ed. split.
    + intros k Hk. assert (In k (k0 :: bins')) as Hin by (rewrite <- Ebins; apply in_seq; lia). destruct (L3 k Hin) as [X1 [X2 X3]].
      destruct (cls_prob p0 (nlPm s2) k L1) as [q [E _]]. rewrite E. cbn [snd]. auto.
    + rewrite <- Ebins in L4. rewrite L4. unfold bins. ring.
Qed.
