From Coq Require Import ZArith Reals Lra.
From Verif Require Import Base.Res Base.Num Base.RNum Base.SMap Model.Axis Model.Event Model.Hist Model.Cut Model.ED Model.Shrink Model.Fill Model.Count
  Spec.AxisSpec Spec.HistSpec Spec.CutSpec Spec.FillSpec Spec.CountSpec Proofs.AxisP Proofs.HistP Proofs.CutP Proofs.FillP Proofs.FillP2.
Local Open Scope Qc_scope.
Local Open Scope res_scope.

Lemma config_ok ops : ceCuts (cerun ops) = cuts_in ops /\ ceSys (cerun ops) = sys_in ops /\ ceBg (cerun ops) = bgs_in ops /\
  ceSig (cerun ops) = last_signal ops /\ crRates (ceRes (cerun ops)) = [] /\ crErrs (ceRes (cerun ops)) = [].
Proof.
  unfold cerun, last_signal. assert (G : forall ops s a, ceSig s = a ->
    let s' := fold_left cedo ops s in
    ceCuts s' = ceCuts s ++ cuts_in ops /\ ceSys s' = ceSys s ++ sys_in ops /\ ceBg s' = ceBg s ++ bgs_in ops /\
    ceSig s' = fold_left (fun a o => match o with CSignal d => Some d | _ => a end) ops a /\
    crRates (ceRes s') = crRates (ceRes s) /\ crErrs (ceRes s') = crErrs (ceRes s)).
  { clear ops. induction ops as [|o ops IH]; intros s a Ha; cbv zeta.
    - cbn. rewrite !app_nil_r. auto 10.
    - cbn [fold_left cuts_in sys_in bgs_in flat_map].
      assert (P : exists a', ceSig (cedo s o) = a' /\ a' = (match o with CSignal d => Some d | _ => a end) /\
        ceCuts (cedo s o) = ceCuts s ++ (match o with CCut c => [c] | _ => [] end) /\
        ceSys (cedo s o) = ceSys s ++ (match o with CSys y => [y] | _ => [] end) /\
        ceBg (cedo s o) = ceBg s ++ (match o with CBg d r n => [(d, r, n)] | _ => [] end) /\
        crRates (ceRes (cedo s o)) = crRates (ceRes s) /\ crErrs (ceRes (cedo s o)) = crErrs (ceRes s)).
      { eexists. split; [reflexivity|]. destruct o; cbn [cedo]; try (cbn; rewrite ?app_nil_r; auto 10; fail).
        - unfold ce_countData. destruct (count_loop s data); cbn; rewrite !app_nil_r; auto 10.
        - unfold ce_countSignal. destruct (ceSig s) eqn:E; cbn; [|rewrite !app_nil_r; subst; auto 10].
          destruct (count_loop s l); cbn; rewrite ?E, !app_nil_r; subst; auto 10. }
      destruct P as [a' [P0 [P1 [P2 [P3 [P4 [P5 P6]]]]]]]. destruct (IH _ _ P0) as [Q1 [Q2 [Q3 [Q4 [Q5 Q6]]]]].
      rewrite Q1, Q2, Q3, Q4, Q5, Q6, P2, P3, P4, P5, P6, P1, <- !app_assoc. auto 10. }
  destruct (G ops ce_new None eq_refl) as [A [B [C [D [E F]]]]]. auto 10.
Qed.

Lemma foldM_entries {T} (F : T -> event -> res T) (data : list event) k : forall i s, (i + k <= List.length data)%nat ->
  foldM (fun s i => do e0 <- get_entry data i; F s e0) (seq i k) s = foldM F (firstn k (skipn i data)) s.
Proof.
  induction k as [|k IH]; intros i s Hi; cbn [seq foldM]; [reflexivity|].
  destruct (nth_error data i) as [e|] eqn:E; [|apply nth_error_None in E; lia].
  assert (Es : skipn i data = e :: skipn (S i) data).
  { clear -E. revert i E. induction data as [|x data IH]; intros [|i] E; cbn in E; try discriminate; [injection E as ->; reflexivity|].
    cbn [skipn]. rewrite (IH i E). reflexivity. }
  rewrite Es. cbn [firstn foldM]. unfold get_entry. rewrite E. cbn [bind]. destruct (F s e) as [s'| | | |]; cbn [bind]; try reflexivity. apply IH. lia.
Qed.
Lemma count_ok s data k : Forall cut_built (ceCuts s) -> passing (ceCuts s) (ceSys s) data k -> count_loop s data = Ok (Z.of_nat k).
Proof.
  intros Hc Hp. unfold count_loop.
  rewrite (foldM_entries (fun (acc : Z * cutlog) e0 => do e <- esm_apply (ceSys s) e0;
              match passesCutsLog (ceCuts s) e (snd acc) with
              | (l, r) => do pass <- r; Ok (if pass then (fst acc + 1)%Z else fst acc, l) end) data (List.length data) 0) by lia.
  cbn [skipn]. rewrite firstn_all.
  assert (Hl : List.length (lCounts (mk_log (map cutName (ceCuts s)))) = List.length (ceCuts s)) by (cbn; now rewrite repeat_length, map_length).
  revert Hl. generalize (mk_log (map cutName (ceCuts s))) as l0.
  assert (G : forall z l0, List.length (lCounts l0) = List.length (ceCuts s) -> exists l1,
    foldM (fun (acc : Z * cutlog) e0 => do e <- esm_apply (ceSys s) e0;
              match passesCutsLog (ceCuts s) e (snd acc) with
              | (l, r) => do pass <- r; Ok (if pass then (fst acc + 1)%Z else fst acc, l) end) data (z, l0) = Ok ((z + Z.of_nat k)%Z, l1)).
  { induction Hp as [|e e' l k Hio Hcut Hpa Hp IH|e e' l k Hio Hcut Hpa Hp IH]; intros z l0 Hl; cbn [foldM].
    - exists l0. f_equal. f_equal. lia.
    - destruct (in_order_apply _ e e e' (alike_refl e) Hio) as [e2 [-> Al]]. cbn [bind snd fst].
      assert (E : passesCutsLog (ceCuts s) e2 l0 = passesCutsLog (ceCuts s) e' l0) by (apply passesLog_alike; exact Al). rewrite E.
      destruct (log_keeps (ceCuts s) e' l0 Hc Hcut Hl) as [L1 L2]. destruct (keeps_spec (ceCuts s) e' Hc Hcut) as [K _].
      destruct (passesCutsLog (ceCuts s) e' l0) as [lg r]. cbn in L1, L2. subst r. cbn [bind]. rewrite (proj2 K Hpa).
      destruct (IH (z + 1)%Z lg L2) as [l1 ->]. exists l1. f_equal. f_equal. lia.
    - destruct (in_order_apply _ e e e' (alike_refl e) Hio) as [e2 [-> Al]]. cbn [bind snd fst].
      assert (E : passesCutsLog (ceCuts s) e2 l0 = passesCutsLog (ceCuts s) e' l0) by (apply passesLog_alike; exact Al). rewrite E.
      destruct (log_keeps (ceCuts s) e' l0 Hc Hcut Hl) as [L1 L2]. destruct (keeps_spec (ceCuts s) e' Hc Hcut) as [K _].
      destruct (passesCutsLog (ceCuts s) e' l0) as [lg r]. cbn in L1, L2. subst r. cbn [bind].
      destruct (keeps (ceCuts s) e'); [exfalso; apply Hpa, K; reflexivity|].
      destruct (IH z lg L2) as [l1 ->]. exists l1. reflexivity. }
  intros l0 Hl. destruct (G 0%Z l0 Hl) as [l1 ->]. reflexivity.
Qed.
Lemma passing_le cs ss l k : passing cs ss l k -> (k <= List.length l)%nat.
Proof. induction 1; cbn; lia. Qed.

Lemma countData_pkg ops data k : Forall cut_built (cuts_in ops) -> passing (cuts_in ops) (sys_in ops) data k ->
  exists s, ce_countData (cerun ops) data = (s, Ok tt) /\ crObs (ceRes s) = Z.of_nat k /\
    crRates (ceRes s) = [] /\ crEff (ceRes s) = crEff (ceRes (cerun ops)).
Proof.
  intros Hc Hp. destruct (config_ok ops) as [C1 [C2 [C3 [C4 [C5 C6]]]]]. rewrite <- C1, <- C2 in *. unfold ce_countData.
  rewrite (count_ok _ data k Hc Hp). cbn [obind]. eexists. split; [reflexivity|]. cbn. auto.
Qed.
Lemma qn_pos n : (0 < n)%nat -> 0 < qn n.
Proof. intros H. apply qr_lt. rewrite qr_0, qr_n. apply lt_0_INR. exact H. Qed.
Lemma qn_ge n : 0 <= qn n.
Proof. apply qr_le. rewrite qr_0, qr_n. apply pos_INR. Qed.
Lemma qn_le a b : (a <= b)%nat -> qn a <= qn b.
Proof. intros H. apply qr_le. rewrite !qr_n. apply le_INR. exact H. Qed.
Lemma countSignal_pkg ops data k : Forall cut_built (cuts_in ops) -> last_signal ops = Some data -> data <> [] ->
  passing (cuts_in ops) (sys_in ops) data k ->
  exists s, ce_countSignal (cerun ops) = (s, Ok tt) /\ crEff (ceRes s) = Ok (qn k / qn (List.length data)) /\
    0 <= qn k / qn (List.length data) /\ qn k / qn (List.length data) <= 1.
Proof.
  intros Hc Hs Hne Hp. destruct (config_ok ops) as [C1 [C2 [C3 [C4 [C5 C6]]]]]. rewrite <- C1, <- C2 in *. unfold ce_countSignal. rewrite C4, Hs.
  rewrite (count_ok _ data k Hc Hp). cbn [obind]. eexists. split; [reflexivity|].
  assert (Hpos : 0 < qn (List.length data)) by (apply qn_pos; destruct data; [contradiction|cbn; lia]).
  assert (Hnz : qn (List.length data) <> 0) by (intros E; rewrite E in Hpos; apply (Qclt_not_eq _ _ Hpos); reflexivity).
  cbn [ceRes ce_setRes crEff]. unfold qdiv. destruct (qeqb (qn (List.length data)) 0) eqn:Q; [apply qeqb_eq in Q; contradiction|]. split; [reflexivity|].
  assert (Hinv : 0 <= / qn (List.length data)).
  { apply qr_le. rewrite qr_inv by exact Hnz. rewrite qr_0. left. apply Rinv_0_lt_compat. rewrite <- qr_0. now apply qr_lt. }
  unfold Qcdiv. split.
  - replace 0 with (0 * / qn (List.length data)) by ring. apply Qcmult_le_compat_r; [apply qn_ge|exact Hinv].
  - rewrite <- (Qcmult_inv_r _ Hnz). apply Qcmult_le_compat_r; [|exact Hinv]. apply qn_le. eapply passing_le; exact Hp.
Qed.

Definition bg_count (p : list event * Qc * string * nat) : Qc := qn (snd p) * snd (fst (fst p)) / qn (List.length (fst (fst (fst p)))).
Definition bg_var (p : list event * Qc * string * nat) : R :=
  (INR (snd p) * (qr (snd (fst (fst p)))) ^ 2 / (INR (List.length (fst (fst (fst p))))) ^ 2)%R.
Lemma countBgs_pkg ops ks : Forall cut_built (cuts_in ops) ->
  Forall2 (fun bg k => fst (fst bg) <> [] /\ passing (cuts_in ops) (sys_in ops) (fst (fst bg)) k) (bgs_in ops) ks ->
  exists s, ce_countBgs (cerun ops) = (s, Ok tt) /\
    cr_expected (ceRes s) = Ok (qsum (map (fun p => qn (snd p) * snd (fst (fst p)) / qn (List.length (fst (fst (fst p))))) (combine (bgs_in ops) ks))) /\
    cr_error (ceRes s) = Ok (sqrt (rsum (map (fun p => INR (snd p) * (qr (snd (fst (fst p)))) ^ 2 / (INR (List.length (fst (fst (fst p))))) ^ 2)%R (combine (bgs_in ops) ks)))).
Proof.
  intros Hc Hp. destruct (config_ok ops) as [C1 [C2 [C3 [C4 [C5 C6]]]]]. rewrite <- C1, <- C2 in *. unfold ce_countBgs. rewrite C3.
  assert (G : forall bgs ks s, ceCuts s = ceCuts (cerun ops) -> ceSys s = ceSys (cerun ops) ->
    Forall2 (fun bg k => fst (fst bg) <> [] /\ passing (ceCuts (cerun ops)) (ceSys (cerun ops)) (fst (fst bg)) k) bgs ks ->
    exists s', iterS (fun s (bg : list event * Qc * string) =>
           obind s (count_loop s (fst (fst bg))) (fun n =>
             let N := List.length (fst (fst bg)) in
             let norm := snd (fst bg) in
             let counts := qdiv (qz n * norm) (qn N) in
             let err := if Nat.eqb N 0 then NonFinite else Ok (sqrt (IZR n) * qr norm / INR N)%R in
             let r := ceRes s in
             (ce_setRes s (mkCr (crObs r) (crEff r) (crRates r ++ [counts]) (crErrs r ++ [err]) (crNames r ++ [snd bg])), Ok tt))) bgs s = (s', Ok tt) /\
      crRates (ceRes s') = crRates (ceRes s) ++ map (fun p => Ok (bg_count p)) (combine bgs ks) /\
      exists es, crErrs (ceRes s') = crErrs (ceRes s) ++ map (@Ok R) es /\ Forall2 (fun e p => (e * e = bg_var p)%R) es (combine bgs ks)).
  { induction bgs as [|[[data norm] nm] bgs IH]; intros ks0 s E1 E2 F; inversion F as [|? k ? ks' [Hne Hk] F']; subst; cbn [iterS combine map].
    - exists s. rewrite app_nil_r. split; [reflexivity|]. split; [reflexivity|]. exists []. rewrite app_nil_r. split; [reflexivity|constructor].
    - cbn [fst snd] in *. rewrite (count_ok s data k) by (rewrite ?E1, ?E2; assumption). cbn [obind].
      assert (Hpos : 0 < qn (List.length data)) by (apply qn_pos; destruct data; [contradiction|cbn; lia]).
      assert (Hnz : qn (List.length data) <> 0) by (intros E; rewrite E in Hpos; apply (Qclt_not_eq _ _ Hpos); reflexivity).
      assert (Eq : qdiv (qz (Z.of_nat k) * norm) (qn (List.length data)) = Ok (qz (Z.of_nat k) * norm / qn (List.length data))).
      { unfold qdiv. destruct (qeqb (qn (List.length data)) 0) eqn:Q; [apply qeqb_eq in Q; contradiction|]. reflexivity. }
      destruct (Nat.eqb_spec (List.length data) 0) as [Z0|_]; [destruct data; [contradiction|discriminate]|].
      set (s1 := ce_setRes s _). destruct (IH ks' s1 E1 E2 F') as [s' [E' [R' [es [Es Fe]]]]]. exists s'. split; [exact E'|]. split.
      + rewrite R'. cbn [s1 ce_setRes ceRes crRates]. rewrite Eq, <- app_assoc. reflexivity.
      + exists ((sqrt (IZR (Z.of_nat k)) * qr norm / INR (List.length data))%R :: es). split.
        * rewrite Es. cbn [s1 ce_setRes ceRes crErrs map]. rewrite <- app_assoc. reflexivity.
        * constructor; [|exact Fe]. unfold bg_var. cbn [fst snd]. rewrite <- INR_IZR_INZ.
          assert (Hs : (sqrt (INR k) * sqrt (INR k) = INR k)%R) by (apply sqrt_sqrt, pos_INR).
          rewrite <- Hs at 3. field. apply not_0_INR. destruct data; [contradiction|discriminate]. }
  destruct (G (bgs_in ops) ks (cerun ops) eq_refl eq_refl Hp) as [s' [E' [R' [es [Es Fe]]]]]. exists s'. split; [exact E'|]. rewrite C5 in R'. rewrite C6 in Es. cbn [app] in *. split.
  - unfold cr_expected. rewrite R'. fold bg_count. change (fun p => qn (snd p) * snd (fst (fst p)) / qn (List.length (fst (fst (fst p))))) with bg_count.
    assert (L : forall l acc, foldM (fun s x => rmap (fun v => s + v) x) (map (fun p => Ok (bg_count p)) l) acc = Ok (acc + qsum (map bg_count l))).
    { induction l as [|x l IH]; intros acc; cbn [map foldM qsum]; [f_equal; ring|]. cbn [rmap bind]. rewrite IH. f_equal. ring. }
    rewrite L. f_equal. ring.
  - unfold cr_error. rewrite Es. change (fun p => (INR (snd p) * (qr (snd (fst (fst p)))) ^ 2 / (INR (List.length (fst (fst (fst p))))) ^ 2)%R) with bg_var.
    assert (L : forall acc, foldM (fun s x => rmap (fun v => s + v * v)%R x) (map (@Ok R) es) acc = Ok (acc + rsum (map bg_var (combine (bgs_in ops) ks)))%R).
    { clear -Fe. induction Fe as [|e p es ps He Fe IH]; intros acc; cbn [map foldM rsum]; [f_equal; ring|]. cbn [rmap bind]. rewrite IH.
      f_equal. rewrite He. ring. }
    rewrite L. unfold rmap. cbn [bind]. f_equal. f_equal. ring.
Qed.
