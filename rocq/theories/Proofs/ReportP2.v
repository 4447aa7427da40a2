From Coq Require Import ZArith Reals Permutation Sorted.
From Verif Require Import Base.Res Base.Num Base.RNum Base.SMap Model.Axis Model.Event Model.Hist Model.Cut Model.ED Model.Shrink Model.Fill Model.Count Model.Report
  Spec.AxisSpec Spec.HistSpec Spec.CutSpec Spec.FillSpec Spec.CountSpec Spec.ReportSpec Proofs.AxisP Proofs.HistP Proofs.CutP Proofs.FillP Proofs.FillP2 Proofs.CountP Proofs.ReportP.
Local Open Scope Qc_scope.
Local Open Scope res_scope.

Definition loged (cs : list cut) (evs : list event) : cutlog := fst (run_cuts cs evs (mk_log (map cutName cs))).
Lemma bgs_ok cs ss : Forall cut_built cs -> forall bgs bevs s, ceCuts (reExp s) = cs -> ceSys (reExp s) = ss ->
  Forall2 (fun bg ev => fst (fst bg) <> [] /\ become cs ss (fst (fst bg)) ev) bgs bevs ->
  exists s', iterS (fun s (bg : list event * Qc * string) =>
           obind s (count_logged (reExp s) (fst (fst bg))) (fun p =>
             let N := List.length (fst (fst bg)) in
             let norm := snd (fst bg) in
             let counts := qdiv (qz (fst p) * norm) (qn N) in
             let err := if Nat.eqb N 0 then NonFinite else Ok (sqrt (IZR (fst p)) * qr norm / INR N)%R in
             let r := ceRes (reExp s) in
             (mkRe (ce_setRes (reExp s) (mkCr (crObs r) (crEff r) (crRates r ++ [counts]) (crErrs r ++ [err]) (crNames r ++ [snd bg])))
                   (reName s) (reBgLogs s ++ [snd p]) (reSig s) (reData s), Ok tt))) bgs s = (s', Ok tt) /\
    ceCuts (reExp s') = cs /\ ceSys (reExp s') = ss /\ ceSig (reExp s') = ceSig (reExp s) /\ reName s' = reName s /\
    let rows := map (own_line (classify cs)) (combine bgs bevs) in
    crRates (ceRes (reExp s')) = crRates (ceRes (reExp s)) ++ map (fun t => Ok (snd (fst t))) rows /\
    crErrs (ceRes (reExp s')) = crErrs (ceRes (reExp s)) ++ map (fun t => Ok (snd t)) rows /\
    crNames (ceRes (reExp s')) = crNames (ceRes (reExp s)) ++ map snd bgs /\
    reBgLogs s' = reBgLogs s ++ map (loged cs) bevs.
Proof.
  intros Hc. induction bgs as [|[[data norm] nm] bgs IH]; intros bevs s E1 E2 F; inversion F as [|? ev ? bevs' [Hne Hk] F']; subst bevs; cbn [iterS combine map]; cbv zeta.
  - exists s. rewrite !app_nil_r. auto 10.
  - subst. cbn [fst snd] in *. rewrite (logged_ok (reExp s) data ev) by assumption. cbn [obind fst snd].
    assert (Hpos : 0 < qn (List.length data)) by (apply qn_pos; destruct data; [contradiction|cbn; lia]).
    assert (Hnz : qn (List.length data) <> 0) by (intros E; rewrite E in Hpos; apply (Qclt_not_eq _ _ Hpos); reflexivity).
    assert (Eq : forall x, qdiv x (qn (List.length data)) = Ok (x / qn (List.length data))).
    { intros x. unfold qdiv. destruct (qeqb (qn (List.length data)) 0) eqn:Q; [apply qeqb_eq in Q; contradiction|]. reflexivity. }
    rewrite Eq. destruct (Nat.eqb_spec (List.length data) 0) as [Z0|_]; [destruct data; [contradiction|discriminate]|].
    set (s1 := mkRe _ _ _ _ _). destruct (IH bevs' s1 eq_refl eq_refl F') as [s' [E' [C1 [C2 [C3 [C4 [R1 [R2 [R3 R4]]]]]]]]].
    exists s'. split; [exact E'|]. split; [exact C1|]. split; [exact C2|]. split; [exact C3|]. split; [exact C4|].
    rewrite R1, R2, R3, R4. unfold s1. cbn [reExp ce_setRes ceRes crRates crErrs crNames reBgLogs own_line fst snd]. rewrite <- !app_assoc. auto.
Qed.

(** reading parallel lists *)
Lemma vat_app {A} (l : list A) x t i : i = List.length l -> vat (l ++ x :: t) i = Ok x.
Proof. intros ->. unfold vat. rewrite nth_error_app2 by lia. rewrite Nat.sub_diag. reflexivity. Qed.
Lemma tables_ok : forall logs ts, Forall2 (fun l t => log_table l = Ok t) logs ts -> forall names, List.length names = List.length logs ->
  forall (a : list string) (b : list cutlog), List.length a = List.length b ->
  mapM (fun i => do n <- vat (a ++ names) i; do l <- vat (b ++ logs) i; rmap (fun t => (n, t)) (log_table l)) (seq (List.length a) (List.length logs))
  = Ok (combine names ts).
Proof.
  intros logs ts H. induction H as [|l t logs ts E H IH]; intros names L a b Lab; destruct names as [|n names]; cbn in L; try discriminate; [reflexivity|].
  cbn [List.length seq combine]. unfold mapM. cbn [map seqM]. rewrite (vat_app a) by reflexivity. rewrite (vat_app b) by exact Lab. cbn [bind]. rewrite E. cbn [rmap bind].
  specialize (IH names ltac:(lia) (a ++ [n]) (b ++ [l])). rewrite !app_length in IH. specialize (IH ltac:(cbn; lia)).
  rewrite <- !app_assoc in IH. cbn [app List.length] in IH. rewrite Nat.add_1_r in IH. unfold mapM in IH. rewrite IH. reflexivity.
Qed.
Lemma seqM_oks {A} (l : list A) : seqM (map (@Ok A) l) = Ok l.
Proof. induction l as [|x l IH]; cbn [map seqM bind]; [reflexivity|]. rewrite IH. reflexivity. Qed.
Lemma pairs_ok (rows : list (string * Qc * R)) : forall a b c acc, List.length a = List.length b -> List.length a = List.length c ->
  foldM (fun (acc : list (string * Qc) * smap R) i =>
           do n <- vat (a ++ map (fun t => fst (fst t)) rows) i; do x <- vat (b ++ map (fun t => snd (fst t)) rows) i; do e <- vat (c ++ map snd rows) i;
           Ok (fst acc ++ [(n, x)], sset n e (snd acc)))
        (seq (List.length a) (List.length rows)) acc
  = Ok (fst acc ++ map fst rows, fold_left (fun m t => sset (fst (fst t)) (snd t) m) rows (snd acc)).
Proof.
  induction rows as [|[[n x] e] rows IH]; intros a b c [acc m] L1 L2; cbn [List.length seq foldM map fold_left fst snd]; [now rewrite app_nil_r|].
  rewrite (vat_app a) by reflexivity. rewrite (vat_app b) by exact L1. rewrite (vat_app c) by exact L2. cbn [bind].
  specialize (IH (a ++ [n]) (b ++ [x]) (c ++ [e]) (acc ++ [(n, x)], sset n e m)). rewrite !app_length in IH. specialize (IH ltac:(cbn; lia) ltac:(cbn; lia)).
  rewrite <- !app_assoc in IH. cbn [app List.length fst snd] in IH. rewrite Nat.add_1_r in IH. rewrite <- (app_assoc acc) in IH. exact IH.
Qed.
Lemma errs_find (rows : list (string * Qc * R)) : NoDup (map (fun t => fst (fst t)) rows) -> forall m t, In t rows ->
  sfind (fst (fst t)) (fold_left (fun m t => sset (fst (fst t)) (snd t) m) rows m) = Some (snd t).
Proof.
  assert (K : forall rows m n, ~ In n (map (fun t : string * Qc * R => fst (fst t)) rows) -> sfind n (fold_left (fun m t => sset (fst (fst t)) (snd t) m) rows m) = sfind n m).
  { clear. induction rows as [|x rows IH]; intros m n Hn; cbn [fold_left]; [reflexivity|]. cbn in Hn. rewrite IH by tauto. apply sfind_sset_neq. intros ->. tauto. }
  induction rows as [|x rows IH]; intros Hd m t Ht; [destruct Ht|]. cbn [map] in Hd. inversion Hd as [|? ? Hx Hd']; subst. cbn [fold_left]. destruct Ht as [<-|Ht].
  - rewrite K by exact Hx. apply sfind_sset_eq.
  - apply IH; assumption.
Qed.

Lemma errs_last (rows : list (string * Qc * R)) n : In n (map (fun t => fst (fst t)) rows) -> forall m,
  exists pre t post, rows = pre ++ t :: post /\ fst (fst t) = n /\ (forall u, In u post -> fst (fst u) <> n) /\
  sfind n (fold_left (fun m t => sset (fst (fst t)) (snd t) m) rows m) = Some (snd t).
Proof.
  assert (K : forall rows m n, (forall u : string * Qc * R, In u rows -> fst (fst u) <> n) -> sfind n (fold_left (fun m t => sset (fst (fst t)) (snd t) m) rows m) = sfind n m).
  { clear. induction rows as [|x rows IH]; intros m n Hn; cbn [fold_left]; [reflexivity|]. rewrite IH by (intros; apply Hn; now right).
    apply sfind_sset_neq. intros E. apply (Hn x (or_introl eq_refl)). congruence. }
  induction rows as [|x rows IH]; intros Hn m; [destruct Hn|]. cbn [fold_left].
  destruct (in_dec string_dec n (map (fun t => fst (fst t)) rows)) as [Hi|Hi].
  - destruct (IH Hi (sset (fst (fst x)) (snd x) m)) as [pre [t [post [-> [E [P F]]]]]]. exists (x :: pre), t, post. auto.
  - exists [], x, rows. destruct Hn as [Hn|Hn]; [|contradiction]. split; [reflexivity|]. split; [exact Hn|].
    assert (P : forall u, In u rows -> fst (fst u) <> n) by (intros u Hu E; apply Hi; rewrite <- E; apply (in_map (fun t => fst (fst t))); exact Hu).
    split; [exact P|]. rewrite K by exact P. rewrite Hn. apply sfind_sset_eq.
Qed.

Lemma report_pkg srt ops bevs sdata sname sevs data evs :
  std_sort srt -> Forall cut_built (r_cuts ops) ->
  Forall2 (fun bg ev => fst (fst bg) <> [] /\ become (r_cuts ops) (r_sys ops) (fst (fst bg)) ev) (r_bgs ops) bevs ->
  r_signal ops = Some (sdata, sname) -> become (r_cuts ops) (r_sys ops) sdata sevs -> become (r_cuts ops) (r_sys ops) data evs ->
  exists cls s1 s2 s3 rp,
    (forall l, In l (evs :: sevs :: bevs) -> sorts_out (r_cuts ops) l cls) /\
    re_countBgs (rerun ops) = (s1, Ok tt) /\ re_countSignal s1 = (s2, Ok tt) /\ re_countData s2 data = (s3, Ok tt) /\
    re_asString srt s3 = Ok rp /\
    map fst (rpBgs rp) = map snd (r_bgs ops) /\ Forall2 (fun ev t => accounts (r_cuts ops) ev cls (snd t)) bevs (rpBgs rp) /\
    fst (rpSignal rp) = sname /\ accounts (r_cuts ops) sevs cls (snd (rpSignal rp)) /\ accounts (r_cuts ops) evs cls (rpTest rp) /\
    (let lines := map (own_line cls) (combine (r_bgs ops) bevs) in
     Permutation (map fst (rpSummary rp)) (map fst lines) /\
     (NoDup (map snd (r_bgs ops)) -> Permutation (rpSummary rp) lines) /\
     (forall row, In row (rpSummary rp) -> exists pre t post, lines = pre ++ t :: post /\ fst (fst t) = fst (fst row) /\
        (forall u, In u post -> fst (fst u) <> fst (fst row)) /\ snd row = snd t) /\
     Sorted (fun a b => snd (fst b) <= snd (fst a)) (rpSummary rp) /\
     rpTotal rp = qsum (map (fun t => snd (fst t)) lines) /\
     rpTotalErr rp = sqrt (rsum (map (fun t => snd t ^ 2)%R lines))) /\
    (sdata <> [] -> rpEff rp = Ok (qz (zcount (fun e => survives (cls e)) sevs) / qn (List.length sdata))) /\
    rpObs rp = zcount (fun e => survives (cls e)) evs.
Proof.
  intros Hsrt Hc Hb Hs Bs Bd. destruct (rconfig_ok ops) as [C1 [C2 [C3 [C4 [C5 [C6 C7]]]]]].
  exists (classify (r_cuts ops)).
  destruct (bgs_ok (r_cuts ops) (r_sys ops) Hc (r_bgs ops) bevs (rerun ops) C1 C2 Hb) as [s1 [E1 [D1 [D2 [D3 [D4 [R1 [R2 [R3 R4]]]]]]]]].
  rewrite C6 in R1, R2, R3. rewrite C7 in R4. cbn [cr_new crRates crErrs crNames app] in R1, R2, R3, R4. exists s1.
  assert (X2 : exists s2, re_countSignal s1 = (s2, Ok tt) /\ ceCuts (reExp s2) = r_cuts ops /\ ceSys (reExp s2) = r_sys ops /\ reBgLogs s2 = reBgLogs s1 /\
    reSig s2 = (sname, loged (r_cuts ops) sevs) /\ crRates (ceRes (reExp s2)) = crRates (ceRes (reExp s1)) /\ crErrs (ceRes (reExp s2)) = crErrs (ceRes (reExp s1)) /\
    crNames (ceRes (reExp s2)) = crNames (ceRes (reExp s1)) /\ crEff (ceRes (reExp s2)) = qdiv (qz (zcount (fun e => survives (classify (r_cuts ops) e)) sevs)) (qn (List.length sdata))).
  { unfold re_countSignal. rewrite D3, C4, Hs. cbn [option_map fst]. rewrite (logged_ok (reExp s1) sdata sevs) by (rewrite D1, ?D2; assumption). cbn [obind].
    eexists. split; [reflexivity|]. cbn [reExp ce_setRes ceCuts ceSys ceRes crRates crErrs crNames crEff reBgLogs reSig fst snd]. rewrite D1, D4, (C5 _ _ Hs). auto 10. }
  destruct X2 as [s2 [E2 [F1 [F2 [F3 [F4 [F5 [F6 [F7 F8]]]]]]]]]. exists s2.
  assert (X3 : exists s3, re_countData s2 data = (s3, Ok tt) /\ reBgLogs s3 = reBgLogs s2 /\
    reSig s3 = reSig s2 /\ reData s3 = loged (r_cuts ops) evs /\ crRates (ceRes (reExp s3)) = crRates (ceRes (reExp s2)) /\ crErrs (ceRes (reExp s3)) = crErrs (ceRes (reExp s2)) /\
    crNames (ceRes (reExp s3)) = crNames (ceRes (reExp s2)) /\ crEff (ceRes (reExp s3)) = crEff (ceRes (reExp s2)) /\
    crObs (ceRes (reExp s3)) = zcount (fun e => survives (classify (r_cuts ops) e)) evs).
  { unfold re_countData. rewrite (logged_ok (reExp s2) data evs) by (rewrite F1, ?F2; assumption). cbn [obind].
    eexists. split; [reflexivity|]. cbn [reExp ce_setRes ceCuts ceSys ceRes crRates crErrs crNames crEff crObs reBgLogs reSig reData fst snd]. rewrite F1. auto 10. }
  destruct X3 as [s3 [E3 [G1 [G2 [G3 [G4 [G5 [G6 [G7 G8]]]]]]]]]. exists s3.
  set (lines := map (own_line (classify (r_cuts ops))) (combine (r_bgs ops) bevs)) in *.
  assert (Lb : List.length (r_bgs ops) = List.length bevs) by (clear -Hb; induction Hb; cbn; congruence).
  assert (Hnames : map snd (r_bgs ops) = map (fun t => fst (fst t)) lines).
  { unfold lines. rewrite map_map. clear -Lb. revert Lb. generalize bevs as l. induction (r_bgs ops) as [|[[d r] n] bgs IH]; intros [|ev l] L; cbn in L; try discriminate; [reflexivity|].
    cbn [combine map own_line fst snd]. f_equal. apply IH. lia. }
  assert (Ts : exists ts, Forall2 (fun l t => log_table l = Ok t) (map (loged (r_cuts ops)) bevs) ts /\ Forall2 (fun ev t => accounts (r_cuts ops) ev (classify (r_cuts ops)) t) bevs ts).
  { clear -Hb Hc. induction Hb as [|bg ev bgs bevs [_ [_ B]] Hb IH]; [exists []; split; constructor|]. destruct IH as [ts [A1 A2]].
    destruct (accounts_ok _ ev Hc B) as [t [T1 T2]]. exists (t :: ts). split; constructor; assumption. }
  destruct Ts as [ts [T1 T2]].
  destruct (accounts_ok _ sevs Hc (proj2 Bs)) as [st [S1 S2]]. destruct (accounts_ok _ evs Hc (proj2 Bd)) as [dt [U1 U2]].
  set (m := fold_left (fun m t => sset (fst (fst t)) (snd t) m) lines sempty).
  set (g := fun p : string * Qc => (fst p, snd p, match sfind (fst p) m with Some e => e | None => 0%R end)).
  exists (mkRep (combine (map snd (r_bgs ops)) ts) (sname, st) dt (map g (srt (map fst lines)))
            (qsum (map (fun t => snd (fst t)) lines)) (sqrt (rsum (map (fun t => snd t ^ 2)%R lines)))
            (qdiv (qz (zcount (fun e => survives (classify (r_cuts ops) e)) sevs)) (qn (List.length sdata)))
            (zcount (fun e => survives (classify (r_cuts ops) e)) evs)).
  assert (Lt : List.length ts = List.length bevs) by (clear -T2; induction T2; cbn; congruence).
  split; [|split; [unfold re_countBgs; rewrite C3; exact E1|split; [exact E2|split; [exact E3|]]]].
  { intros l Hl e He. apply classify_spec; [exact Hc|]. destruct Hl as [<-|[<-|Hl]]; [exact (proj2 Bd e He)|exact (proj2 Bs e He)|].
    clear -Hb Hl He. induction Hb as [|bg ev bgs bevs [_ [_ B]] Hb IH]; [destruct Hl|]. destruct Hl as [<-|Hl]; [exact (B e He)|exact (IH Hl)]. }
  split.
  { unfold re_asString. rewrite G6, F7, R3, G1, F3, R4, G2, F4, G3, G4, F5, R1, G5, F6, R2, G7, F8, G8.
    pose proof (tables_ok _ _ T1 (map snd (r_bgs ops)) ltac:(now rewrite !map_length) [] [] eq_refl) as M. cbn [app List.length] in M. rewrite M. cbn [bind fst snd].
    unfold loged at 1. rewrite S1. cbn [bind]. unfold loged. rewrite U1. cbn [bind].
    assert (M1 : seqM (map (fun t : string * Qc * R => Ok (snd (fst t))) lines) = Ok (map (fun t => snd (fst t)) lines)).
    { pose proof (seqM_oks (map (fun t : string * Qc * R => snd (fst t)) lines)) as M1. rewrite map_map in M1. exact M1. }
    assert (M2 : seqM (map (fun t : string * Qc * R => Ok (snd t)) lines) = Ok (map snd lines)).
    { pose proof (seqM_oks (map (@snd (string * Qc) R) lines)) as M2. rewrite map_map in M2. exact M2. }
    rewrite M1, M2. cbn [bind]. rewrite Hnames, map_length.
    pose proof (pairs_ok lines [] [] [] ([], sempty) eq_refl eq_refl) as M3. cbn [app List.length fst snd] in M3. rewrite M3. cbn [bind fst snd].
    assert (T : cr_expected (ceRes (reExp s3)) = Ok (qsum (map (fun t => snd (fst t)) lines))).
    { unfold cr_expected. rewrite G4, F5, R1. clearbody lines. clear. assert (L : forall acc, foldM (fun s x => rmap (fun v => s + v) x) (map (fun t : string * Qc * R => Ok (snd (fst t))) lines) acc = Ok (acc + qsum (map (fun t => snd (fst t)) lines))).
      { induction lines as [|x l IH]; intros acc; cbn [map foldM qsum]; [f_equal; ring|]. cbn [rmap bind]. rewrite IH. f_equal. ring. }
      rewrite L. f_equal. ring. }
    assert (V : cr_error (ceRes (reExp s3)) = Ok (sqrt (rsum (map (fun t => snd t ^ 2)%R lines)))).
    { unfold cr_error. rewrite G5, F6, R2. clearbody lines. clear. assert (L : forall acc, foldM (fun s x => rmap (fun v => s + v * v)%R x) (map (fun t : string * Qc * R => Ok (snd t)) lines) acc = Ok (acc + rsum (map (fun t => snd t ^ 2)%R lines))%R).
      { induction lines as [|x l IH]; intros acc; cbn [map foldM rsum]; [f_equal; ring|]. cbn [rmap bind]. rewrite IH. f_equal. ring. }
      rewrite L. unfold rmap. cbn [bind]. f_equal. f_equal. ring. }
    rewrite T, V. cbn [bind]. reflexivity. }
  cbn [rpBgs rpSignal rpTest rpSummary rpTotal rpTotalErr rpEff rpObs fst snd].
  split. { clear -Lb Lt. assert (L : List.length (map snd (r_bgs ops)) = List.length ts) by (rewrite map_length; congruence). revert ts Lt L. generalize (map snd (r_bgs ops)) as ns.
    intros ns ts _. revert ts. induction ns as [|n ns IH]; intros [|t ts] L; cbn in L; try discriminate; [reflexivity|]. cbn. f_equal. apply IH. lia. }
  split. { clear -T2 Lb Lt. assert (L : List.length (map snd (r_bgs ops)) = List.length ts) by (rewrite map_length; congruence). clear Lb Lt. revert L. generalize (map snd (r_bgs ops)) as ns.
    induction T2 as [|ev t evs ts H T2 IH]; intros [|n ns] L; cbn in L; try discriminate; constructor; [exact H|]. apply IH. lia. }
  split; [reflexivity|]. split; [exact S2|]. split; [exact U2|]. split.
  - destruct (Hsrt (map fst lines)) as [P Q]. cbv zeta. split; [|split; [|split; [|split; [|split; reflexivity]]]].
    + rewrite map_map. rewrite (map_ext _ (fun p => p)) by (intros [? ?]; reflexivity). rewrite map_id. symmetry. exact P.
    + intros Nd. rewrite Hnames in Nd. replace lines with (map g (map fst lines)) at 2.
      * apply Permutation_map. symmetry. exact P.
      * rewrite map_map. rewrite <- (map_id lines) at 2. apply map_ext_in. intros [[n x] e] Ht. unfold g, m. cbn [fst snd].
        pose proof (errs_find lines Nd sempty _ Ht) as Er. cbn [fst snd] in Er. rewrite Er. reflexivity.
    + intros row Hr. apply in_map_iff in Hr as [p [<- Hp]]. cbn [g fst snd].
      assert (Hn : In (fst p) (map (fun t => fst (fst t)) lines)).
      { apply (Permutation_in _ (Permutation_sym P)) in Hp. apply in_map_iff in Hp as [t [<- Ht]]. apply (in_map (fun t => fst (fst t))). exact Ht. }
      destruct (errs_last lines (fst p) Hn sempty) as [pre [t [post [A1 [A2 [A3 A4]]]]]]. exists pre, t, post. fold m in A4. rewrite A4. auto.
    + unfold g. clearbody m. revert Q. generalize (srt (map fst lines)). clear. intros l H.
      induction H as [|x l H IH Hd]; cbn [map]; constructor; [exact IH|]. destruct Hd as [|y l Hxy]; constructor. exact Hxy.
  - split; [|reflexivity]. intros Hne. unfold qdiv. destruct (qeqb (qn (List.length sdata)) 0) eqn:Qe; [|reflexivity]. exfalso. apply qeqb_eq in Qe.
    assert (Hpos : 0 < qn (List.length sdata)) by (apply qn_pos; destruct sdata; [contradiction|cbn; lia]). rewrite Qe in Hpos. apply (Qclt_not_eq _ _ Hpos). reflexivity.
Qed.
