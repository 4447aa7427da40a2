From Coq Require Import ZArith Reals Permutation Sorted.
From Verif Require Import Base.Res Base.Num Base.RNum Base.SMap Model.Axis Model.Event Model.Hist Model.Cut Model.ED Model.Shrink Model.Fill Model.Count Model.Report
  Spec.AxisSpec Spec.HistSpec Spec.CutSpec Spec.FillSpec Spec.CountSpec Spec.ReportSpec Proofs.AxisP Proofs.HistP Proofs.CutP Proofs.FillP Proofs.FillP2 Proofs.CountP.
Local Open Scope Qc_scope.
Local Open Scope res_scope.

(** any log prints, one line per cut *)
Lemma logrun_len names ops : List.length (lCounts (logrun names ops)) = List.length names /\ lNames (logrun names ops) = names.
Proof.
  unfold logrun. assert (G : forall ops l, List.length (lCounts (fold_left logdo ops l)) = List.length (lCounts l) /\ lNames (fold_left logdo ops l) = lNames l).
  { clear. induction ops as [|o ops IH]; intros l; cbn [fold_left]; [auto|]. destruct (IH (logdo l o)) as [-> ->].
    destruct o as [|i]; cbn [logdo]; [auto|]. unfold logCut. destruct (nth_error (lCounts l) i); cbn; [rewrite upd_length|]; auto. }
  destruct (G ops (mk_log names)) as [-> ->]. cbn. now rewrite repeat_length.
Qed.
Lemma rows_names n : forall names counts rem, List.length counts = List.length names -> map rwCut (log_rows n rem names counts) = names.
Proof.
  induction names as [|nm names IH]; intros [|c counts] rem E; cbn in E; try discriminate; [reflexivity|]. cbn [log_rows map rwCut]. f_equal. apply IH. lia.
Qed.
Lemma prints_pkg names ops : exists t, log_table (logrun names ops) = Ok t /\ map rwCut t = names.
Proof.
  destruct (logrun_len names ops) as [L N]. unfold log_table. rewrite N, L.
  destruct (Nat.eqb_spec (List.length names) 0) as [E|_].
  - exists []. split; [reflexivity|]. destruct names; [reflexivity|discriminate].
  - rewrite Nat.eqb_refl. cbn [negb]. eexists. split; [reflexivity|]. apply rows_names. rewrite L. reflexivity.
Qed.
Lemma saved_pkg writable fs title path names ops : exists t, log_table (logrun names ops) = Ok t /\
  log_saveAs writable fs title path (logrun names ops) = (write writable fs path (title, t), Ok tt).
Proof. destruct (prints_pkg names ops) as [t [E _]]. exists t. split; [exact E|]. unfold log_saveAs. rewrite E. reflexivity. Qed.

(** the numbers are those of Model/Count.v *)
Lemma loop_logged s data : count_loop s data = rmap fst (count_logged s data).
Proof. reflexivity. Qed.
Lemma project_data s data : reExp (fst (re_countData s data)) = fst (ce_countData (reExp s) data) /\
  snd (re_countData s data) = snd (ce_countData (reExp s) data).
Proof.
  unfold re_countData, ce_countData. rewrite loop_logged. destruct (count_logged (reExp s) data) as [[n l]| | | |]; cbn [rmap bind obind fst snd]; auto.
Qed.
Lemma project_signal s : reExp (fst (re_countSignal s)) = fst (ce_countSignal (reExp s)) /\
  snd (re_countSignal s) = snd (ce_countSignal (reExp s)).
Proof.
  unfold re_countSignal, ce_countSignal. destruct (ceSig (reExp s)) as [data|]; [|auto]. rewrite loop_logged.
  destruct (count_logged (reExp s) data) as [[n l]| | | |]; cbn [rmap bind obind fst snd]; auto.
Qed.
Lemma project_bgs s : reExp (fst (re_countBgs s)) = fst (ce_countBgs (reExp s)) /\
  snd (re_countBgs s) = snd (ce_countBgs (reExp s)).
Proof.
  unfold re_countBgs, ce_countBgs. generalize (ceBg (reExp s)) as bgs. intros bgs. revert s.
  induction bgs as [|bg bgs IH]; intros s; cbn [iterS]; [auto|]. rewrite loop_logged.
  destruct (count_logged (reExp s) (fst (fst bg))) as [[n l]| | | |]; cbn [rmap bind obind fst snd]; auto.
  apply (IH (mkRe _ _ _ _ _)).
Qed.

Lemma rconfig_ok ops : ceCuts (reExp (rerun ops)) = r_cuts ops /\ ceSys (reExp (rerun ops)) = r_sys ops /\ ceBg (reExp (rerun ops)) = r_bgs ops /\
  ceSig (reExp (rerun ops)) = option_map fst (r_signal ops) /\ (forall d n, r_signal ops = Some (d, n) -> reName (rerun ops) = n) /\
  ceRes (reExp (rerun ops)) = cr_new /\ reBgLogs (rerun ops) = [].
Proof.
  unfold rerun, r_signal.
  assert (G : forall ops s a, ceSig (reExp s) = option_map fst a -> (forall d n, a = Some (d, n) -> reName s = n) ->
    let s' := fold_left redo ops s in
    ceCuts (reExp s') = ceCuts (reExp s) ++ r_cuts ops /\ ceSys (reExp s') = ceSys (reExp s) ++ r_sys ops /\ ceBg (reExp s') = ceBg (reExp s) ++ r_bgs ops /\
    ceSig (reExp s') = option_map fst (fold_left (fun a o => match o with RSignal d n => Some (d, n) | _ => a end) ops a) /\
    (forall d n, fold_left (fun a o => match o with RSignal d n => Some (d, n) | _ => a end) ops a = Some (d, n) -> reName s' = n) /\
    ceRes (reExp s') = ceRes (reExp s) /\ reBgLogs s' = reBgLogs s).
  { clear ops. induction ops as [|o ops IH]; intros s a Ha Hn; cbv zeta.
    - cbn. rewrite !app_nil_r. auto 10.
    - cbn [fold_left r_cuts r_sys r_bgs flat_map]. specialize (IH (redo s o) (match o with RSignal d n => Some (d, n) | _ => a end)). cbv zeta in IH.
      destruct IH as [Q1 [Q2 [Q3 [Q4 [Q5 [Q6 Q7]]]]]].
      + destruct o; cbn; auto.
      + destruct o; cbn; auto. intros d n0 E; injection E as <- <-. reflexivity.
      + rewrite Q1, Q2, Q3, Q4, Q6, Q7. destruct o; cbn; rewrite <- ?app_assoc; auto 10. }
  destruct (G ops re_new None eq_refl) as [A [B [C [D [E [F H]]]]]]; [discriminate|]. auto 10.
Qed.

(** counting with the log *)
Lemma logged_ok s data evs : Forall cut_built (ceCuts s) -> become (ceCuts s) (ceSys s) data evs ->
  count_logged s data = Ok (zcount (fun e => survives (classify (ceCuts s) e)) evs, fst (run_cuts (ceCuts s) evs (mk_log (map cutName (ceCuts s))))).
Proof.
  intros Hc [Hio Hcut]. unfold count_logged.
  rewrite (foldM_entries (fun (acc : Z * cutlog) e0 => do e <- esm_apply (ceSys s) e0;
              match passesCutsLog (ceCuts s) e (snd acc) with
              | (l, r) => do pass <- r; Ok (if pass then (fst acc + 1)%Z else fst acc, l) end) data (List.length data) 0) by lia.
  cbn [skipn]. rewrite firstn_all.
  assert (Hl : List.length (lCounts (mk_log (map cutName (ceCuts s)))) = List.length (ceCuts s)) by (cbn; now rewrite repeat_length, map_length).
  assert (G : forall z l0, List.length (lCounts l0) = List.length (ceCuts s) ->
    foldM (fun (acc : Z * cutlog) e0 => do e <- esm_apply (ceSys s) e0;
              match passesCutsLog (ceCuts s) e (snd acc) with
              | (l, r) => do pass <- r; Ok (if pass then (fst acc + 1)%Z else fst acc, l) end) data (z, l0)
    = Ok ((z + zcount (fun e => survives (classify (ceCuts s) e)) evs)%Z, fst (run_cuts (ceCuts s) evs l0))).
  { clear Hl. induction Hio as [|e e' l evs Hio Hios IH]; intros z l0 Hl; cbn [foldM zcount run_cuts].
    - f_equal. f_equal. lia.
    - destruct (in_order_apply _ e e e' (alike_refl e) Hio) as [e2 [-> Al]]. cbn [bind snd fst].
      assert (E : passesCutsLog (ceCuts s) e2 l0 = passesCutsLog (ceCuts s) e' l0) by (apply passesLog_alike; exact Al). rewrite E.
      destruct (log_keeps (ceCuts s) e' l0 Hc (Hcut e' (or_introl eq_refl)) Hl) as [L1 L2].
      destruct (passesCutsLog (ceCuts s) e' l0) as [lg r]. cbn in L1, L2. subst r. cbn [bind].
      rewrite IH by (auto; intros; apply Hcut; now right).
      destruct (run_cuts (ceCuts s) evs lg) as [l2 rs]. cbn [fst]. unfold keeps, survives. destruct (classify (ceCuts s) e'); f_equal; f_equal; lia. }
  rewrite G by exact Hl. reflexivity.
Qed.

Lemma zcount_ext {A} (p q : A -> bool) l : (forall x, In x l -> p x = q x) -> zcount p l = zcount q l.
Proof. induction l as [|x l IH]; intros H; cbn; [reflexivity|]. rewrite (H x (or_introl eq_refl)), IH; [reflexivity|]. intros; apply H; now right. Qed.
Lemma zcount_split cs evs i : (zcount (fun e => left_after i (classify cs e)) evs + zcount (fun e => is_cut_by i (classify cs e)) evs =
  match i with O => Z.of_nat (List.length evs) | S j => zcount (fun e => left_after j (classify cs e)) evs end)%Z.
Proof.
  induction evs as [|e evs IH]; cbn [zcount List.length]; [destruct i; reflexivity|].
  destruct (classify cs e) as [k|]; cbn [left_after is_cut_by].
  - destruct (Nat.ltb_spec i k), (Nat.eqb_spec k i); try lia; destruct i as [|j]; try lia; destruct (Nat.ltb_spec j k); lia.
  - destruct i; lia.
Qed.
Lemma rows_nth n : forall names counts rem i row, List.length counts = List.length names -> nth_error (log_rows n rem names counts) i = Some row ->
  nth_error names i = Some (rwCut row) /\ rwCount row = nth i counts 0%Z /\ rwRem row = (rem - zsum (firstn (S i) counts))%Z /\
  rwPct row = qdiv (qz (rwCount row) * qz 100) (qz n) /\ rwRemPct row = qdiv (qz (rwRem row) * qz 100) (qz n).
Proof.
  induction names as [|nm names IH]; intros [|c counts] rem i row L E; cbn in L; try discriminate; [destruct i; discriminate|].
  cbn [log_rows] in E. destruct i as [|i]; cbn [nth_error] in E.
  - injection E as <-. cbn [rwCut rwCount rwPct rwRem rwRemPct firstn zsum nth nth_error]. rewrite Z.add_0_r. auto.
  - destruct (IH counts (rem - c)%Z i row ltac:(lia) E) as [A [B [C [D F]]]]. cbn [nth_error nth firstn zsum]. split; [exact A|]. split; [exact B|].
    split; [cbn [firstn zsum] in C; lia|]. auto.
Qed.
Lemma rows_len n : forall names counts rem, List.length counts = List.length names -> List.length (log_rows n rem names counts) = List.length names.
Proof. induction names as [|nm names IH]; intros [|c counts] rem E; cbn in E; try discriminate; [reflexivity|]. cbn [log_rows List.length]. f_equal. apply IH. lia. Qed.
Lemma zsum_S : forall (c : list Z) k, (k < List.length c)%nat -> zsum (firstn (S k) c) = (zsum (firstn k c) + nth k c 0)%Z.
Proof. induction c as [|x c IH]; intros k Hk; cbn in Hk; [lia|]. destruct k as [|k]; [cbn; lia|]. cbn [firstn zsum nth]. rewrite <- Z.add_assoc. f_equal. apply IH. lia. Qed.
Lemma qz_nz z : z <> 0%Z -> qz z <> 0.
Proof. intros H E. apply (f_equal qr) in E. rewrite qr_z, qr_0 in E. apply H. apply eq_IZR. exact E. Qed.
Lemma accounts_ok cs evs : Forall cut_built cs -> (forall e, In e evs -> cuttable cs e) ->
  exists t, log_table (fst (run_cuts cs evs (mk_log (map cutName cs)))) = Ok t /\ accounts cs evs (classify cs) t.
Proof.
  intros H Hc. pose proof (run_cuts_ok cs evs H (mk_log (map cutName cs))) as R. cbn [mk_log lCounts lN lNames] in R.
  rewrite repeat_length, map_length in R. specialize (R eq_refl Hc). fold (mk_log (map cutName cs)) in R.
  destruct (run_cuts cs evs (mk_log (map cutName cs))) as [l rs]. destruct R as [_ [R2 [R3 [R4 R5]]]]. cbn [fst]. unfold log_table. rewrite R3, R4, R2, Z.add_0_l, map_length.
  destruct (Nat.eqb_spec (List.length cs) 0) as [E|Hne].
  - exists []. split; [reflexivity|]. destruct cs; [|discriminate]. split; [reflexivity|]. intros [|i] ? ? C; discriminate.
  - rewrite Nat.eqb_refl. cbn [negb]. eexists. split; [reflexivity|]. split; [rewrite rows_len; rewrite map_length; auto|].
    intros i c row Ec Er. assert (Hi : (i < List.length cs)%nat) by (apply nth_error_Some; congruence).
    assert (L : List.length (lCounts l) = List.length (map cutName cs)) by (rewrite map_length; exact R3).
    destruct (rows_nth _ _ _ _ _ _ L Er) as [A [B [C [D F]]]]. cbv zeta.
    assert (Q1 : rwCount row = zcount (fun e => is_cut_by i (classify cs e)) evs).
    { rewrite B, R5 by exact Hi. rewrite nth_repeat. rewrite Z.add_0_l. apply zcount_ext. intros e _. unfold is_cut_by. destruct (classify cs e); reflexivity. }
    assert (Q2 : rwRem row = zcount (fun e => left_after i (classify cs e)) evs).
    { rewrite C. clear -Hi R3 R5. revert Hi. induction i as [|i IH]; intros Hi.
      - rewrite zsum_S by lia. cbn [firstn zsum]. rewrite R5, nth_repeat by exact Hi. pose proof (zcount_split cs evs 0) as P.
        rewrite (zcount_ext (fun e => match classify cs e with Some k => Nat.eqb k 0 | None => false end) (fun e => is_cut_by 0 (classify cs e))) by (intros e _; unfold is_cut_by; destruct (classify cs e); reflexivity). cbv iota in P. lia.
      - specialize (IH ltac:(lia)). rewrite zsum_S by lia. rewrite R5, nth_repeat by exact Hi. pose proof (zcount_split cs evs (S i)) as P.
        rewrite (zcount_ext (fun e => match classify cs e with Some k => Nat.eqb k (S i) | None => false end) (fun e => is_cut_by (S i) (classify cs e)))
          by (intros e _; unfold is_cut_by; destruct (classify cs e); reflexivity). cbv iota in P. lia. }
    split. { rewrite nth_error_map, Ec in A. cbn in A. congruence. }
    split; [exact Q1|]. split; [exact Q2|]. rewrite D, F, Q1, Q2. unfold percent, qdiv. split.
    + intros Hv. destruct (qeqb (qz (Z.of_nat (List.length evs))) 0) eqn:Q; [|auto]. apply qeqb_eq in Q. exfalso. revert Q. apply qz_nz. destruct evs; [contradiction|cbn; lia].
    + intros ->. cbn. destruct (qeqb (qz 0) 0) eqn:Q; [auto|]. exfalso. assert (Z0 : qz 0 = 0) by (apply Qc_is_canon; reflexivity). rewrite Z0 in Q. vm_compute in Q. discriminate.
Qed.
