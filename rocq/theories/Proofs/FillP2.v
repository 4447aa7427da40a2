From Coq Require Import ZArith.
From Verif Require Import Base.Res Base.Num Base.SMap Model.Axis Model.Event Model.Hist Model.Cut Model.ED Model.Shrink Model.Fill
  Spec.AxisSpec Spec.HistSpec Spec.CutSpec Spec.FillSpec Proofs.AxisP Proofs.HistP Proofs.CutP Proofs.FillP.
Local Open Scope Qc_scope.
Local Open Scope res_scope.

Lemma getDatum_alike a b n : alike a b -> getDatum a n = getDatum b n.
Proof.
  intros [A B]. destruct (getDatum a n) as [v| | | |] eqn:E.
  - apply getDatum_ok in E. symmetry. apply getDatum_value. now apply B.
  - unfold getDatum in *. rewrite <- A. destruct (evNames a) as [ns|] eqn:En; [|discriminate].
    destruct (index_of n ns) as [i|] eqn:Ei; [|exact (eq_sym E)]. unfold getDatumIdx in *. destruct (nth_error (evObs b) i) as [v|] eqn:Ev.
    + exfalso. assert (G : getDatum b n = Ok v) by (unfold getDatum, getDatumIdx; rewrite <- A, Ei, Ev; reflexivity).
      apply getDatum_ok, B, getDatum_value in G. unfold getDatum, getDatumIdx in G. rewrite En, Ei in G. congruence.
    + destruct (nth_error (evObs a) i); congruence.
  - unfold getDatum in *. rewrite <- A. destruct (evNames a) as [ns|]; [|reflexivity]. destruct (index_of n ns); [|discriminate].
    unfold getDatumIdx in E. destruct (nth_error (evObs a) n0); discriminate.
  - unfold getDatum, getDatumIdx in E. destruct (evNames a) as [ns|]; [|discriminate]. destruct (index_of n ns) as [i|]; [|discriminate]. destruct (nth_error (evObs a) i); discriminate.
  - unfold getDatum, getDatumIdx in E. destruct (evNames a) as [ns|]; [|discriminate]. destruct (index_of n ns) as [i|]; [|discriminate]. destruct (nth_error (evObs a) i); discriminate.
Qed.
Lemma passesCut_alike a b c : alike a b -> passesCut c a = passesCut c b.
Proof. intros A. destruct c; cbn [passesCut]; rewrite (getDatum_alike a b _ A); reflexivity. Qed.
Lemma passesCuts_alike a b cs : alike a b -> passesCuts cs a = passesCuts cs b.
Proof. intros A. induction cs as [|c cs IH]; cbn [passesCuts]; [reflexivity|]. rewrite (passesCut_alike a b c A), IH. reflexivity. Qed.
Lemma passesLog_alike a b cs : alike a b -> forall i l, passesCutsLogFrom cs i a l = passesCutsLogFrom cs i b l.
Proof. intros A. induction cs as [|c cs IH]; intros i l; cbn [passesCutsLogFrom]; [reflexivity|]. rewrite (passesCut_alike a b c A). destruct (passesCut c b) as [[]| | | |]; auto. Qed.
Lemma toObs_alike a b o : alike a b -> toObsSet a o = toObsSet b o.
Proof. intros A. unfold toObsSet, mapM. f_equal. apply map_ext. intros n. apply getDatum_alike. exact A. Qed.

Definition keeps (cs : list cut) (e : event) : bool := match classify cs e with None => true | Some _ => false end.
Lemma keeps_spec cs e : Forall cut_built cs -> cuttable cs e -> (keeps cs e = true <-> passes_all cs e) /\ passesCuts cs e = Ok (keeps cs e).
Proof.
  intros H Hc. pose proof (classify_spec cs e H Hc) as C. destruct (passesCuts_pkg cs e H) as [P1 P2]. unfold keeps. destruct (classify cs e) as [i|].
  - assert (F : passesCuts cs e = Ok false) by (apply P2; eauto). split; [|exact F]. split; [discriminate|]. intros Hp. apply P1 in Hp. congruence.
  - split; [tauto|]. apply P1. exact C.
Qed.
Lemma log_keeps cs e l : Forall cut_built cs -> cuttable cs e -> List.length (lCounts l) = List.length cs ->
  snd (passesCutsLog cs e l) = Ok (keeps cs e) /\ List.length (lCounts (fst (passesCutsLog cs e l))) = List.length cs.
Proof.
  intros H Hc Hl. unfold passesCutsLog. rewrite (passesLog_from cs e H Hc 0 l) by (rewrite Hl; cbn; lia).
  unfold keeps. destruct (classify cs e) as [i|]; cbn; [|auto]. split; [reflexivity|]. rewrite upd_length. exact Hl.
Qed.

Lemma fillEvent_ok b e a vals : alike e a -> h_ok (bdHist b) -> List.length (osNames (bdObs b)) = hNDims (bdHist b) ->
  values (osNames (bdObs b)) a vals ->
  bed_fillEvent b e 1 = (bed_setHist b (fst (fill (bdHist b) vals 1)), Ok tt).
Proof.
  intros A Hok Hd Hv. unfold bed_fillEvent. rewrite (toObs_alike e a _ A).
  assert (E : toObsSet a (bdObs b) = Ok vals).
  { destruct (toObsSet_pkg a (osNames (bdObs b))) as [T _]. unfold toObsSet in *. cbn [osNames mk_obsset] in T. apply T. exact Hv. }
  rewrite E. unfold bed_on. assert (Hlen : List.length vals = hNDims (bdHist b)).
  { rewrite <- Hd. clear -Hv. induction Hv; cbn; congruence. }
  destruct (fill_ok (bdHist b) vals 1 Hok Hlen) as [k [_ [Hk Ef]]]. destruct (add_at_ok (bdHist b) k 1 Hok Hk) as [h1 [E1 _]].
  rewrite Ef, E1. reflexivity.
Qed.

Definition fstep (cs : list cut) (ss : list evsys) (b : bed) (e0 : event) : bed * res unit :=
  obind b (esm_apply ss e0) (fun e => obind b (passesCuts cs e) (fun pass => if pass then bed_fillEvent b e 1 else (b, Ok tt))).
Definition lstep (cs : list cut) (ss : list evsys) (st : bed * cutlog) (e0 : event) : (bed * cutlog) * res unit :=
  obind st (esm_apply ss e0) (fun e =>
   match passesCutsLog cs e (snd st) with
   | (l, r) => obind (fst st, l) r (fun pass => if pass then match bed_fillEvent (fst st) e 1 with (b', r') => ((b', l), r') end else ((fst st, l), Ok tt))
   end).
Lemma iterS_entries {T} (F : event -> res event) (G : T -> event -> T * res unit) (data : list event) k : forall i s, (i + k <= List.length data)%nat ->
  iterS (fun s i => obind s (do e0 <- get_entry data i; F e0) (G s)) (seq i k) s = iterS (fun s e0 => obind s (F e0) (G s)) (firstn k (skipn i data)) s.
Proof.
  induction k as [|k IH]; intros i s Hi; cbn [seq iterS]; [reflexivity|].
  destruct (nth_error data i) as [e|] eqn:E; [|apply nth_error_None in E; lia].
  assert (Es : skipn i data = e :: skipn (S i) data).
  { clear -E. revert i E. induction data as [|x data IH]; intros [|i] E; cbn in E; try discriminate; [injection E as ->; reflexivity|].
    cbn [skipn]. rewrite (IH i E). reflexivity. }
  rewrite Es. cbn [firstn iterS]. unfold get_entry. rewrite E. cbn [bind]. destruct (obind s (F e) (G s)) as [s' []]; try reflexivity.
  apply IH. lia.
Qed.
Lemma iterS_past {T} (F : event -> res event) (G : T -> event -> T * res unit) (data : list event) k s i : (List.length data <= i)%nat -> (0 < k)%nat ->
  iterS (fun s i => obind s (do e0 <- get_entry data i; F e0) (G s)) (seq i k) s = (s, Throw NotFoundError).
Proof.
  intros Hi Hk. destruct k as [|k]; [lia|]. cbn [seq iterS]. unfold get_entry at 1. rewrite (proj2 (nth_error_None data i) Hi). reflexivity.
Qed.

Lemma steps_ok cs ss l evs : Forall2 (in_order ss) l evs -> Forall cut_built cs -> forall b log, h_ok (bdHist b) ->
  List.length (osNames (bdObs b)) = hNDims (bdHist b) -> List.length (lCounts log) = List.length cs ->
  (forall e, In e evs -> cuttable cs e /\ (passes_all cs e -> exists vals, values (osNames (bdObs b)) e vals)) ->
  exists vals, Forall2 (values (osNames (bdObs b))) (filter (keeps cs) evs) vals /\
    let b' := bed_setHist b (fills (bdHist b) (map (fun v => (v, 1)) vals)) in
    iterS (fstep cs ss) l b = (b', Ok tt) /\
    iterS (lstep cs ss) l (b, log) = ((b', fst (run_cuts cs evs log)), Ok tt).
Proof.
  intros F2 Hc. induction F2 as [|e0 e l evs Hio F2 IH]; intros b log Hok Hd Hl Hev.
  - exists []. split; [constructor|]. destruct b; split; reflexivity.
  - destruct (in_order_apply ss e0 e0 e (alike_refl e0) Hio) as [e2 [Ea Al]].
    destruct (Hev e (or_introl eq_refl)) as [Hcut Hval]. destruct (keeps_spec cs e Hc Hcut) as [K1 K2].
    destruct (log_keeps cs e log Hc Hcut Hl) as [L1 L2].
    assert (Efl : lstep cs ss (b, log) e0 = ((fst (fstep cs ss b e0), fst (passesCutsLog cs e log)), snd (fstep cs ss b e0))).
    { unfold lstep, fstep. rewrite Ea. cbn [obind fst snd]. rewrite (passesCuts_alike _ _ cs Al), K2. cbn [obind].
      assert (Elog : passesCutsLog cs e2 log = passesCutsLog cs e log) by (apply passesLog_alike; exact Al).
      rewrite Elog. destruct (passesCutsLog cs e log) as [lg r]. cbn in L1 |- *. subst r. cbn [obind].
      destruct (keeps cs e); [|reflexivity]. destruct (bed_fillEvent b e2 1); reflexivity. }
    assert (Ef : fstep cs ss b e0 = if keeps cs e then bed_fillEvent b e2 1 else (b, Ok tt)).
    { unfold fstep. rewrite Ea. cbn [obind]. rewrite (passesCuts_alike _ _ cs Al), K2. reflexivity. }
    cbn [iterS filter run_cuts]. rewrite Efl. destruct (keeps cs e) eqn:K.
    + destruct (Hval (proj1 K1 eq_refl)) as [v Hv]. rewrite (fillEvent_ok b e2 e v Al Hok Hd Hv) in Ef. rewrite Ef. cbn [fst snd].
      pose proof (fill_shape (bdHist b) v 1) as Sh.
      set (b1 := bed_setHist b (fst (fill (bdHist b) v 1))) in *.
      destruct (IH b1 (fst (passesCutsLog cs e log))) as [vals [G1 [G2 G3]]].
      * eapply same_shape_ok; eassumption.
      * destruct Sh as [_ [_ [Sh _]]]. unfold b1. cbn [bed_setHist bdHist bdObs]. rewrite Sh. exact Hd.
      * exact L2.
      * intros e' He'. apply Hev. now right.
      * exists (v :: vals). split; [constructor; [exact Hv|exact G1]|]. cbn [map fills]. split; [exact G2|].
        rewrite G3. destruct (passesCutsLog cs e log) as [lg r]. cbn [fst]. destruct (run_cuts cs evs lg). reflexivity.
    + rewrite Ef. cbn [fst snd]. destruct (IH b (fst (passesCutsLog cs e log)) Hok Hd L2) as [vals [G1 [G2 G3]]]; [intros e' He'; apply Hev; now right|].
      exists vals. split; [exact G1|]. split; [exact G2|]. rewrite G3. destruct (passesCutsLog cs e log) as [lg r]. cbn [fst]. destruct (run_cuts cs evs lg). reflexivity.
Qed.

Lemma s32_small n : (Z.of_nat n < 2 ^ 31)%Z -> s32 (Z.of_nat n) = Z.of_nat n.
Proof. intros H. unfold s32. rewrite Z.mod_small by lia. lia. Qed.
Lemma qsum_ones {A} (l : list A) : qsum (map snd (map (fun v : A => (v, 1)) l)) = qn (List.length l).
Proof.
  induction l as [|x l IH]; cbn [map qsum snd List.length]; [reflexivity|]. rewrite IH. unfold qn. rewrite Nat2Z.inj_succ. unfold Z.succ, qz.
  rewrite Z.add_comm. apply Qc_is_canon. rewrite this_add, !this_Q2Qc. rewrite inject_Z_plus. reflexivity.
Qed.
Lemma fill_pkg b data cs ss nEv evs : h_reach (bdHist b) -> List.length (osNames (bdObs b)) = hNDims (bdHist b) -> Forall cut_built cs ->
  (Z.of_nat (List.length data) < 2 ^ 31)%Z -> (nEv <= Z.of_nat (List.length data))%Z ->
  Forall2 (in_order ss) (if Z.ltb nEv 0 then data else firstn (Z.to_nat nEv) data) evs ->
  (forall e, In e evs -> cuttable cs e /\ (passes_all cs e -> exists vals, values (osNames (bdObs b)) e vals)) ->
  exists keep vals b', (forall e, In e evs -> (keep e = true <-> passes_all cs e)) /\
    Forall2 (values (osNames (bdObs b))) (filter keep evs) vals /\
    bdName b' = bdName b /\ bdObs b' = bdObs b /\ bdHist b' = fills (bdHist b) (map (fun v => (v, 1)) vals) /\
    total (bdHist b') = total (bdHist b) + qn (List.length (filter keep evs)) /\
    fill_dist b data cs ss nEv = (b', Ok tt) /\
    fill_distLog b data cs (mk_log (map cutName cs)) ss nEv = ((b', fst (run_cuts cs evs (mk_log (map cutName cs)))), Ok tt).
Proof.
  intros R Hd Hc Hsm Hn F2 Hev. apply h_reach_ok in R.
  destruct (steps_ok cs ss _ evs F2 Hc b (mk_log (map cutName cs)) R Hd) as [vals [G1 [G2 G3]]].
  { cbn. rewrite repeat_length, map_length. reflexivity. }
  { exact Hev. }
  assert (Hle : (n_events data nEv <= List.length data)%nat /\ firstn (n_events data nEv) data = (if Z.ltb nEv 0 then data else firstn (Z.to_nat nEv) data)).
  { unfold n_events. destruct (Z.ltb_spec nEv 0).
    - rewrite s32_small by exact Hsm. rewrite Nat2Z.id. split; [lia|apply firstn_all].
    - split; [lia|reflexivity]. }
  destruct Hle as [Hle Efn].
  exists (keeps cs), vals, (bed_setHist b (fills (bdHist b) (map (fun v => (v, 1)) vals))).
  split; [intros e He; destruct (Hev e He) as [Hcut _]; apply (keeps_spec cs e Hc Hcut)|].
  split; [exact G1|]. split; [reflexivity|]. split; [reflexivity|]. split; [reflexivity|].
  assert (Hlv : forall e, In e (map (fun v : list Qc => (v, 1)) vals) -> List.length (fst e) = hNDims (bdHist b)).
  { intros [v w] Hin. apply in_map_iff in Hin as [v' [E Hv]]. injection E as -> <-. cbn. rewrite <- Hd.
    clear -G1 Hv. induction G1 as [|? ? ? ? Hh _ IH]; [destruct Hv|]. destruct Hv as [->|Hv]; [|auto]. clear -Hh. induction Hh; cbn; congruence. }
  split.
  { cbn [bed_setHist bdHist]. destruct (fills_ok _ (bdHist b) R Hlv) as [_ [_ ->]]. f_equal. rewrite qsum_ones. f_equal.
    clear -G1. induction G1; cbn; congruence. }
  split.
  - unfold fill_dist.
    rewrite (iterS_entries (esm_apply ss) (fun b e => obind b (passesCuts cs e) (fun pass => if pass then bed_fillEvent b e 1 else (b, Ok tt))) data (n_events data nEv) 0 b) by lia.
    cbn [skipn]. rewrite Efn. exact G2.
  - unfold fill_distLog.
    rewrite (iterS_entries (esm_apply ss) (fun st e => match passesCutsLog cs e (snd st) with (l, r) => obind (fst st, l) r (fun pass => if pass then match bed_fillEvent (fst st) e 1 with (b', r') => ((b', l), r') end else ((fst st, l), Ok tt)) end)
      data (n_events data nEv) 0 (b, mk_log (map cutName cs))) by lia.
    cbn [skipn]. rewrite Efn. exact G3.
Qed.
Lemma fill_toomany_pkg b data cs ss nEv : (Z.of_nat (List.length data) < nEv < 2 ^ 31)%Z ->
  snd (fill_dist b data cs ss (-1)) = Ok tt ->
  fill_dist b data cs ss nEv = (fst (fill_dist b data cs ss (-1)), Throw NotFoundError).
Proof.
  intros Hn Hok. unfold fill_dist in *.
  assert (E1 : n_events data (-1) = List.length data) by (unfold n_events; cbn [Z.ltb Z.compare]; rewrite s32_small by lia; apply Nat2Z.id).
  assert (E2 : n_events data nEv = (List.length data + (n_events data nEv - List.length data))%nat).
  { unfold n_events. destruct (Z.ltb_spec nEv 0); lia. }
  rewrite E1 in *. rewrite E2. rewrite seq_app.
  set (f := fun b i => _) in *.
  assert (App : forall l1 l2 s, snd (iterS f l1 s) = Ok tt -> iterS f (l1 ++ l2) s = iterS f l2 (fst (iterS f l1 s))).
  { induction l1 as [|x l1 IH]; intros l2 s H; cbn [app iterS] in *; [reflexivity|].
    destruct (f s x) as [s' [[]| | | |]]; cbn [snd] in H; try discriminate. apply IH. exact H. }
  rewrite App by exact Hok. cbn [Nat.add].
  apply (iterS_past (esm_apply ss) (fun b e => obind b (passesCuts cs e) (fun pass => if pass then bed_fillEvent b e 1 else (b, Ok tt))) data); [lia|].
  unfold n_events. destruct (Z.ltb_spec nEv 0); lia.
Qed.
