(** C46: packaged statements; C75: the auto-correlation estimate. *)
From Coq Require Import ZArith.
From Verif Require Import Base.Res Base.Num Base.SMap Model.Axis Model.Hist Model.HistTools Model.MCMC
  Spec.AxisSpec Spec.HistSpec Spec.HistToolsSpec Spec.MCMCSpec Proofs.AxisP Proofs.HistP Proofs.HistP4 Proofs.HistToolsP Proofs.HistToolsP2 Proofs.MCMCP Proofs.MCMCP2 Proofs.MCMCP3.
From Coq Require Import Lia.
Local Open Scope nat_scope.
Local Open Scope res_scope.

(** counting *)
Definition cnt (b t n : nat) : nat := match n with 0 => 0 | S m => m / t - b / t end.
Lemma div_S j t : t <> 0 -> S j / t = j / t + (if Nat.eqb (S j mod t) 0 then 1 else 0).
Proof.
  intros Ht. pose proof (Nat.div_mod (S j) t Ht) as A. pose proof (Nat.div_mod j t Ht) as B.
  pose proof (Nat.mod_upper_bound (S j) t Ht) as C. pose proof (Nat.mod_upper_bound j t Ht) as D.
  set (q := S j / t) in *. set (q' := j / t) in *. set (r := S j mod t) in *. set (r' := j mod t) in *. clearbody q q' r r'.
  destruct (Nat.eqb_spec r 0) as [->|Hr]; nia.
Qed.
Lemma cnt_S b t i : t <> 0 -> cnt b t (S i) = cnt b t i + (if kept b t i then 1 else 0).
Proof.
  intros Ht. unfold cnt, kept. destruct i as [|j].
  - rewrite Nat.div_0_l by exact Ht. cbn [Nat.ltb Nat.leb andb]. lia.
  - rewrite div_S by exact Ht. destruct (Nat.ltb_spec b (S j)) as [H|H]; cbn [andb].
    + assert (b / t <= j / t) by (apply Nat.div_le_mono; lia). destruct (Nat.eqb (S j mod t) 0); lia.
    + assert (S j / t <= b / t) by (apply Nat.div_le_mono; lia). rewrite div_S in H0 by exact Ht.
      destruct (Nat.eqb (S j mod t) 0); lia.
Qed.
Lemma recorded_count b t log : t <> 0 -> forall i, cnt b t i + List.length (recorded b t i log) = cnt b t (i + List.length log).
Proof.
  intros Ht. induction log as [|e log IH]; intros i; cbn [recorded]; [cbn [List.length]; rewrite !Nat.add_0_r; reflexivity|].
  cbn [List.length]. rewrite app_length. specialize (IH (S i)). rewrite cnt_S in IH by exact Ht.
  replace (i + S (List.length log)) with (S i + List.length log) by lia. destruct (kept b t i); cbn [List.length]; lia.
Qed.
Lemma recorded_length b t log : t <> 0 -> List.length (recorded b t 0 log) = (List.length log - 1) / t - b / t.
Proof.
  intros Ht. pose proof (recorded_count b t log Ht 0) as H. cbn [cnt Nat.add] in H. rewrite H. destruct log as [|e log]; cbn [List.length cnt].
  - rewrite Nat.div_0_l by exact Ht. reflexivity.
  - f_equal. f_equal. lia.
Qed.
(** which entries are recorded *)
Lemma recorded_in b t log : forall i e, In e (recorded b t i log) <->
  exists j, nth_error log j = Some e /\ b < i + j /\ (i + j) mod t = 0.
Proof.
  induction log as [|x log IH]; intros i e; cbn [recorded].
  - split; [intros []|]. intros [j [H _]]. destruct j; discriminate.
  - rewrite in_app_iff, IH. unfold kept. split.
    + intros [H|[j [H1 [H2 H3]]]].
      * destruct (Nat.ltb_spec b i) as [Hb|Hb]; cbn [andb] in H; [|destruct H]. destruct (Nat.eqb_spec (i mod t) 0) as [Hm|Hm]; [|destruct H].
        destruct H as [<-|[]]. exists 0. rewrite Nat.add_0_r. auto.
      * exists (S j). rewrite <- plus_n_Sm. auto.
    + intros [[|j] [H1 [H2 H3]]].
      * cbn [nth_error] in H1. injection H1 as ->. rewrite Nat.add_0_r in H2, H3. left.
        rewrite (proj2 (Nat.ltb_lt b i) H2), H3. now left.
      * right. exists j. cbn [nth_error] in H1. rewrite <- plus_n_Sm in H2, H3. auto.
Qed.

Lemma counts_pkg g mi ma n log s s' : fill_calls g mi ma n s log = Ok s' ->
  sTot s' = sTot s + List.length log /\ sAcc s' = sAcc s + n_accepted log /\
  (sTot s + List.length log <> 0 ->
     acceptanceRate s' = Ok (qn (sAcc s + n_accepted log) / qn (sTot s + List.length log))%Qc /\
     rejectionRate s' = Ok (1 - qn (sAcc s + n_accepted log) / qn (sTot s + List.length log))%Qc).
Proof.
  intros E. destruct (fill_calls_counts _ _ _ _ _ _ _ E) as [A [B _]]. split; [exact A|]. split; [exact B|]. intros H.
  assert (R : acceptanceRate s' = Ok (qn (sAcc s + n_accepted log) / qn (sTot s + List.length log))%Qc).
  { unfold acceptanceRate, qdiv. rewrite A, B. destruct (qeqb (qn (sTot s + List.length log)) 0) eqn:Ez; [|reflexivity].
    apply qeqb_eq in Ez. exfalso. revert Ez; apply qn_S_nz; lia. }
  split; [exact R|]. unfold rejectionRate. rewrite R. reflexivity.
Qed.

Lemma fresh_pkg g mi ma N s log s' b t : swf mi -> mi <> [] -> ac_reach (sAxes s) ->
  sInit s = false -> sTot s = 0 -> sBurn s = Z.of_nat b -> sThin s = Z.of_nat t -> t <> 0 -> log <> [] ->
  fill_calls g mi ma N s log = Ok s' ->
  let pts := map eP (recorded b t 0 log) in
  let k := (List.length log - 1) / t - b / t in
  List.length pts = k /\
  (forall p, In p pts <-> exists i e, nth_error log i = Some e /\ eP e = p /\ b < i /\ i mod t = 0) /\
  (sFull s = true -> exists axes, ac_reach axes /\ List.length (acAxes axes) = List.length mi /\
     (acAxes (sAxes s) <> [] -> axes = sAxes s) /\ (acAxes (sAxes s) = [] -> map aName (acAxes axes) = skeys mi) /\
     sHist s' = filled (mk_hist axes) pts /\ integral (sHist s') = Ok (qn k)) /\
  (sFull s = false ->
     (forall n, In n (skeys (s1D s')) <-> In n (skeys mi)) /\
     (forall n h, sfind n (s1D s') = Some h -> names_of h = [n] /\ integral h = Ok (qn k) /\
        exists h0, all_zero h0 /\ same_axes h h0 /\ h = filled h0 pts) /\
     (forall n h, sfind n (s2D s') = Some h -> integral h = Ok (qn k) /\
        exists h0 p, distinct_pair (skeys mi) p /\ n = (fst p ++ "_" ++ snd p)%string /\ names_of h = [fst p; snd p] /\
          all_zero h0 /\ same_axes h h0 /\ h = filled h0 pts) /\
     (forall a b, In a (skeys mi) -> In b (skeys mi) -> a <> b ->
        In (a ++ "_" ++ b)%string (skeys (s2D s')) \/ In (b ++ "_" ++ a)%string (skeys (s2D s')))).
Proof.
  intros Hw Hne Hr Hi HT Hb Ht H0 Hlog E pts k. unfold pts, k.
  destruct log as [|e0 log0]; [contradiction|]. unfold fill_calls in E. cbn [foldM] in E. rewrite (sFill_init _ _ _ _ _ _ _ _ Hi) in E.
  destruct (initHists g mi ma N s) as [s1| | | |] eqn:Ei; cbn [bind] in E; try discriminate.
  destruct (init_log _ _ _ _ _ _ Ei) as [_ [_ [I3 [I4 [I5 [I6 [_ [I8 I9]]]]]]]].
  set (log := e0 :: log0) in *. change (foldM (fun s e => sFill g mi ma N s (eP e) (eV e) (eA e)) log s1 = Ok s') in E.
  destruct (fill_calls_inited g mi ma N b t log H0 s1 s' I8 ltac:(congruence) ltac:(congruence) E) as [F1 [F2 _]].
  cbv zeta in F1, F2. rewrite I3, HT in F1, F2.
  assert (Hlen : List.length (map eP (recorded b t 0 log)) = (List.length log - 1) / t - b / t).
  { rewrite map_length. now apply recorded_length. }
  split; [exact Hlen|]. split.
  { intros p. rewrite in_map_iff. split.
    - intros [x [Ex Hx]]. apply recorded_in in Hx. destruct Hx as [j [J1 [J2 J3]]]. exists j, x. auto.
    - intros [i [x [X1 [X2 [X3 X4]]]]]. exists x. split; [exact X2|]. apply recorded_in. exists i. auto. }
  destruct (init_ok _ _ _ _ _ _ Hw Hne Hr Ei) as [axes [A1 [A2 [A3 [A4 [A5 A6]]]]]]. rewrite I6 in F1, F2. split.
  - intros Hf. destruct (F1 Hf) as [O _]. rewrite (A5 Hf) in O. exists axes. repeat (split; [assumption|]).
    assert (Hax : acAxes axes <> []). { intros C. rewrite C in A2. destruct mi; [contradiction|discriminate]. }
    destruct (okfilled_facts _ _ _ O (hr_new _ A1 Hax)) as [O1 [_ [_ O4]]]. split; [exact O1|].
    rewrite O4, Hlen. f_equal. assert (Z : total (mk_hist axes) = 0%Qc) by (apply all_zero_total; intros i; apply mk_hist_cont).
    rewrite Z. ring.
  - intros Hf. destruct (F2 Hf) as [_ [M1 M2]]. destruct (A6 Hf) as [W1 [W2 [K1 [G1 [G2 G3]]]]].
    rewrite (map_filled_keys _ _ _ M1), (map_filled_keys _ _ _ M2). split; [exact K1|]. split; [|split; [|exact G3]].
    + intros n h Eh. pose proof (map_filled_sfind _ _ _ M1 n) as Hs. destruct (sfind n (s1D s1)) as [h0|] eqn:Eh0; [|congruence].
      destruct Hs as [h' [Eh' O]]. assert (h' = h) by congruence. subst h'. destruct (G1 n h0 Eh0) as [R [Nm Z]].
      destruct (okfilled_facts _ _ _ O R) as [O1 [_ [O3 O4]]]. split; [|split].
      * unfold names_of. rewrite (proj1 O3). unfold axes_named in Nm. clear -Nm. inversion Nm as [|? ? ? ? [_ <-] F]; subst. inversion F. reflexivity.
      * rewrite O4, Hlen, (all_zero_total _ Z). f_equal. ring.
      * exists h0. auto.
    + intros n h Eh. pose proof (map_filled_sfind _ _ _ M2 n) as Hs. destruct (sfind n (s2D s1)) as [h0|] eqn:Eh0; [|congruence].
      destruct Hs as [h' [Eh' O]]. assert (h' = h) by congruence. subst h'. destruct (G2 n h0 Eh0) as [p [R [P1 [P2 [Nm Z]]]]].
      destruct (okfilled_facts _ _ _ O R) as [O1 [_ [O3 O4]]]. split.
      * rewrite O4, Hlen, (all_zero_total _ Z). f_equal. ring.
      * exists h0, p. repeat (split; [assumption|]). split; [|auto]. unfold names_of. rewrite (proj1 O3). unfold axes_named in Nm. clear -Nm.
        inversion Nm as [|? ? ? ? [_ <-] F]; subst. inversion F as [|? ? ? ? [_ <-] F2]; subst. inversion F2. reflexivity.
Qed.

Lemma zero_thin_pkg g mi ma N s p v a : sInit s = true -> sThin s = 0%Z -> (sBurn s < Z.of_nat (sTot s))%Z ->
  sFill g mi ma N s p v a = UB.
Proof.
  intros Hi Ht Hb. unfold sFill. rewrite Hi. cbn [bind]. unfold recordStep. rewrite (proj2 (Z.ltb_lt _ _) Hb), Ht. reflexivity.
Qed.

(** the auto-correlation estimate *)
Lemma lastn_length {A} n (l : list A) : List.length (lastn n l) = Nat.min n (List.length l).
Proof. unfold lastn. rewrite skipn_length. lia. Qed.
Lemma lastn_snoc {A} n (l : list A) v : n <> 0 ->
  (let l0 := lastn n l ++ [v] in if Nat.ltb n (List.length l0) then tl l0 else l0) = lastn n (l ++ [v]).
Proof.
  intros Hn. cbv zeta. rewrite app_length, lastn_length. cbn [List.length]. unfold lastn. rewrite app_length. cbn [List.length].
  destruct (Nat.le_gt_cases n (List.length l)) as [H|H].
  - rewrite (proj2 (Nat.ltb_lt n (Nat.min n (List.length l) + 1))) by lia.
    rewrite skipn_app. replace (List.length l + 1 - n - List.length l) with 0 by lia. cbn [skipn].
    replace (List.length l + 1 - n) with (S (List.length l - n)) by lia.
    assert (E : forall k, skipn (S k) l = tl (skipn k l)).
    { clear. intros k. revert l. induction k as [|k IH]; intros l; destruct l as [|x l]; try reflexivity. cbn [skipn]. destruct l; [destruct k; reflexivity|]. apply (IH (a :: l)). }
    rewrite E. destruct (skipn (List.length l - n) l) as [|x r] eqn:Er; [|reflexivity].
    exfalso. apply (f_equal (@List.length A)) in Er. rewrite skipn_length in Er. cbn [List.length] in Er. lia.
  - assert (E : Nat.ltb n (Nat.min n (List.length l) + 1) = false) by (apply Nat.ltb_ge; lia). rewrite E.
    replace (List.length l - n) with 0 by lia. replace (List.length l + 1 - n) with 0 by lia. reflexivity.
Qed.
Lemma fold_left_qsum l : forall a, fold_left Qcplus l a = (a + qsum l)%Qc.
Proof. induction l as [|x l IH]; intros a; cbn [fold_left qsum]; [ring|]. rewrite IH. ring. Qed.

Lemma corr_loop (R : list Qc) (nw mn : Qc) k : forall D M, k <= List.length R -> k <= List.length D -> k <= List.length M ->
  exists D' M', foldM (fun dn i => do older <- vidx R i; do d <- vidx (fst dn) i; do n <- vidx (snd dn) i;
      Ok (upd (fst dn) i (d + (nw - mn) * (older - mn))%Qc, upd (snd dn) i (n + (nw - mn) * (nw - mn))%Qc)) (seq 0 k) (D, M) = Ok (D', M') /\
    List.length D' = List.length D /\ List.length M' = List.length M /\
    (forall i, nth i D' 0%Qc = (nth i D 0 + (if Nat.ltb i k then (nw - mn) * (nth i R 0 - mn) else 0))%Qc) /\
    (forall i, nth i M' 0%Qc = (nth i M 0 + (if Nat.ltb i k then (nw - mn) * (nw - mn) else 0))%Qc).
Proof.
  induction k as [|k IH]; intros D M HR HD HM.
  - exists D, M. repeat split; intros i; cbn [Nat.ltb Nat.leb]; ring.
  - destruct (IH D M) as [D1 [M1 [E [L1 [L2 [N1 N2]]]]]]; [lia|lia|lia|]. rewrite seq_S, foldM_app'. cbn [Nat.add]. rewrite E. cbn [bind foldM fst snd].
    rewrite (vidx_nth R k 0%Qc), (vidx_nth D1 k 0%Qc), (vidx_nth M1 k 0%Qc) by lia. cbn [bind].
    do 2 eexists. split; [reflexivity|]. rewrite !upd_length. split; [exact L1|]. split; [exact L2|].
    assert (Hb : forall i, i <> k -> Nat.ltb i (S k) = Nat.ltb i k).
    { intros i Hi. destruct (Nat.ltb_spec i (S k)), (Nat.ltb_spec i k); try reflexivity; lia. }
    split; intros i; rewrite nth_upd by lia; destruct (Nat.eqb_spec i k) as [->|Hne].
    + rewrite N1, Nat.ltb_irrefl, (proj2 (Nat.ltb_lt k (S k))) by lia. ring.
    + rewrite N1, Hb by exact Hne. reflexivity.
    + rewrite N2, Nat.ltb_irrefl, (proj2 (Nat.ltb_lt k (S k))) by lia. ring.
    + rewrite N2, Hb by exact Hne. reflexivity.
Qed.

Lemma rev_lastn_nth n (vs : list Qc) i : i < n -> nth i (rev (lastn n vs)) 0%Qc = nth i (rev vs) 0%Qc.
Proof.
  intros Hi. unfold lastn. rewrite <- (firstn_skipn (List.length vs - n) vs) at 3. rewrite rev_app_distr.
  destruct (Nat.lt_ge_cases i (List.length (rev (skipn (List.length vs - n) vs)))) as [H|H].
  - rewrite app_nth1 by exact H. reflexivity.
  - rewrite nth_overflow by exact H. rewrite rev_length, skipn_length in H.
    rewrite nth_overflow; [reflexivity|]. rewrite app_length, !rev_length, skipn_length, firstn_length. lia.
Qed.
Lemma cFill_ok n c vs v : n <> 0 -> cQLen c = n -> cValues c = lastn n vs -> List.length (cDiffs c) = n -> List.length (cNorms c) = n ->
  let w := lastn n (vs ++ [v]) in let mu := mean_of w in
  exists c', cFill c v = Ok c' /\ cQLen c' = n /\ cValues c' = w /\ List.length (cDiffs c') = n /\ List.length (cNorms c') = n /\
    (forall i, nth i (cDiffs c') 0%Qc = (nth i (cDiffs c) 0 + (if Nat.ltb i (List.length w) then (v - mu) * (back (vs ++ [v]) i - mu) else 0))%Qc) /\
    (forall i, nth i (cNorms c') 0%Qc = (nth i (cNorms c) 0 + (if Nat.ltb i (List.length w) then (v - mu) * (v - mu) else 0))%Qc).
Proof.
  intros Hn Hq Hv Hd Hm w mu. unfold cFill. cbv zeta. rewrite Hq, Hv. pose proof (lastn_snoc n vs v Hn) as Hsn. cbv zeta in Hsn. rewrite Hsn. fold w.
  assert (Hl : List.length w = Nat.min n (S (List.length vs))).
  { unfold w. rewrite lastn_length, app_length. cbn [List.length]. f_equal. lia. }
  assert (Hmean : cMean w = Ok mu).
  { unfold cMean, qdiv. destruct (qeqb (qn (List.length w)) 0) eqn:E; [apply qeqb_eq in E; exfalso; revert E; apply qn_S_nz; lia|].
    rewrite fold_left_qsum. unfold mu, mean_of. f_equal. f_equal. ring. }
  rewrite Hmean. cbn [bind].
  assert (Hnw : exists r, rev w = v :: r).
  { assert (E0 : nth 0 (rev w) 0%Qc = v).
    { unfold w. rewrite rev_lastn_nth by lia. rewrite rev_app_distr. reflexivity. }
    destruct (rev w) as [|x r] eqn:Er; [apply (f_equal (@List.length Qc)) in Er; rewrite rev_length in Er; cbn [List.length] in Er; lia|].
    cbn [nth] in E0. subst x. eauto. }
  destruct Hnw as [r Er]. rewrite Er. rewrite <- Er.
  destruct (corr_loop (rev w) v mu (List.length w) (cDiffs c) (cNorms c)) as [D' [M' [E [L1 [L2 [N1 N2]]]]]].
  { rewrite rev_length. lia. } { lia. } { lia. }
  rewrite E. cbn [bind fst snd]. eexists. split; [reflexivity|]. cbn [cQLen cValues cDiffs cNorms].
  split; [reflexivity|]. split; [reflexivity|]. split; [lia|]. split; [lia|]. split; [|exact N2].
  intros i. rewrite N1. destruct (Nat.ltb_spec i (List.length w)) as [Hi|Hi]; [|reflexivity].
  unfold back, w. rewrite rev_lastn_nth by lia. reflexivity.
Qed.

Lemma terms_snoc (F : nat -> list Qc -> nat -> nat -> Qc) n vs v i :
  (forall k, k < List.length vs -> F n (vs ++ [v]) i k = F n vs i k) ->
  qsum (map (F n (vs ++ [v]) i) (seq 0 (List.length (vs ++ [v])))) = (qsum (map (F n vs i) (seq 0 (List.length vs))) + F n (vs ++ [v]) i (List.length vs))%Qc.
Proof.
  intros H. rewrite app_length. cbn [List.length]. rewrite Nat.add_1_r, seq_S, map_app, qsum_app. cbn [map qsum Nat.add].
  rewrite (qsum_map_ext (F n (vs ++ [v]) i) (F n vs i)); [ring|]. intros k Hk. apply in_seq in Hk. apply H. lia.
Qed.
Lemma autocorr_pkg n vs : n <> 0 -> exists c, foldM cFill vs (acalc0 n) = Ok c /\
  cValues c = lastn n vs /\ List.length (cDiffs c) = n /\ List.length (cNorms c) = n /\ cQLen c = n /\
  forall i, i < n -> nth i (cDiffs c) 0%Qc = qsum (map (lag_term n vs i) (seq 0 (List.length vs))) /\
                     nth i (cNorms c) 0%Qc = qsum (map (norm_term n vs i) (seq 0 (List.length vs))).
Proof.
  intros Hn. induction vs as [|v vs IH] using rev_ind.
  - exists (acalc0 n). cbn [foldM acalc0 cValues cDiffs cNorms cQLen]. rewrite !repeat_length. repeat (split; [reflexivity|]).
    intros i Hi. cbn [List.length seq map qsum]. rewrite !nth_repeat. auto.
  - destruct IH as [c [E [Hv [Hd [Hm [Hq Hs]]]]]]. rewrite foldM_app', E. cbn [bind foldM].
    destruct (cFill_ok n c vs v Hn Hq Hv Hd Hm) as [c' [E' [Q' [V' [D' [M' [ND NM]]]]]]]. rewrite E'. cbn [bind].
    exists c'. split; [reflexivity|]. split; [exact V'|]. split; [exact D'|]. split; [exact M'|]. split; [exact Q'|].
    assert (Hl : List.length (lastn n (vs ++ [v])) = Nat.min n (S (List.length vs))).
    { rewrite lastn_length, app_length. cbn [List.length]. f_equal. lia. }
    assert (Hf : firstn (S (List.length vs)) (vs ++ [v]) = vs ++ [v]).
    { apply firstn_all2. rewrite app_length. cbn [List.length]. lia. }
    assert (Hb0 : back (vs ++ [v]) 0 = v) by (unfold back; rewrite rev_app_distr; reflexivity).
    assert (Hpre : forall k, k < List.length vs -> firstn (S k) (vs ++ [v]) = firstn (S k) vs).
    { intros k Hk. rewrite firstn_app. replace (S k - List.length vs) with 0 by lia. cbn [firstn]. apply app_nil_r. }
    intros i Hi. destruct (Hs i Hi) as [S1 S2]. split.
    + rewrite ND, S1. rewrite (terms_snoc lag_term n vs v i).
      * f_equal. unfold lag_term. rewrite Hf, Hb0, Hl. reflexivity.
      * intros k Hk. unfold lag_term. rewrite (Hpre k Hk). reflexivity.
    + rewrite NM, S2. rewrite (terms_snoc norm_term n vs v i).
      * f_equal. unfold norm_term. rewrite Hf, Hb0, Hl. reflexivity.
      * intros k Hk. unfold norm_term. rewrite (Hpre k Hk). reflexivity.
Qed.
Lemma lag0_pkg n vs c : n <> 0 -> foldM cFill vs (acalc0 n) = Ok c -> nth 0 (cDiffs c) 0%Qc = nth 0 (cNorms c) 0%Qc /\
  forall l, cGet c = Ok l -> List.length l = n /\ nth 0 l 0%Qc = 1%Qc.
Proof.
  intros Hn E. destruct (autocorr_pkg n vs Hn) as [c' [E' [_ [Hd [Hm [_ Hs]]]]]]. rewrite E in E'. injection E' as <-.
  destruct (Hs 0) as [S1 S2]; [lia|].
  assert (H0 : nth 0 (cDiffs c) 0%Qc = nth 0 (cNorms c) 0%Qc).
  { rewrite S1, S2. apply qsum_map_ext. intros k _. reflexivity. }
  split; [exact H0|]. intros l El. unfold cGet in El. rewrite Hd in El. destruct n as [|n]; [contradiction|].
  assert (Hlen : forall (L : list nat) l', mapM (fun i => do d <- vidx (cDiffs c) i; do m <- vidx (cNorms c) i; qdiv d m) L = Ok l' -> List.length l' = List.length L).
  { clear. induction L as [|x L IH]; intros l'; unfold mapM; cbn [map seqM]; [intros E; injection E as <-; reflexivity|].
    match goal with |- bind ?x _ = _ -> _ => destruct x as [a| | | |]; cbn [bind]; try discriminate end.
    fold (mapM (fun i => do d <- vidx (cDiffs c) i; do m <- vidx (cNorms c) i; qdiv d m) L). destruct (mapM _ L) as [r| | | |]; cbn [bind]; try discriminate.
    intros E. injection E as <-. cbn [List.length]. f_equal. exact (IH r eq_refl). }
  split; [rewrite (Hlen _ _ El); apply seq_length|].
  cbn [seq] in El. unfold mapM in El. cbn [map seqM] in El. rewrite (vidx_nth (cDiffs c) 0 0%Qc), (vidx_nth (cNorms c) 0 0%Qc) in El by lia. cbn [bind] in El.
  rewrite H0 in El. unfold qdiv in El at 1. destruct (qeqb (nth 0 (cNorms c) 0%Qc) 0) eqn:Ez; cbn [bind] in El; [discriminate|].
  match type of El with bind ?x _ = _ => destruct x as [r| | | |]; cbn [bind] in El; try discriminate end. injection El as <-. cbn [nth].
  assert (nth 0 (cNorms c) 0%Qc <> 0%Qc) by (intros C; apply qeqb_eq in C; congruence). field. assumption.
Qed.

Lemma corr_get n vs c : n <> 0 -> foldM cFill vs (acalc0 n) = Ok c ->
  (forall i, i < n -> qsum (map (norm_term n vs i) (seq 0 (List.length vs))) <> 0%Qc) ->
  cGet c = Ok (map (fun i => (qsum (map (lag_term n vs i) (seq 0 (List.length vs))) / qsum (map (norm_term n vs i) (seq 0 (List.length vs))))%Qc) (seq 0 n)).
Proof.
  intros Hn E Hz. destruct (autocorr_pkg n vs Hn) as [c' [E' [_ [Hd [Hm [_ Hs]]]]]]. rewrite E in E'. injection E' as <-.
  unfold cGet. rewrite Hd. assert (H : forall L, (forall i, In i L -> i < n) ->
    mapM (fun i => do d <- vidx (cDiffs c) i; do m <- vidx (cNorms c) i; qdiv d m) L =
    Ok (map (fun i => (qsum (map (lag_term n vs i) (seq 0 (List.length vs))) / qsum (map (norm_term n vs i) (seq 0 (List.length vs))))%Qc) L)).
  { induction L as [|x L IH]; intros HL; [reflexivity|]. unfold mapM in *. cbn [map seqM]. assert (Hx : x < n) by (apply HL; now left).
    rewrite (vidx_nth (cDiffs c) x 0%Qc), (vidx_nth (cNorms c) x 0%Qc) by lia. cbn [bind]. destruct (Hs x Hx) as [-> ->].
    unfold qdiv at 1. destruct (qeqb (qsum (map (norm_term n vs x) (seq 0 (List.length vs)))) 0) eqn:Ez; [apply qeqb_eq in Ez; exfalso; exact (Hz x Hx Ez)|].
    cbn [bind]. rewrite IH by (intros i Hi; apply HL; now right). reflexivity. }
  apply H. intros i Hi. apply in_seq in Hi. lia.
Qed.
Lemma corr_pkg n vs : n <> 0 -> exists c, foldM cFill vs (acalc0 n) = Ok c /\
  ((forall i, i < n -> qsum (map (norm_term n vs i) (seq 0 (List.length vs))) <> 0%Qc) ->
     cGet c = Ok (map (fun i => (qsum (map (lag_term n vs i) (seq 0 (List.length vs))) / qsum (map (norm_term n vs i) (seq 0 (List.length vs))))%Qc) (seq 0 n))) /\
  (forall l, cGet c = Ok l -> List.length l = n /\ nth 0 l 0%Qc = 1%Qc).
Proof.
  intros Hn. destruct (autocorr_pkg n vs Hn) as [c [E _]]. exists c. split; [exact E|]. split.
  - exact (corr_get n vs c Hn E).
  - exact (proj2 (lag0_pkg n vs c Hn E)).
Qed.
