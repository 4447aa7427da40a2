From Coq Require Import ZArith Lia.
From Verif Require Import Base.Res Base.Num Base.SMap Model.Axis Model.Hist Model.HistTools Model.Shrink Model.MCMC Model.Chain
  Spec.MCMCSpec Spec.ChainSpec Proofs.AxisP Proofs.HistP Proofs.MCMCP Proofs.MCMCP3 Proofs.MCMCP4.
Local Open Scope Qc_scope.
Local Open Scope res_scope.

Lemma off_pkg usable g mi ma n c p v a : scOn c = false ->
  scFill usable g mi ma n c p v a = rmap (fun s => mkSc s false (scVals c) (scBranches c) (scRows c)) (sFill g mi ma n (scS c) p v a).
Proof.
  intros Ho. unfold scFill. destruct (sInit (scS c)) eqn:Ei; cbn [bind].
  - rewrite Ho. destruct (sFill g mi ma n (scS c) p v a); reflexivity.
  - rewrite (sFill_init _ _ _ _ _ _ _ _ Ei). destruct (initHists g mi ma n (scS c)) as [s1| | | |]; cbn [bind rmap]; try reflexivity.
    unfold scInit. rewrite Ho. cbn [bind scS scOn scVals scBranches scRows]. destruct (sFill g mi ma n s1 p v a); reflexivity.
Qed.

Lemma firstn_upd_S {A} (l : list A) k x : (k < List.length l)%nat -> firstn (S k) (upd l k x) = firstn k l ++ [x] /\ skipn (S k) (upd l k x) = skipn (S k) l.
Proof.
  revert k. induction l as [|y l IH]; intros [|k] H; cbn in H; try lia; [split; reflexivity|].
  destruct (IH k ltac:(lia)) as [A1 A2]. cbn [upd]. split; [cbn [firstn app] in *; f_equal; exact A1|exact A2].
Qed.
Lemma skip_skip {A} (l : list A) x y : skipn x (skipn y l) = skipn (x + y) l.
Proof.
  revert l. induction y as [|y IH]; intros l; [rewrite Nat.add_0_r; reflexivity|]. rewrite Nat.add_succ_r. destruct l as [|a l]; [destruct x; reflexivity|]. cbn [skipn]. apply IH.
Qed.
Lemma write_all : forall (p : smap Qc) vals k, (k + List.length p <= List.length vals)%nat ->
  foldM (fun (acc : list Qc * nat) kv => do l <- vwrite true (fst acc) (snd acc) (snd kv); Ok (l, S (snd acc))) p (vals, k)
  = Ok (firstn k vals ++ map snd p ++ skipn (k + List.length p) vals, (k + List.length p)%nat).
Proof.
  induction p as [|[n v] p IH]; intros vals k H; cbn [foldM map List.length] in *.
  - rewrite Nat.add_0_r. cbn [app]. rewrite firstn_skipn. reflexivity.
  - cbn [fst snd]. unfold vwrite at 1. cbn [andb]. destruct (Nat.ltb_spec k (List.length vals)); [|lia]. cbn [bind].
    rewrite IH by (rewrite upd_length; lia). destruct (firstn_upd_S vals k v ltac:(lia)) as [A1 A2]. rewrite A1.
    replace (k + S (List.length p))%nat with (S k + List.length p)%nat by lia. f_equal. f_equal. rewrite <- app_assoc. cbn [app]. f_equal. f_equal. f_equal.
    assert (G : forall (l l' : list Qc) i j, (i <= j)%nat -> skipn i l = skipn i l' -> skipn j l = skipn j l').
    { clear. intros l l' i j Hij E. replace j with ((j - i) + i)%nat by lia. rewrite <- !skip_skip. now rewrite E. }
    apply (G _ _ (S k)); [lia|exact A2].
Qed.

Lemma skeys_nth (p : smap Qc) k n : swf p -> nth_error (skeys p) k = Some n -> exists v, sfind n p = Some v /\ nth_error (map snd p) k = Some v.
Proof.
  intros W H. unfold skeys in H. rewrite nth_error_map in H. destruct (nth_error p k) as [[n' v]|] eqn:E; [|discriminate]. cbn in H. injection H as <-.
  exists v. split; [apply sfind_In; [exact W|]; apply nth_error_In in E; exact E|]. rewrite nth_error_map, E. reflexivity.
Qed.

(** one call, initialised *)
Lemma step_ok g mi ma n c e s' rows : sInit (scS c) = true -> scOn c = true -> scRows c = Some rows ->
  List.length (scBranches c) = List.length mi -> (List.length mi <= List.length (scVals c))%nat ->
  skeys (eP e) = skeys mi -> sFill g mi ma n (scS c) (eP e) (eV e) (eA e) = Ok s' ->
  exists c', scFill true g mi ma n c (eP e) (eV e) (eA e) = Ok c' /\ scS c' = s' /\ scOn c' = true /\
    scRows c' = Some (rows ++ [mkRw (eV e) (eA e) (sTot (scS c)) (map snd (eP e))]) /\ scBranches c' = scBranches c /\
    List.length (scVals c') = List.length (scVals c).
Proof.
  intros Hi Ho Hr Hb Hv Hk E. unfold scFill. rewrite Hi. cbn [bind]. rewrite E, Ho. cbn [bind].
  assert (L : List.length (eP e) = List.length mi) by (unfold skeys in Hk; rewrite <- (map_length fst (eP e)), Hk, map_length; reflexivity).
  rewrite write_all by lia. cbn [bind firstn app fst Nat.add]. rewrite Hr. eexists. split; [reflexivity|]. cbn [scS scOn scRows scBranches scVals].
  split; [reflexivity|]. split; [reflexivity|]. rewrite Hb, <- L, firstn_app, map_length, Nat.sub_diag. cbn [firstn]. rewrite app_nil_r.
  rewrite <- (map_length snd (eP e)) at 1. rewrite firstn_all. split; [reflexivity|]. split; [reflexivity|].
  rewrite app_length, map_length, skipn_length. lia.
Qed.
Lemma run_inited g mi ma n log : Forall (fun e => swf (eP e) /\ skeys (eP e) = skeys mi) log -> forall c rows s',
  sInit (scS c) = true -> scOn c = true -> scRows c = Some rows ->
  List.length (scBranches c) = List.length mi -> (List.length mi <= List.length (scVals c))%nat ->
  fill_calls g mi ma n (scS c) log = Ok s' ->
  exists c' new, chain_calls true g mi ma n c log = Ok c' /\ scS c' = s' /\ scRows c' = Some (rows ++ new) /\ scBranches c' = scBranches c /\
    tells (skeys mi) (sTot (scS c)) log new.
Proof.
  unfold fill_calls, chain_calls. induction 1 as [|e log [W Hk] Hl IH]; intros c rows s' Hi Ho Hr Hb Hv E; cbn [foldM] in *.
  - injection E as <-. exists c, []. split; [reflexivity|]. split; [reflexivity|]. split; [rewrite app_nil_r; exact Hr|]. split; [reflexivity|].
    split; [reflexivity|]. intros [|i] ? ? C; discriminate.
  - destruct (sFill g mi ma n (scS c) (eP e) (eV e) (eA e)) as [s1| | | |] eqn:E1; cbn [bind] in E; try discriminate.
    destruct (sFill_log _ _ _ _ _ _ _ _ _ E1) as [_ [T1 [_ [_ [_ [_ I1]]]]]].
    destruct (step_ok g mi ma n c e s1 rows Hi Ho Hr Hb Hv Hk E1) as [c1 [-> [S1 [O1 [R1 [B1 V1]]]]]]. cbn [bind].
    destruct (IH c1 _ s' ltac:(congruence) O1 R1 ltac:(congruence) ltac:(lia) ltac:(rewrite S1; exact E)) as [c' [new [F1 [F2 [F3 [F4 [F5 F6]]]]]]].
    exists c', (mkRw (eV e) (eA e) (sTot (scS c)) (map snd (eP e)) :: new). split; [exact F1|]. split; [exact F2|]. rewrite <- app_assoc in F3.
    split; [exact F3|]. split; [congruence|]. split; [cbn; lia|]. intros [|i] e' row He Hrow; cbn [nth_error] in He, Hrow.
    + injection He as <-. injection Hrow as <-. cbn [chLogL chAcc chStep chVals]. split; [reflexivity|]. split; [reflexivity|]. split; [lia|].
      split; [rewrite map_length, <- Hk; unfold skeys; rewrite map_length; reflexivity|]. intros k nm Hn. apply skeys_nth; [exact W|]. rewrite Hk. exact Hn.
    + destruct (F6 i e' row He Hrow) as [A1 [A2 [A3 A4]]]. split; [exact A1|]. split; [exact A2|]. split; [rewrite A3, S1, T1; lia|exact A4].
Qed.
Lemma chain_pkg g mi ma n c log s' : sInit (scS c) = false -> scOn c = true -> log <> [] ->
  Forall (fun e => swf (eP e) /\ skeys (eP e) = skeys mi) log -> fill_calls g mi ma n (scS c) log = Ok s' ->
  exists c' rows, chain_calls true g mi ma n c log = Ok c' /\ scS c' = s' /\ scRows c' = Some rows /\
    scBranches c' = map branch_name (skeys mi) /\ tells (skeys mi) (sTot (scS c)) log rows.
Proof.
  intros Hi Ho Hne Hl E. destruct log as [|e log]; [contradiction|].
  assert (S1 : exists s1, initHists g mi ma n (scS c) = Ok s1 /\ fill_calls g mi ma n s1 (e :: log) = Ok s').
  { unfold fill_calls in E |- *. cbn [foldM] in E |- *. rewrite (sFill_init _ _ _ _ _ _ _ _ Hi) in E.
    destruct (initHists g mi ma n (scS c)) as [s1| | | |]; cbn [bind] in E; try discriminate. exists s1. split; [reflexivity|exact E]. }
  destruct S1 as [s1 [E1 E2]]. destruct (init_log _ _ _ _ _ _ E1) as [_ [_ [T1 [_ [_ [_ [_ [I1 _]]]]]]]].
  set (c1 := mkSc s1 true (scVals c ++ repeat 0 (List.length mi - List.length (scVals c))) (map branch_name (skeys mi)) (Some [])).
  assert (K : chain_calls true g mi ma n c (e :: log) = chain_calls true g mi ma n c1 (e :: log)).
  { unfold chain_calls. cbn [foldM]. f_equal. unfold scFill. rewrite Hi, E1. cbn [bind]. unfold scInit. rewrite Ho. cbn [orb bind]. fold c1.
    replace (sInit (scS c1)) with true by (symmetry; exact I1). reflexivity. }
  destruct (run_inited g mi ma n (e :: log) Hl c1 [] s' I1 eq_refl eq_refl) as [c' [new [F1 [F2 [F3 [F4 F5]]]]]].
  - cbn. unfold skeys. now rewrite !map_length.
  - cbn [c1 scVals]. rewrite app_length, repeat_length. lia.
  - exact E2.
  - exists c', new. split; [rewrite K; exact F1|]. split; [exact F2|]. split; [exact F3|]. split; [exact F4|]. cbn [c1 scS] in F5. rewrite T1 in F5. exact F5.
Qed.

Lemma undefined_pkg g mi ma n c s1 p v a : scOn c = true -> sInit (scS c) = false -> mi <> [] -> initHists g mi ma n (scS c) = Ok s1 ->
  scFill false g mi ma n c p v a = UB.
Proof.
  intros Ho Hi Hne E. unfold scFill. rewrite Hi, E. cbn [bind]. unfold scInit. rewrite Ho. destruct mi; [contradiction|]. reflexivity.
Qed.
Lemma late_pkg usable g mi ma n c s' p v a : sInit (scS c) = true -> scOn c = true -> scRows c = None -> sFill g mi ma n (scS c) p v a = Ok s' ->
  scFill usable g mi ma n c p v a = UB.
Proof.
  intros Hi Ho Hr E. unfold scFill. rewrite Hi. cbn [bind]. rewrite E, Ho. cbn [bind].
  assert (G : forall p acc, (exists w, foldM (fun (acc : list Qc * nat) (kv : string * Qc) => do l <- vwrite usable (fst acc) (snd acc) (snd kv); Ok (l, S (snd acc))) p acc = Ok w) \/
    foldM (fun (acc : list Qc * nat) (kv : string * Qc) => do l <- vwrite usable (fst acc) (snd acc) (snd kv); Ok (l, S (snd acc))) p acc = UB).
  { clear. induction p as [|kv p IH]; intros acc; cbn [foldM]; [left; eexists; reflexivity|]. unfold vwrite at 1 3. destruct (usable && Nat.ltb (snd acc) (List.length (fst acc))); cbn [bind]; [|auto]. apply IH. }
  destruct (G p (scVals c, 0%nat)) as [[w ->]| ->]; cbn [bind]; [rewrite Hr; reflexivity|reflexivity].
Qed.
Lemma branch_plain n : (forall k, String.get k n <> Some (Ascii.ascii_of_nat 45)) -> branch_name n = n.
Proof.
  induction n as [|a n IH]; intros H; cbn [branch_name]; [reflexivity|]. destruct (Ascii.eqb_spec a (Ascii.ascii_of_nat 45)) as [->|Ha].
  - exfalso. apply (H 0%nat). reflexivity.
  - f_equal. apply IH. intros k. exact (H (S k)).
Qed.

(** AutoCorrelationCalc::Var on whole numbers *)
Lemma qzadd a b : qz (a + b) = qz a + qz b.
Proof. apply Qc_is_canon. rewrite this_add. unfold qz, Q2Qc; cbn [this]. rewrite !Qred_correct. rewrite inject_Z_plus. reflexivity. Qed.
Lemma qzmul a b : qz (a * b) = qz a * qz b.
Proof. apply Qc_is_canon. unfold Qcmult, qz, Q2Qc; cbn [this]. rewrite !Qred_correct. rewrite inject_Z_mult. reflexivity. Qed.
Lemma to_int_z z : to_int (qz z) = if Z.leb (-2147483648) z && Z.leb z 2147483647 then Ok z else UB.
Proof.
  unfold to_int. cut (this (qz z) = inject_Z z).
  - intros ->. cbn [inject_Z Qnum Qden]. rewrite Z.quot_1_r. reflexivity.
  - unfold qz, Q2Qc; cbn [this]. unfold Qred, inject_Z; cbn [Qnum Qden].
    pose proof (Z.ggcd_gcd z 1) as G. pose proof (Z.ggcd_correct_divisors z 1) as D. destruct (Z.ggcd z 1) as [g [aa bb]]. cbn [fst snd] in *.
    rewrite Z.gcd_1_r in G. subst g. destruct D as [D1 D2]. rewrite Z.mul_1_l in D1, D2. subst. reflexivity.
Qed.
Lemma squares_nonneg zs : (0 <= fold_right (fun z a => z * z + a) 0 zs)%Z.
Proof. induction zs as [|z zs IH]; cbn [fold_right]; [lia|]. pose proof (Z.square_nonneg z). lia. Qed.
Lemma inner_z zs : forall a, (0 <= a <= 2147483647)%Z ->
  foldM (fun acc v => to_int (qz acc + v * v)) (map qz zs) a =
  let s := (a + fold_right (fun z b => z * z + b) 0 zs)%Z in if Z.leb s 2147483647 then Ok s else UB.
Proof.
  induction zs as [|z zs IH]; intros a Ha; cbn [map foldM fold_right]; cbv zeta.
  - rewrite Z.add_0_r. destruct (Z.leb_spec a 2147483647); [reflexivity|lia].
  - rewrite <- qzmul, <- qzadd, to_int_z. pose proof (Z.square_nonneg z). pose proof (squares_nonneg zs).
    destruct (Z.leb_spec (-2147483648) (a + z * z)) as [_|]; [|lia]. cbn [andb]. destruct (Z.leb_spec (a + z * z) 2147483647) as [L|L]; cbn [bind].
    + rewrite IH by lia. cbv zeta. rewrite Z.add_assoc. reflexivity.
    + destruct (Z.leb_spec (a + (z * z + fold_right (fun z b => z * z + b) 0 zs))%Z 2147483647); [lia|reflexivity].
Qed.
Lemma qn_pos_nz (n : nat) : qn (S n) <> 0.
Proof.
  intros H. apply (f_equal this) in H. unfold qn, qz, Q2Qc in H; cbn [this] in H.
  assert (Hq : (inject_Z (Z.of_nat (S n)) == 0)%Q) by (rewrite <- (Qred_correct (inject_Z _)), H; reflexivity).
  unfold Qeq, inject_Z in Hq; cbn [Qnum Qden] in Hq. lia.
Qed.
Lemma whole_pkg c zs : cValues c = map qz zs -> zs <> [] ->
  let s := fold_right (fun z a => z * z + a)%Z 0%Z zs in
  let m := qsum (map qz zs) / qn (List.length zs) in
  ((s <= 2147483647)%Z -> cVar c = Ok (qz s - m * m)) /\ ((2147483647 < s)%Z -> cVar c = UB).
Proof.
  intros E Hne s m. unfold cVar. rewrite E. unfold cMean. rewrite map_length, fold_left_qsum.
  replace (qdiv (0 + qsum (map qz zs)) (qn (List.length zs))) with (Ok m).
  2:{ unfold qdiv. replace (qeqb (qn (List.length zs)) 0) with false; [f_equal; unfold m; f_equal; ring|]. symmetry. apply qeqb_neq.
      destruct zs as [|z zs]; [contradiction|]. exact (qn_pos_nz (List.length zs)). }
  cbn [bind]. rewrite inner_z by lia. cbv zeta. rewrite Z.add_0_l. fold s. split; intros H; destruct (Z.leb_spec s 2147483647); try lia; reflexivity.
Qed.
