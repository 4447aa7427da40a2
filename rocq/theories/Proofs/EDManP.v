From Verif Require Import Base.Res Base.Num Base.SMap Model.Axis Model.Event Model.Hist Model.ED Model.Param Model.EDMan
  Spec.AxisSpec Spec.HistSpec Spec.ParamSpec Spec.EDManSpec Proofs.AxisP Proofs.HistP Proofs.HistP2 Proofs.ParamP.
Local Open Scope Qc_scope.
Local Open Scope res_scope.

Definition cont_of (s : edman) : nat := if emAllDir s then c_norms else c_fit.
Definition pairs (s : edman) : list (bed * nfs) := combine (emOrig s) (emStat s).

Definition em_inv (s : edman) : Prop :=
  List.length (emStat s) = List.length (emOrig s) /\
  List.length (emNorms s) = List.length (emOrig s) /\
  List.length (emFit s) = List.length (fitted (pairs s)) /\
  emAllDir s = forallb is_direct (emStat s) /\
  emWork s = emOrig s /\
  pm_ok (emPm s) /\
  (forall n l, sfind n (pmPtrs (emPm s)) = Some l -> exists i, nth_error (fitted (pairs s)) i = Some n /\ l = LElem (cont_of s) i) /\
  (forall n, In n (fitted (pairs s)) -> In n (pm_names (emPm s))) /\
  (NoDup (fitted (pairs s)) -> forall i n, nth_error (fitted (pairs s)) i = Some n -> sfind n (pmPtrs (emPm s)) = Some (LElem (cont_of s) i)).

Lemma fitted_app a b : fitted (a ++ b) = fitted a ++ fitted b.
Proof. unfold fitted. rewrite filter_app, map_app. reflexivity. Qed.

Lemma concat_fitted (l : list (bed * nfs)) :
  List.concat (map (fun p => if fittable (snd p) then [bdName (fst p)] else []) l) = fitted l.
Proof. unfold fitted. induction l as [|[b st] l IH]; cbn; [reflexivity|]. destruct (fittable st); cbn; rewrite IH; reflexivity. Qed.
Lemma fitted_alldir (os : list bed) : forall sts, List.length sts = List.length os -> forallb is_direct sts = true ->
  fitted (combine os sts) = map bdName os.
Proof.
  unfold fitted. induction os as [|o os IH]; intros [|st sts] Hl Hd; cbn in *; try discriminate; auto.
  apply andb_prop in Hd as [D1 D2]. destruct st; try discriminate. cbn. f_equal. apply IH; auto.
Qed.
Lemma regNames_ok s : List.length (emStat s) = List.length (emOrig s) -> emAllDir s = forallb is_direct (emStat s) ->
  em_regNames s = Ok (fitted (pairs s)).
Proof.
  intros Hl Hd. unfold em_regNames. destruct (emAllDir s) eqn:E.
  - unfold pairs. rewrite fitted_alldir; auto.
  - unfold pairs. assert (Hlen : List.length (emOrig s) = List.length (pairs s)) by (unfold pairs; rewrite combine_length; lia).
    rewrite (seqM_ok _ (fun i => (fun p : bed * nfs => if fittable (snd p) then [bdName (fst p)] else []) (nth i (pairs s) (bed0, NFalse)))).
    + unfold rmap. cbn [bind]. rewrite <- concat_fitted. f_equal. f_equal. rewrite Hlen.
      fold (pairs s). apply (nth_ext _ _ [] []); [now rewrite !map_length, seq_length|].
      rewrite map_length, seq_length. intros i Hi.
      rewrite (nth_map2 _ _ _ 0%nat) by (rewrite seq_length; exact Hi). rewrite seq_nth by exact Hi.
      rewrite (nth_map2 (fun p : bed * nfs => if fittable (snd p) then [bdName (fst p)] else []) _ _ (bed0, NFalse)) by exact Hi. reflexivity.
    + intros i Hi. apply in_seq in Hi. rewrite (vat_nth _ _ bed0) by lia. cbn [bind].
      rewrite (vat_nth _ _ NFalse) by lia. cbn [bind]. unfold pairs. rewrite combine_nth by lia. reflexivity.
Qed.

Lemma register_ok s : List.length (emStat s) = List.length (emOrig s) -> List.length (emNorms s) = List.length (emOrig s) ->
  List.length (emFit s) = List.length (fitted (pairs s)) -> emAllDir s = forallb is_direct (emStat s) -> emWork s = emOrig s ->
  exists s', em_register s = (s', Ok tt) /\ em_inv s' /\ emOrig s' = emOrig s /\ emStat s' = emStat s /\
    emAllDir s' = emAllDir s /\ pmMem (emPm s') = pmMem (emPm s).
Proof.
  intros H1 H2 H3 H4 H5. unfold em_register. rewrite regNames_ok by assumption. cbn [obind].
  set (p := pm_clear (emPm s)).
  assert (Hc : List.length (mCnt (pmMem p) (if emAllDir s then c_norms else c_fit)) = List.length (fitted (pairs s))).
  { cbn [p pm_clear pmMem]. destruct (emAllDir s) eqn:Ed; [|exact H3]. fold (emNorms s). rewrite H2.
    unfold pairs. rewrite fitted_alldir by (rewrite <- ?H4; auto). now rewrite map_length. }
  unfold pm_addContainer. cbn [em_withPm emPm]. fold p. rewrite Hc, Nat.eqb_refl.
  assert (Hp : pm_ok p) by (split; [constructor|intros n l B; discriminate]).
  destruct (pm_addAll_gen (if emAllDir s then c_norms else c_fit) (fitted (pairs s)) 0 p Hp) as [A [B [C D]]]; [lia|].
  fold (pm_addAll p (if emAllDir s then c_norms else c_fit) (fitted (pairs s))) in A, B, C, D.
  set (p' := pm_addAll p (if emAllDir s then c_norms else c_fit) (fitted (pairs s))) in *.
  eexists. split; [reflexivity|]. split; [|repeat split; cbn; auto].
  unfold em_inv, cont_of, emNorms, emFit, pairs. cbn [em_withPm emStat emOrig emAllDir emWork emPm].
  rewrite B. cbn [p pm_clear pmMem].
  split; [exact H1|]. split; [exact H2|]. split; [exact H3|]. split; [exact H4|]. split; [exact H5|]. split; [exact A|].
  set (cc := if emAllDir s then c_norms else c_fit) in *.
  assert (G : forall names k (q : pmgr) n l, sfind n (pmPtrs (fold_left (fun p ni => pm_add p (LElem cc (snd ni)) (fst ni)) (combine names (seq k (List.length names))) q)) = Some l ->
     (exists i, nth_error names i = Some n /\ l = LElem cc (k + i)) \/ sfind n (pmPtrs q) = Some l).
  { clear. induction names as [|x names IH]; intros k q n l H; cbn [List.length seq combine fold_left fst snd] in H; [now right|].
    apply IH in H as [[i [E ->]]|H].
    - left. exists (S i). split; [exact E|]. f_equal. lia.
    - cbn in H. rewrite sfind_sset in H. destruct (String.eqb_spec n x) as [->|]; [|now right].
      injection H as <-. left. exists 0%nat. split; [reflexivity|]. f_equal. lia. }
  split; [|split].
  - intros n l Hf. unfold p', pm_addAll in Hf. apply G in Hf as [[i [E ->]]|Hf]; [exists i; split; [exact E|f_equal; lia]|discriminate].
  - assert (G2 : forall names k (q : pmgr) n, In n names \/ In n (pm_names q) -> In n (pm_names (fold_left (fun p ni => pm_add p (LElem cc (snd ni)) (fst ni)) (combine names (seq k (List.length names))) q))).
    { clear. induction names as [|x names IH]; intros k q n H; cbn [List.length seq combine fold_left fst snd]; [destruct H as [[]|H]; exact H|].
      apply IH. destruct H as [[->|H]|H]; [right| now left|right].
      - unfold pm_names, pm_add; cbn [pmPtrs]. apply sfind_in. rewrite sfind_sset_eq. eauto.
      - unfold pm_names, pm_add in *; cbn [pmPtrs]. apply sfind_in. apply sfind_in in H as [l Hl]. rewrite sfind_sset.
        destruct (String.eqb n x); eauto. }
    intros n Hn. unfold p', pm_addAll. apply G2. now left.
  - intros Hnd i n Hi. apply (D Hnd i n Hi).
Qed.

Lemma pairs_snoc s s' b st : List.length (emStat s) = List.length (emOrig s) ->
  emOrig s' = emOrig s ++ [b] -> emStat s' = emStat s ++ [st] -> pairs s' = pairs s ++ [(b, st)].
Proof.
  intros Hl E1 E2. unfold pairs. rewrite E1, E2. clear E1 E2. revert Hl. generalize (emStat s). generalize (emOrig s).
  induction l as [|o l IH]; intros [|x l0] Hl; cbn in *; try discriminate; auto. f_equal. apply IH. lia.
Qed.
Lemma vresize_grow l n : (List.length l <= n)%nat -> vresize l n = l ++ repeat 0 (n - List.length l).
Proof. intros H. unfold vresize. rewrite firstn_all2 by exact H. reflexivity. Qed.

Lemma addPdf_ok s b st : em_inv s ->
  exists s', em_addPdf s b st = (s', Ok tt) /\ em_inv s' /\ pairs s' = pairs s ++ [(b, st)] /\
    emNorms s' = emNorms s ++ [0] /\ emFit s' = (if fittable st then emFit s ++ [0] else emFit s) /\
    emAllDir s' = (if is_direct st then emAllDir s else false).
Proof.
  intros [H1 [H2 [H3 [H4 [H5 [H6 [H7 [H8 H9]]]]]]]]. unfold em_addPdf. cbv zeta.
  assert (EN : vresize (emNorms s) (List.length (emOrig s ++ [b])) = emNorms s ++ [0]).
  { rewrite vresize_grow by (rewrite app_length; lia). f_equal. rewrite app_length, H2. cbn.
    replace (List.length (emOrig s) + 1 - List.length (emOrig s))%nat with 1%nat by lia. reflexivity. }
  rewrite EN.
  set (s1 := mkEm _ _ _ _ _).
  assert (F1 : emNorms s1 = emNorms s ++ [0]).
  { unfold s1, emNorms. cbn [emPm]. destruct (fittable st); reflexivity. }
  assert (F2 : emFit s1 = (if fittable st then emFit s ++ [0] else emFit s)).
  { unfold s1, emFit. cbn [emPm]. destruct (fittable st); reflexivity. }
  assert (F3 : pairs s1 = pairs s ++ [(b, st)]) by (apply pairs_snoc; auto).
  destruct (register_ok s1) as [s' [E [I [O1 [O2 [O3 O4]]]]]].
  - cbn. rewrite !app_length. cbn. lia.
  - rewrite F1. cbn [s1 emOrig]. rewrite !app_length. cbn. lia.
  - rewrite F2, F3, fitted_app, app_length. unfold fitted at 2. cbn.
    destruct (fittable st); cbn; rewrite ?app_length; cbn; lia.
  - cbn [s1 emAllDir emStat]. rewrite forallb_app. cbn. rewrite <- H4. destruct st; cbn; destruct (emAllDir s); reflexivity.
  - cbn. now rewrite H5.
  - exists s'. split; [exact E|]. split; [exact I|]. split.
    + rewrite <- F3. unfold pairs. now rewrite O1, O2.
    + unfold emNorms, emFit in *. rewrite O4, O3. auto.
Qed.

(** calls that keep the structure *)
Definition same_structure (s s' : edman) : Prop :=
  emOrig s' = emOrig s /\ emWork s' = emWork s /\ emStat s' = emStat s /\ emAllDir s' = emAllDir s /\
  pmPtrs (emPm s') = pmPtrs (emPm s) /\ List.length (emNorms s') = List.length (emNorms s) /\
  List.length (emFit s') = List.length (emFit s).
Lemma structure_inv s s' : same_structure s s' -> em_inv s -> em_inv s'.
Proof.
  intros [A [B [C [D [E [F G]]]]]] [H1 [H2 [H3 [H4 [H5 [H6 [H7 [H8 H9]]]]]]]]. unfold em_inv, cont_of, pairs, pm_names in *.
  rewrite A, B, C, D, E, F, G. repeat (split; [assumption|]).
  split; [|auto]. destruct H6 as [W L]. split; [rewrite E; exact W|]. intros n l Hb. unfold bound in Hb. rewrite E in Hb.
  specialize (L n l Hb). destruct (H7 n l Hb) as [i [_ ->]]. cbn in *. unfold emNorms, emFit in *. destruct (emAllDir s); lia.
Qed.
Lemma structure_refl s : same_structure s s. Proof. repeat split. Qed.
Lemma structure_trans a b c : same_structure a b -> same_structure b c -> same_structure a c.
Proof. intros [A [B [C [D [E [F G]]]]]] [A' [B' [C' [D' [E' [F' G']]]]]]. unfold same_structure. repeat split; etransitivity; eassumption. Qed.
Lemma structure_mem s p : pmPtrs p = pmPtrs (emPm s) -> same_sizes (pmMem (emPm s)) (pmMem p) -> same_structure s (em_withPm s p).
Proof. intros E H. repeat split; auto; unfold emNorms, emFit, em_withPm; cbn; symmetry; apply H. Qed.
Lemma setNormsC_structure s l : List.length l = List.length (emNorms s) -> same_structure s (em_setNormsC s l).
Proof. intros H. repeat split; auto. Qed.
Lemma set_structure s n v : same_structure s (fst (em_set s n v)).
Proof.
  unfold em_set, pm_set. destruct (sfind n (pmPtrs (emPm s))) as [l|]; [|destruct s; apply structure_refl].
  pose proof (assign_sizes (pmMem (emPm s)) l v) as HS. destruct (assign (pmMem (emPm s)) l v) as [m r]. cbn.
  apply structure_mem; auto.
Qed.
Lemma setAll_structure s d : same_structure s (fst (em_setAll s d)).
Proof.
  unfold em_setAll, pm_setAll. pose proof (setLoop_sizes (pmPtrs (emPm s)) d (skeys (pmPtrs (emPm s))) (pmMem (emPm s))) as HS.
  destruct (pm_setLoop _ _ _ _) as [m r]. cbn. apply structure_mem; auto.
Qed.

Definition reassert_loop (calcing : bool) (s : edman) :=
  (fun (st : edman * nat) i =>
             obind st (vat (emStat s) i) (fun x =>
             if (if calcing then is_direct x else is_indirect x)
             then obind st (vat (emFit s) (snd st)) (fun v =>
                    ((em_setNormsC (fst st) (upd (emNorms (fst st)) i v), S (snd st)), Ok tt))
             else (st, Ok tt))).
(** how many entries of the selected status come before position i *)
Definition sel (calcing : bool) (x : nfs) : bool := if calcing then is_direct x else is_indirect x.
Definition cnt (calcing : bool) (l : list nfs) (i : nat) : nat := List.length (filter (sel calcing) (firstn i l)).
Lemma cnt_S calcing l i x : nth_error l i = Some x -> cnt calcing l (S i) = (cnt calcing l i + (if sel calcing x then 1 else 0))%nat.
Proof.
  unfold cnt. revert i. induction l as [|y l IH]; intros [|i] H; cbn in H; try discriminate.
  - injection H as ->. cbn. destruct (sel calcing x); reflexivity.
  - specialize (IH i H). cbn [firstn filter] in *. destruct (sel calcing y); cbn [List.length Nat.add]; rewrite IH; reflexivity.
Qed.
Lemma cnt_le calcing l i : (cnt calcing l i <= List.length (filter (sel calcing) l))%nat.
Proof.
  unfold cnt. revert i. induction l as [|y l IH]; intros [|i]; cbn; try lia. specialize (IH i). destruct (sel calcing y); cbn; lia.
Qed.
Lemma cnt_lt calcing l i x : nth_error l i = Some x -> sel calcing x = true -> (cnt calcing l i < List.length (filter (sel calcing) l))%nat.
Proof. intros H E. pose proof (cnt_le calcing l (S i)). rewrite (cnt_S _ _ _ x H), E in H0. lia. Qed.

Lemma reassert_run calcing s : (forall i x, nth_error (emStat s) i = Some x -> sel calcing x = true -> (cnt calcing (emStat s) i < List.length (emFit s))%nat) ->
  forall k i s1, (i + k = List.length (emStat s))%nat -> List.length (emNorms s1) = List.length (emStat s) ->
  exists s2 j, iterS (reassert_loop calcing s) (seq i k) (s1, cnt calcing (emStat s) i) = ((s2, j), Ok tt) /\
    same_structure s1 s2 /\ emFit s2 = emFit s1 /\
    forall m, nth m (emNorms s2) 0 = if (Nat.leb i m && match nth_error (emStat s) m with Some x => sel calcing x | None => false end)%bool
                                   then nth (cnt calcing (emStat s) m) (emFit s) 0 else nth m (emNorms s1) 0.
Proof.
  intros Hb. induction k as [|k IH]; intros i s1 Hi Hl; cbn [seq iterS].
  - exists s1, (cnt calcing (emStat s) i). split; [reflexivity|]. split; [apply structure_refl|]. split; [reflexivity|].
    intros m. destruct (Nat.leb_spec i m); [|reflexivity]. cbn [andb].
    destruct (nth_error (emStat s) m) eqn:E; [|reflexivity]. exfalso. assert (m < List.length (emStat s))%nat by (apply nth_error_Some; congruence). lia.
  - unfold reassert_loop at 1. destruct (nth_error (emStat s) i) as [x|] eqn:Ex.
    2:{ exfalso. apply nth_error_None in Ex. lia. }
    assert (Ev : vat (emStat s) i = Ok x) by (unfold vat; now rewrite Ex). rewrite Ev. cbn [obind].
    change (if calcing then is_direct x else is_indirect x) with (sel calcing x). cbn [fst snd].
    destruct (sel calcing x) eqn:Es.
    + rewrite (vat_nth _ _ 0) by (apply (Hb i x Ex Es)). cbn [obind].
      set (s1' := em_setNormsC s1 _).
      assert (N1 : emNorms s1' = upd (emNorms s1) i (nth (cnt calcing (emStat s) i) (emFit s) 0)) by reflexivity.
      destruct (IH (S i) s1') as [s2 [j [R [T [F N]]]]]; [lia|rewrite N1, upd_length; exact Hl|].
      rewrite (cnt_S _ _ _ x Ex), Es, Nat.add_1_r in R. exists s2, j. split; [exact R|]. split; [|split].
      * eapply structure_trans; [|exact T]. apply setNormsC_structure. apply upd_length.
      * rewrite F. reflexivity.
      * intros m. rewrite N, N1. destruct (Nat.leb_spec (S i) m), (Nat.leb_spec i m); cbn [andb]; try lia.
        -- destruct (match nth_error (emStat s) m with Some x0 => sel calcing x0 | None => false end); [reflexivity|].
           rewrite nth_upd by lia. destruct (Nat.eqb_spec m i); [lia|reflexivity].
        -- assert (m = i) as -> by lia. rewrite Ex, Es. rewrite nth_upd by lia. now rewrite Nat.eqb_refl.
        -- rewrite nth_upd by lia. destruct (Nat.eqb_spec m i); [lia|reflexivity].
    + destruct (IH (S i) s1) as [s2 [j [R [T [F N]]]]]; [lia|exact Hl|].
      rewrite (cnt_S _ _ _ x Ex), Es, Nat.add_0_r in R. exists s2, j. split; [exact R|]. split; [exact T|]. split; [exact F|].
      intros m. rewrite N. destruct (Nat.leb_spec (S i) m), (Nat.leb_spec i m); cbn [andb]; try lia; try reflexivity.
      assert (m = i) as -> by lia. rewrite Ex, Es. reflexivity.
Qed.

Lemma fit_count s : em_inv s -> List.length (emFit s) = List.length (filter fittable (emStat s)).
Proof.
  intros [H1 [_ [H3 _]]]. rewrite H3. unfold fitted, pairs. rewrite map_length. clear H3. revert H1. generalize (emStat s).
  generalize (emOrig s). induction l as [|o l IH]; intros [|x l0] Hl; cbn in *; try discriminate; auto.
  destruct (fittable x); cbn; rewrite IH by lia; reflexivity.
Qed.
Lemma sel_le calcing l : (List.length (filter (sel calcing) l) <= List.length (filter fittable l))%nat.
Proof. induction l as [|x l IH]; cbn; [lia|]. destruct calcing, x; cbn in *; lia. Qed.

Lemma reassert_ok calcing s : em_inv s ->
  exists s', em_reassert calcing s = (s', Ok tt) /\ same_structure s s' /\ emFit s' = emFit s /\
    (emAllDir s = true -> s' = s) /\
    (emAllDir s = false -> forall m, nth m (emNorms s') 0 =
       if match nth_error (emStat s) m with Some x => sel calcing x | None => false end
       then nth (cnt calcing (emStat s) m) (emFit s) 0 else nth m (emNorms s) 0).
Proof.
  intros I. pose proof I as [H1 [H2 _]]. unfold em_reassert. destruct (emAllDir s) eqn:Ea.
  - exists s. repeat split; auto. discriminate.
  - destruct (reassert_run calcing s) with (k := List.length (emStat s)) (i := 0%nat) (s1 := s) as [s2 [j [R [T [F N]]]]]; [|lia|lia|].
    + intros i x Hx Es. pose proof (cnt_lt calcing _ i x Hx Es). pose proof (sel_le calcing (emStat s)).
      rewrite (fit_count s I). lia.
    + replace (List.length (emNorms s)) with (List.length (emStat s)) by lia.
      change (cnt calcing (emStat s) 0) with 0%nat in R. unfold reassert_loop in R. rewrite R. cbn [fst].
      exists s2. split; [reflexivity|]. split; [exact T|]. split; [exact F|]. split; [discriminate|]. intros _ m. rewrite N. reflexivity.
Qed.
Lemma binProb_state s k : em_inv s -> fst (em_binProb s k) = fst (em_reassert true s).
Proof. intros I. destruct (reassert_ok true s I) as [s' [E _]]. unfold em_binProb. rewrite E. reflexivity. Qed.
