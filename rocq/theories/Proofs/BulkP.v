(** C91, C92: bulk configuration. *)
From Coq Require Import ZArith Lia.
From Verif Require Import Base.Res Base.Num Base.SMap Model.Axis Model.Event Model.Cut Model.Hist Model.ED Model.Comp Model.Param Model.Matrix Model.SystMan Model.Shrink Model.EDMan
  Model.Constraint Model.NLLH Model.Bulk Spec.AxisSpec Spec.HistSpec Spec.ParamSpec Spec.EDManSpec Spec.SystManSpec Spec.CutSpec Spec.CompSpec Spec.NLLHSpec Spec.BulkSpec
  Proofs.AxisP Proofs.HistP Proofs.EDManP Proofs.EDManP2 Proofs.CompP Proofs.NLLHP2.
Local Open Scope Qc_scope.
Local Open Scope res_scope.

Definition is_add (o : nlop) : Prop := match o with NAdd _ _ _ _ | NSys _ _ => True | _ => False end.
Definition call (s : nllh) (o : nlop) : nllh * res unit :=
  match o with NAdd b g r st => nl_addPdf s b g r st | NSys p g => nl_addSys s p g | _ => (s, Ok tt) end.
Lemma call_do s o : is_add o -> call s o = (nldo s o, answer s o).
Proof. destruct o; intros []; cbn [call nldo answer]; [now destruct (nl_addPdf s b groups rate st)|now destruct (nl_addSys s p g)]. Qed.
Lemma iter_turn calls : Forall is_add calls -> forall s, in_turn s calls (iterS call calls s).
Proof.
  induction 1 as [|o t Ho _ IH]; intros s.
  - exists [], []. split; [reflexivity|]. split; [reflexivity|]. split; [intros [] ? ? H; discriminate|]. left. split; [reflexivity|]. split; [reflexivity|]. intros [] ? H; discriminate.
  - cbn [iterS]. rewrite (call_do s o Ho). destruct (answer s o) as [[]| | | |] eqn:E.
    2-5: exists [o], t; split; [reflexivity|]; split; [reflexivity|]; split; [cbn; intros pre x post _ Hl; destruct pre; cbn in Hl; lia|]; right; exists [], o; split; [reflexivity|]; split; [exact E|discriminate].
    destruct (IH (nldo s o)) as [done [rest [E1 [E2 [E3 E4]]]]]. exists (o :: done), rest. split; [cbn; now rewrite <- E1|]. split; [exact E2|]. split.
    + intros [|x pre] y post He Hl; cbn in He; injection He as <- He; [exact E|]. cbn [nlrun fold_left]. apply (E3 pre y post He). cbn in Hl. lia.
    + destruct E4 as [[H1 [H2 H3]]|[pre [x [H1 [H2 H3]]]]].
      * left. split; [exact H1|]. split; [exact H2|]. intros [|x pre] y He; cbn in He; injection He as <- He; [exact E|]. exact (H3 pre y He).
      * right. exists (o :: pre), x. split; [cbn; now rewrite H1|]. split; [exact H2|exact H3].
Qed.
Lemma iter_ext {S A B} (f : S -> A -> S * res unit) (g : S -> B -> S * res unit) (h : A -> B) l : (forall s x, In x l -> f s x = g s (h x)) ->
  forall s, iterS f l s = iterS g (map h l) s.
Proof.
  induction l as [|x l IH]; intros H s; [reflexivity|]. cbn [iterS map]. rewrite (H s x (or_introl eq_refl)). destruct (g s (h x)) as [s1 []]; try reflexivity. apply IH. intros s2 y Hy. apply H. now right.
Qed.
Lemma pdf_calls_nth bs gs rs sts : List.length gs = List.length bs -> List.length rs = List.length bs -> List.length sts = List.length bs ->
  pdf_calls bs gs rs sts = map (fun i => NAdd (nth i bs bed0) (nth i gs []) (nth i rs None) (nth i sts NIndirect)) (seq 0 (List.length bs)).
Proof.
  revert gs rs sts. induction bs as [|b bs IH]; intros [|g gs] [|r rs] [|st sts] H1 H2 H3; try discriminate; [reflexivity|].
  unfold pdf_calls in *. cbn [combine map List.length seq nth]. f_equal. rewrite <- seq_shift, map_map. cbn [nth]. apply IH; now injection H1; injection H2; injection H3.
Qed.
Lemma pdf_calls_add bs gs rs sts : Forall is_add (pdf_calls bs gs rs sts).
Proof. apply Forall_forall. intros o H. apply in_map_iff in H as [[b [g [r st]]] [<- _]]. exact I. Qed.
Lemma status_at bs sts i : (forall l, sts = Some l -> List.length l = List.length bs) -> (i < List.length bs)%nat -> at_status sts i = Ok (nth i (statuses bs sts) NIndirect).
Proof.
  intros H Hi. destruct sts as [l|]; cbn [at_status statuses].
  - rewrite (vat_nth _ _ NIndirect); [reflexivity|]. now rewrite (H l eq_refl).
  - f_equal. symmetry. apply nth_repeat.
Qed.
Lemma statuses_len bs sts : (forall l, sts = Some l -> List.length l = List.length bs) -> List.length (statuses bs sts) = List.length bs.
Proof. intros H. destruct sts as [l|]; cbn; [now apply H|apply repeat_length]. Qed.
Lemma not_bad bs sts : (forall l, sts = Some l -> List.length l = List.length bs) -> bad_status bs sts = false.
Proof. intros H. destruct sts as [l|]; [|reflexivity]. cbn. now rewrite (H l eq_refl), Nat.eqb_refl. Qed.
Lemma nth_repeat2 {A} (x d : A) n i : (i < n)%nat -> nth i (repeat x n) d = x.
Proof. revert i. induction n; intros [|i] H; cbn; auto; try lia. apply IHn. lia. Qed.
Lemma nth_map_some (rs : list Z) i : (i < List.length rs)%nat -> nth i (map Some rs) None = Some (nth i rs 0%Z).
Proof. intros H. rewrite (nth_indep _ None (Some 0%Z)) by now rewrite map_length. apply map_nth. Qed.

Lemma addPdfs_pkg s bs gs rs sts : List.length gs = List.length bs -> List.length rs = List.length bs -> (forall l, sts = Some l -> List.length l = List.length bs) ->
  let st := statuses bs sts in let n := List.length bs in
  in_turn s (pdf_calls bs (repeat [EmptyString] n) (map Some rs) st) (nl_addPdfsR s bs rs sts) /\
  in_turn s (pdf_calls bs gs (map Some rs) st) (nl_addPdfsGR s bs gs rs sts) /\
  (nlBB s = false -> in_turn s (pdf_calls bs (repeat [EmptyString] n) (repeat None n) st) (nl_addPdfs s bs sts) /\
                     in_turn s (pdf_calls bs gs (repeat None n) st) (nl_addPdfsG s bs gs sts)) /\
  (nlBB s = true -> nl_addPdfs s bs sts = (s, Throw OXSXException) /\ nl_addPdfsG s bs gs sts = (s, Throw OXSXException)).
Proof.
  intros Hg Hr Hs. cbv zeta. pose proof (statuses_len bs sts Hs) as Ls. pose proof (not_bad bs sts Hs) as Nb.
  assert (Go : forall gs' rs' f, List.length gs' = List.length bs -> List.length rs' = List.length bs ->
    (forall s1 i, (i < List.length bs)%nat -> f s1 i = nl_addPdf s1 (nth i bs bed0) (nth i gs' []) (nth i rs' None) (nth i (statuses bs sts) NIndirect)) ->
    in_turn s (pdf_calls bs gs' rs' (statuses bs sts)) (iterS f (seq 0 (List.length bs)) s)).
  { intros gs' rs' f L1 L2 Hf. rewrite (iter_ext f call (fun i => NAdd (nth i bs bed0) (nth i gs' []) (nth i rs' None) (nth i (statuses bs sts) NIndirect))).
    - rewrite <- pdf_calls_nth by auto. apply iter_turn, pdf_calls_add.
    - intros s1 i Hi. apply in_seq in Hi. apply Hf. lia. }
  split; [|split; [|split]].
  - unfold nl_addPdfsR. rewrite Nb. apply Go; [apply repeat_length|now rewrite map_length|]. intros s1 i Hi.
    rewrite (vat_nth _ _ bed0) by exact Hi. cbn [obind]. rewrite (vat_nth _ _ 0%Z) by lia. cbn [obind]. rewrite (status_at bs sts i Hs Hi). cbn [obind].
    rewrite nth_repeat2 by exact Hi. rewrite nth_map_some by lia. reflexivity.
  - unfold nl_addPdfsGR. rewrite Hg, Nat.eqb_refl. cbn [negb]. apply Go; [exact Hg|now rewrite map_length|]. intros s1 i Hi.
    rewrite (vat_nth _ _ bed0) by exact Hi. cbn [obind]. rewrite (vat_nth _ _ []) by lia. cbn [obind]. rewrite (vat_nth _ _ 0%Z) by lia. cbn [obind]. rewrite (status_at bs sts i Hs Hi). cbn [obind].
    rewrite nth_map_some by lia. reflexivity.
  - intros Hb. split.
    + unfold nl_addPdfs. rewrite Hb, Nb. apply Go; [apply repeat_length|apply repeat_length|]. intros s1 i Hi.
      rewrite (vat_nth _ _ bed0) by exact Hi. cbn [obind]. rewrite (status_at bs sts i Hs Hi). cbn [obind]. rewrite !nth_repeat2 by exact Hi. reflexivity.
    + unfold nl_addPdfsG. rewrite Hb, Hg, Nat.eqb_refl, Nb. cbn [negb]. apply Go; [exact Hg|apply repeat_length|]. intros s1 i Hi.
      rewrite (vat_nth _ _ bed0) by exact Hi. cbn [obind]. rewrite (vat_nth _ _ []) by lia. cbn [obind]. rewrite (status_at bs sts i Hs Hi). cbn [obind]. rewrite nth_repeat2 by exact Hi. reflexivity.
  - intros Hb. unfold nl_addPdfs, nl_addPdfsG. rewrite Hb. auto.
Qed.
Lemma mismatch_pkg s bs gs rs l ps gr : 
  (List.length gs <> List.length bs -> (forall sts, nlBB s = false -> nl_addPdfsG s bs gs sts = (s, Throw DimensionError)) /\ forall sts, nl_addPdfsGR s bs gs rs sts = (s, Throw DimensionError)) /\
  (List.length l <> List.length bs -> nl_addPdfsR s bs rs (Some l) = (s, Throw DimensionError) /\
     (nlBB s = false -> nl_addPdfs s bs (Some l) = (s, Throw DimensionError) /\ nl_addPdfsG s bs gs (Some l) = (s, Throw DimensionError))) /\
  (List.length gr <> List.length ps -> nl_addSystematicsG s ps gr = (s, Throw DimensionError)).
Proof.
  assert (N : forall a b, a <> b -> negb (Nat.eqb b a) = true) by (intros a b H; apply negb_true_iff, Nat.eqb_neq; auto).
  split; [|split].
  - intros H. split; intros sts; [intros Hb|]; unfold nl_addPdfsG, nl_addPdfsGR; [rewrite Hb|]; now rewrite (N _ _ H).
  - intros H. unfold nl_addPdfsR, nl_addPdfs, nl_addPdfsG, bad_status. rewrite (N _ _ H). split; [reflexivity|]. intros ->. split; [reflexivity|]. now destruct (negb _).
  - intros H. unfold nl_addSystematicsG. rewrite N by auto. reflexivity.
Qed.
Lemma addSystematics_pkg s ps gs : 
  in_turn s (sys_added ps (repeat EmptyString (List.length ps))) (nl_addSystematics s ps) /\
  (List.length gs = List.length ps -> in_turn s (sys_added ps gs) (nl_addSystematicsG s ps gs)).
Proof.
  assert (A : forall g, Forall is_add (sys_added ps g)) by (intros g; apply Forall_forall; intros o H; apply in_map_iff in H as [x [<- _]]; exact I).
  split.
  - unfold nl_addSystematics. rewrite (iter_ext _ call (fun p => NSys p EmptyString)) by reflexivity.
    replace (map _ ps) with (sys_added ps (repeat EmptyString (List.length ps))); [apply iter_turn, A|]. clear. unfold sys_added. induction ps; cbn; [reflexivity|]. f_equal. apply IHps.
  - intros L. unfold nl_addSystematicsG. rewrite L, Nat.eqb_refl. cbn [negb]. rewrite (iter_ext _ call (fun i => NSys (nth i ps 0%nat) (nth i gs EmptyString))).
    + replace (map _ _) with (sys_added ps gs); [apply iter_turn, A|]. clear A. revert gs L. induction ps as [|p ps IH]; intros [|g gs] L; try discriminate; [reflexivity|].
      unfold sys_added in *. cbn [combine map List.length seq nth fst snd]. f_equal. rewrite <- seq_shift, map_map. apply IH. now injection L.
    + intros s1 i Hi. apply in_seq in Hi. rewrite (vat_nth _ _ 0%nat) by lia. cbn [obind]. rewrite (vat_nth _ _ EmptyString) by lia. reflexivity.
Qed.

(** C92 *)
Lemma reassert_assign c t s : em_reassert c (em_assign t s) = (em_assign t (fst (em_reassert c s)), snd (em_reassert c s)).
Proof.
  unfold em_reassert. cbn [em_assign emAllDir]. destruct (emAllDir s); [reflexivity|].
  change (emStat (em_assign t s)) with (emStat s). change (emFit (em_assign t s)) with (emFit s). change (emNorms (em_assign t s)) with (emNorms s).
  set (F := fun (st : edman * nat) i => _). set (l := seq 0 _).
  assert (G : forall l s' j, iterS F l (em_assign t s', j) = ((em_assign t (fst (fst (iterS F l (s', j)))), snd (fst (iterS F l (s', j)))), snd (iterS F l (s', j)))).
  { clear l. induction l as [|i l IH]; intros s' j; [reflexivity|]. cbn [iterS]. unfold F at 1 3 5 7. cbn [fst snd].
    destruct (vat (emStat s) i) as [x| | | |]; cbn [obind]; try reflexivity.
    destruct (if c then is_direct x else is_indirect x); [|apply IH].
    destruct (vat (emFit s) j) as [v| | | |]; cbn [obind]; try reflexivity.
    change (em_setNormsC (em_assign t s') (upd (emNorms (em_assign t s')) i v)) with (em_assign t (em_setNormsC s' (upd (emNorms s') i v))). apply IH. }
  rewrite G. destruct (iterS F l (s, 0%nat)) as [[s1 j] r]. reflexivity.
Qed.
Lemma assign_pkg t s k : snd (em_binProb (em_assign t s) k) = snd (em_binProb s k) /\ (forall e, snd (em_prob (em_assign t s) e) = snd (em_prob s e)) /\
  emNorms (em_assign t s) = emNorms s /\ em_names (em_assign t s) = em_names t.
Proof.
  split; [|split; [|split; reflexivity]].
  - unfold em_binProb. rewrite reassert_assign. destruct (em_reassert true s) as [s1 [[]| | | |]]; reflexivity.
  - intros e. unfold em_prob. rewrite reassert_assign. destruct (em_reassert true s) as [s1 [[]| | | |]]; reflexivity.
Qed.

(** the probability of an event *)
Lemma prob_pkg ops d reads e : let pdfs := pdfs_of ops in
  NoDup (fitted pdfs) -> direct_first pdfs -> (forall n, In n (fitted pdfs) -> has_key d n) -> Forall asks reads ->
  forall f, (forall p, In p pdfs -> exists i, bed_ok (fst p) /\ total (bdHist (fst p)) <> 0 /\ falls (fst p) e i /\ f (fst p) = cont (bdHist (fst p)) i / total (bdHist (fst p))) ->
  exists s, em_setAll (emrun em_new ops) d = (s, Ok tt) /\
    snd (em_prob (emrun s reads) e) = Ok (qsum (map (fun p => norm_in d p * f (fst p)) pdfs)).
Proof.
  cbv zeta. intros Hnd Hdf Hd Hr f Hf. destruct (history_ok ops) as [I P]. rewrite <- P in *.
  destruct (setAll_holds _ d I Hnd Hd) as [s1 [E [I1 [T1 H1]]]]. exists s1. split; [exact E|].
  destruct (emrun_ok reads s1 I1) as [I2 [P2 T2]]. specialize (T2 Hr).
  pose proof (asks_holds reads s1 d I1 Hr H1) as H2. set (s := emrun s1 reads) in *.
  assert (Ep : pairs s = pairs (emrun em_new ops)) by (rewrite (structure_pairs _ _ T2); apply structure_pairs; exact T1).
  rewrite <- Ep in *. clear P2 T2 T1 E H1 I1 P I Ep. clearbody s. clear s1 Hr.
  destruct (reassert_ok true s I2) as [s' [E [T _]]]. pose proof (structure_inv _ _ T I2) as I'.
  pose proof I' as [L1 [_ [_ [_ [L5 _]]]]]. pose proof (weights s d I2 Hnd Hdf H2 s' E) as Hn. unfold em_prob. rewrite E. cbn [snd].
  pose proof (structure_pairs _ _ T) as Ep. pose proof T as [_ [_ [Es _]]].
  pose proof (sum_loop s' (fun w => bed_prob w e) f (norm_in d) L1 L5) as L.
  rewrite L5. change 0%nat with (fcnt (emStat s') 0) at 2. rewrite L with (k := List.length (emOrig s')) (i := 0%nat).
  - unfold rmap. cbn [bind fst skipn]. rewrite Ep. f_equal. ring.
  - intros b Hin. apply In_nth with (d := bed0) in Hin as [j [Hj <-]]. 
    assert (Hp := pairs_nth s' j L1 Hj). rewrite Ep in Hp. apply nth_error_In in Hp. destruct (Hf _ Hp) as [i [B1 [B2 [B3 B4]]]]. cbn [fst] in *.
    rewrite B4. exact (proj2 (bed_prob_pkg _ _ _ B1 B2 B3)).
  - intros i b st Hi. rewrite Ep in Hi. specialize (Hn i b st Hi). rewrite Es. exact Hn.
  - reflexivity.
Qed.
(** the asymmetric constraint through the statistic *)
Lemma asym_pkg s n mean lo hi s' v x : nl_constrainAsym s n mean lo hi = (s', Ok tt) -> sfind n (cInd (nlCm s')) = Some x -> 0 < lo -> 0 < hi ->
  (mean <= v -> quad_eval x v = Ok ((v - mean) * (v - mean) / (qz 2 * hi * hi))) /\ (v < mean -> quad_eval x v = Ok ((v - mean) * (v - mean) / (qz 2 * lo * lo))).
Proof.
  intros E F Hlo Hhi. assert (X : x = mk_quad_asym mean hi lo).
  { unfold nl_constrainAsym, nl_onCm, set_single in E. destruct (sfind n (cUse (nlCm s))) as [[]|]; injection E as <-; cbn in F; try discriminate; rewrite sfind_sset_eq in F; now injection F. }
  subst x. assert (Nz : forall w, 0 < w -> qeqb (qz 2 * w * w) 0 = false).
  { intros w Hw. apply qeqb_neq. intros C. apply Qcmult_integral in C as [C|C]; [apply Qcmult_integral in C as [C|C]|]; [discriminate C| |]; subst; exact (Qclt_not_eq 0 0 Hw eq_refl). }
  unfold quad_eval, penalty, qdiv. cbn [mk_quad_asym qAsym qMean qWidth qWidthLo]. split; intros H.
  - apply qleb_le in H. now rewrite H, (Nz hi Hhi).
  - destruct (qleb mean v) eqn:Q; [apply qleb_le in Q; exfalso; exact (Qclt_not_le _ _ H Q)|]. now rewrite (Nz lo Hlo).
Qed.
