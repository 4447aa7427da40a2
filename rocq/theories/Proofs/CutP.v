From Coq Require Import ZArith Lia.
From Verif Require Import Base.Res Base.Num Base.SMap Model.Axis Model.Event Model.Cut Spec.AxisSpec Spec.CutSpec Proofs.AxisP Proofs.HistP.
Local Open Scope Qc_scope.
Local Open Scope res_scope.

Lemma getDatum_value e n v : has_value e n v -> getDatum e n = Ok v.
Proof.
  intros [ns [i [E [Hn [Hv Hf]]]]]. unfold getDatum, getDatumIdx. rewrite E.
  pose proof (index_of_spec n ns) as H. destruct (index_of n ns) as [k|].
  - destruct H as [H1 H2]. assert (k = i) as ->.
    { destruct (Nat.lt_trichotomy k i) as [C|[C|C]]; [|exact C|].
      - exfalso. now apply (Hf k C).
      - exfalso. now apply (H2 i C). }
    rewrite Hv. reflexivity.
  - exfalso. apply H. eapply nth_error_In; exact Hn.
Qed.
Lemma getDatum_ok e n v : getDatum e n = Ok v -> has_value e n v.
Proof.
  unfold getDatum, getDatumIdx. destruct (evNames e) as [ns|] eqn:E; [|discriminate].
  pose proof (index_of_spec n ns) as H. destruct (index_of n ns) as [i|]; [|discriminate].
  destruct (nth_error (evObs e) i) eqn:Ev; [|discriminate]. intros F. injection F as ->. destruct H as [H1 H2].
  exists ns, i. auto.
Qed.
Lemma getDatum_lacks e n : lacks e n -> getDatum e n = Throw NotFoundError.
Proof.
  intros [ns [E H]]. unfold getDatum. rewrite E. pose proof (index_of_spec n ns) as S.
  destruct (index_of n ns) as [i|]; [|reflexivity]. exfalso. apply H. destruct S as [S _]. eapply nth_error_In; exact S.
Qed.

Lemma passesCut_value c e v : cut_built c -> has_value e (cut_obs c) v ->
  exists b, passesCut c e = Ok b /\ (b = true <-> region c v).
Proof.
  intros Hb Hv. apply getDatum_value in Hv. destruct c as [n o lo hi|n o x s|n o x]; cbn [cut_obs passesCut region] in *; rewrite Hv; cbn [bind].
  - eexists; split; [reflexivity|]. rewrite andb_true_iff, !qltb_lt. tauto.
  - eexists; split; [reflexivity|]. cbn in Hb. unfold mk_line in Hb.
    destruct (String.eqb_spec s "lower") as [->|Hl].
    + rewrite qltb_lt. split; [auto|]. intros [[_ H]|[C _]]; [exact H|discriminate].
    + rewrite qltb_lt. destruct (String.eqb_spec s "upper") as [->|Hu]; [|discriminate].
      split; [auto|]. intros [[C _]|[_ H]]; [congruence|exact H].
  - eexists; split; [reflexivity|]. apply qeqb_eq.
Qed.
Lemma passesCut_lacks c e : lacks e (cut_obs c) -> passesCut c e = Throw NotFoundError.
Proof. intros H. apply getDatum_lacks in H. destruct c; cbn [cut_obs passesCut] in *; rewrite H; reflexivity. Qed.

Lemma passesCut_true c e : cut_built c -> passesCut c e = Ok true -> accepts c e.
Proof.
  intros Hb H. assert (exists v, getDatum e (cut_obs c) = Ok v) as [v Hv].
  { destruct c; cbn [passesCut cut_obs] in *; destruct (getDatum e obs); try discriminate; eauto. }
  apply getDatum_ok in Hv. destruct (passesCut_value c e v Hb Hv) as [b [E R]]. rewrite H in E. injection E as <-.
  exists v. split; [exact Hv|]. now apply R.
Qed.
Lemma passesCut_false c e : cut_built c -> passesCut c e = Ok false -> rejects c e.
Proof.
  intros Hb H. assert (exists v, getDatum e (cut_obs c) = Ok v) as [v Hv].
  { destruct c; cbn [passesCut cut_obs] in *; destruct (getDatum e obs); try discriminate; eauto. }
  apply getDatum_ok in Hv. destruct (passesCut_value c e v Hb Hv) as [b [E R]]. rewrite H in E. injection E as <-.
  exists v. split; [exact Hv|]. intros C. apply R in C. discriminate.
Qed.
Lemma accepts_passes c e : cut_built c -> accepts c e -> passesCut c e = Ok true.
Proof.
  intros Hb [v [Hv Hr]]. destruct (passesCut_value c e v Hb Hv) as [b [E R]]. rewrite E. f_equal. now apply R.
Qed.
Lemma rejects_fails c e : cut_built c -> rejects c e -> passesCut c e = Ok false.
Proof.
  intros Hb [v [Hv Hr]]. destruct (passesCut_value c e v Hb Hv) as [b [E R]]. rewrite E. f_equal.
  destruct b; [|reflexivity]. exfalso. apply Hr. now apply R.
Qed.

Lemma cuts_pkg c e : cut_built c ->
  (forall v, has_value e (cut_obs c) v -> exists b, passesCut c e = Ok b /\ (b = true <-> region c v)) /\
  (lacks e (cut_obs c) -> passesCut c e = Throw NotFoundError).
Proof. intros Hb. split; [intros v; now apply passesCut_value|apply passesCut_lacks]. Qed.
Lemma mk_line_pkg n o v s :
  (mk_line n o v s = Ok (LineCut n o v s) <-> (s = "upper" \/ s = "lower")%string) /\
  (s <> "upper"%string -> s <> "lower"%string -> mk_line n o v s = Throw ValueError).
Proof.
  unfold mk_line. destruct (String.eqb_spec s "upper"), (String.eqb_spec s "lower"); cbn; split; try tauto;
    split; intros; try discriminate; tauto.
Qed.

Lemma passesCuts_pkg cs e : Forall cut_built cs -> 
  (passesCuts cs e = Ok true <-> passes_all cs e) /\
  (passesCuts cs e = Ok false <-> exists i, charged_to cs e i).
Proof.
  intros H. induction cs as [|c cs IH]; cbn [passesCuts].
  - split; split; intros; try reflexivity; try discriminate; [intros ? []|].
    destruct H0 as [i [c [E _]]]. destruct i; discriminate.
  - inversion H as [|? ? Hc Hcs]; subst. specialize (IH Hcs) as [IH1 IH2]. split; split.
    + intros E. destruct (passesCut c e) as [[|]| | | |] eqn:Ec; cbn in E; try discriminate.
      intros d [<-|Hd]; [now apply passesCut_true|]. now apply IH1.
    + intros Ha. rewrite (accepts_passes c e Hc) by (apply Ha; now left). cbn. apply IH1. intros d Hd. apply Ha. now right.
    + intros E. destruct (passesCut c e) as [[|]| | | |] eqn:Ec; cbn in E; try discriminate.
      * apply IH2 in E as [i [d [Hd [Hr Hb]]]]. exists (S i), d. split; [exact Hd|]. split; [exact Hr|].
        intros [|j] d' Hj Hn; [injection Hn as <-; now apply passesCut_true|]. apply (Hb j); [lia|exact Hn].
      * exists 0%nat, c. split; [reflexivity|]. split; [now apply passesCut_false|]. intros; lia.
    + intros [[|i] [d [Hd [Hr Hb]]]].
      * injection Hd as ->. rewrite (rejects_fails _ _ Hc Hr). reflexivity.
      * rewrite (accepts_passes c e Hc) by (apply (Hb 0%nat c); [lia|reflexivity]). cbn. apply IH2.
        exists i, d. split; [exact Hd|]. split; [exact Hr|]. intros j d' Hj Hn. apply (Hb (S j)); [lia|exact Hn].
Qed.

(** classification of complete events *)
Definition complete (cs : list cut) (e : event) : Prop := forall c, In c cs -> exists v, has_value e (cut_obs c) v.
Fixpoint classify (cs : list cut) (e : event) : option nat :=
  match cs with
  | [] => None
  | c :: t => match passesCut c e with Ok true => option_map S (classify t e) | _ => Some 0%nat end
  end.
Lemma classify_spec cs e : Forall cut_built cs -> complete cs e ->
  match classify cs e with Some i => charged_to cs e i | None => passes_all cs e end.
Proof.
  intros H Hc. induction cs as [|c cs IH]; cbn [classify].
  - intros ? [].
  - inversion H as [|? ? Hb Hcs]; subst.
    destruct (Hc c (or_introl eq_refl)) as [v Hv]. destruct (passesCut_value c e v Hb Hv) as [b [E R]]. rewrite E.
    assert (Hc' : complete cs e) by (intros d Hd; apply Hc; now right). specialize (IH Hcs Hc').
    destruct b.
    + destruct (classify cs e) as [i|]; cbn [option_map].
      * destruct IH as [d [Hd [Hr Ha]]]. exists d. split; [exact Hd|]. split; [exact Hr|].
        intros [|j] d' Hj Hn; [injection Hn as <-; now apply passesCut_true|]. apply (Ha j); [lia|exact Hn].
      * intros d [<-|Hd]; [now apply passesCut_true|]. now apply IH.
    + exists c. split; [reflexivity|]. split; [now apply passesCut_false|]. intros; lia.
Qed.
Lemma classify_lt cs e i : classify cs e = Some i -> (i < List.length cs)%nat.
Proof.
  revert i. induction cs as [|c cs IH]; cbn [classify List.length]; [discriminate|]. intros i.
  destruct (passesCut c e) as [[|]| | | |]; try (intros E; injection E as <-; lia).
  destruct (classify cs e) as [k|]; cbn [option_map]; [|discriminate]. intros E; injection E as <-. specialize (IH k eq_refl). lia.
Qed.

Lemma passesLog_from cs e : Forall cut_built cs -> complete cs e -> forall i l, (i + List.length cs <= List.length (lCounts l))%nat ->
  passesCutsLogFrom cs i e l =
  match classify cs e with
  | Some k => (mkLog (upd (lCounts l) (i + k) (nth (i + k) (lCounts l) 0 + 1)%Z) (lRem l) (lCutPct l) (lRemPct l) (lNames l) (lN l + 1), Ok false)
  | None => (logPass l, Ok true)
  end.
Proof.
  intros H Hc. induction cs as [|c cs IH]; intros i l Hl; cbn [passesCutsLogFrom classify]; [reflexivity|].
  inversion H as [|? ? Hb Hcs]; subst. cbn [List.length] in Hl.
  destruct (Hc c (or_introl eq_refl)) as [v Hv]. destruct (passesCut_value c e v Hb Hv) as [b [E R]]. rewrite E.
  destruct b.
  - rewrite IH; [|exact Hcs|intros d Hd; apply Hc; now right|lia].
    destruct (classify cs e) as [k|]; cbn [option_map]; [|reflexivity]. replace (i + S k)%nat with (S i + k)%nat by lia. reflexivity.
  - unfold logCut. rewrite (nth_error_nth' _ 0%Z) by lia. rewrite Nat.add_0_r. reflexivity.
Qed.

Lemma run_cuts_ok cs evs : Forall cut_built cs -> forall l, List.length (lCounts l) = List.length cs ->
  (forall e, In e evs -> complete cs e) ->
  let (l', rs) := run_cuts cs evs l in
  rs = map (fun e => Ok (match classify cs e with None => true | Some _ => false end)) evs /\
  lN l' = (lN l + Z.of_nat (List.length evs))%Z /\ List.length (lCounts l') = List.length cs /\ lNames l' = lNames l /\
  forall i, (i < List.length cs)%nat ->
    nth i (lCounts l') 0%Z = (nth i (lCounts l) 0 + zcount (fun e => match classify cs e with Some k => Nat.eqb k i | None => false end) evs)%Z.
Proof.
  intros H. induction evs as [|e evs IH]; intros l Hl Hc; cbn [run_cuts].
  - cbn. repeat split; auto; intros; lia.
  - unfold passesCutsLog. rewrite passesLog_from; [|exact H|apply Hc; now left|lia]. cbn [map zcount List.length].
    destruct (classify cs e) as [k|] eqn:Ek.
    + pose proof (classify_lt _ _ _ Ek) as Hk.
      specialize (IH (mkLog (upd (lCounts l) (0 + k) (nth (0 + k) (lCounts l) 0 + 1)%Z) (lRem l) (lCutPct l) (lRemPct l) (lNames l) (lN l + 1))).
      cbn [lCounts lN lNames Nat.add] in *. rewrite upd_length in IH. specialize (IH Hl ltac:(intros; apply Hc; now right)).
      destruct (run_cuts cs evs _) as [l' rs]. destruct IH as [-> [HN [HL [HM HC]]]].
      split; [reflexivity|]. split; [lia|]. split; [exact HL|]. split; [exact HM|].
      intros i Hi. rewrite HC by exact Hi. rewrite nth_upd by lia. rewrite (Nat.eqb_sym k i).
      destruct (Nat.eqb_spec i k) as [->|]; lia.
    + specialize (IH (logPass l)). cbn [logPass lCounts lN lNames] in *. specialize (IH Hl ltac:(intros; apply Hc; now right)).
      destruct (run_cuts cs evs _) as [l' rs]. destruct IH as [-> [HN [HL [HM HC]]]].
      split; [reflexivity|]. split; [lia|]. split; [exact HL|]. split; [exact HM|]. intros i Hi. rewrite HC by exact Hi. lia.
Qed.

Lemma zsum_nth l : zsum l = zsum (map (fun i => nth i l 0%Z) (seq 0 (List.length l))).
Proof.
  induction l as [|x l IH]; cbn; [reflexivity|]. rewrite IH at 1. f_equal. rewrite <- seq_shift, map_map. reflexivity.
Qed.
Lemma zsum_add {A} (f g : A -> Z) l : zsum (map (fun x => (f x + g x)%Z) l) = (zsum (map f l) + zsum (map g l))%Z.
Proof. induction l as [|x l IH]; cbn; [reflexivity|]. rewrite IH. lia. Qed.
Lemma zsum_single n k : (k < n)%nat -> forall s, zsum (map (fun i => if Nat.eqb (s + k) i then 1 else 0)%Z (seq s n)) = 1%Z.
Proof.
  intros Hk. assert (Z0 : forall m a b, (b < a)%nat -> zsum (map (fun i => if Nat.eqb b i then 1 else 0)%Z (seq a m)) = 0%Z).
  { induction m as [|m IH]; intros a b Hab; cbn; [reflexivity|]. destruct (Nat.eqb_spec b a); [lia|]. rewrite IH by lia. reflexivity. }
  revert k Hk. induction n as [|n IH]; intros k Hk s; [lia|]. cbn [seq map zsum].
  destruct (Nat.eqb_spec (s + k) s).
  - rewrite Z0 by lia. lia.
  - replace (s + k)%nat with (S s + (k - 1))%nat by lia. rewrite IH by lia. lia.
Qed.
Lemma zsum_zero {A} (l : list A) : zsum (map (fun _ => 0%Z) l) = 0%Z.
Proof. induction l as [|x l IH]; cbn; [reflexivity|exact IH]. Qed.
Lemma zsum_classes cs evs :
  (zsum (map (fun i => zcount (fun e => match classify cs e with Some k => Nat.eqb k i | None => false end) evs) (seq 0 (List.length cs)))
   + zcount (fun e => match classify cs e with None => true | Some _ => false end) evs = Z.of_nat (List.length evs))%Z.
Proof.
  induction evs as [|e evs IH]; cbn [zcount List.length].
  - rewrite zsum_zero. reflexivity.
  - rewrite (zsum_add (fun i => if match classify cs e with Some k => Nat.eqb k i | None => false end then 1 else 0)%Z).
    destruct (classify cs e) as [k|] eqn:Ek.
    + pose proof (classify_lt _ _ _ Ek) as Hk. pose proof (zsum_single (List.length cs) k Hk 0) as Z1. cbn [Nat.add] in Z1. rewrite Z1. lia.
    + rewrite zsum_zero. lia.
Qed.

Lemma metaLoop_ok n counts : n <> 0%Z -> forall rem, exists r, metaLoop n rem counts = Ok r /\ List.length r = List.length counts /\
  forall i, (i < List.length counts)%nat ->
    nth i (map (fun x => fst (fst x)) r) 0%Z = (rem - zsum (firstn (S i) counts))%Z /\
    nth i (map (fun x => snd (fst x)) r) 0 = qz (nth i counts 0%Z) * qz 100 / qz n /\
    nth i (map snd r) 0 = qz (rem - zsum (firstn (S i) counts)) * qz 100 / qz n.
Proof.
  intros Hn. induction counts as [|c counts IH]; intros rem; cbn [metaLoop].
  - exists []. repeat split; intros; cbn in *; lia.
  - destruct (Z.eqb_spec n 0); [contradiction|]. destruct (IH (rem - c)%Z) as [r [E [L N]]]. rewrite E. cbn [bind].
    eexists. split; [reflexivity|]. split; [cbn; lia|]. intros [|i] Hi.
    + cbn [nth map fst snd firstn zsum]. replace (rem - (c + 0))%Z with (rem - c)%Z by lia. repeat split.
    + cbn [nth map fst snd firstn zsum]. destruct (N i) as [N1 [N2 N3]]; [cbn in Hi; lia|].
      cbn [firstn] in *. rewrite Z.sub_add_distr. split; [exact N1|]. split; [exact N2|exact N3].
Qed.

Lemma cutlog_pkg cs evs : Forall cut_built cs ->
  (forall e, In e evs -> forall c, In c cs -> exists v, has_value e (cut_obs c) v) ->
  exists cls : event -> option nat,
    (forall e, In e evs -> match cls e with Some i => charged_to cs e i | None => passes_all cs e end) /\
    let passed := zcount (fun e => match cls e with None => true | Some _ => false end) evs in
    let (l, rs) := run_cuts cs evs (mk_log (map cutName cs)) in
    rs = map (fun e => Ok (match cls e with None => true | Some _ => false end)) evs /\
    lNames l = map cutName cs /\ List.length (lCounts l) = List.length cs /\
    lN l = Z.of_nat (List.length evs) /\
    (forall i, (i < List.length cs)%nat ->
       nth i (lCounts l) 0%Z = zcount (fun e => match cls e with Some k => Nat.eqb k i | None => false end) evs) /\
    (passed + zsum (lCounts l) = Z.of_nat (List.length evs))%Z /\
    (evs <> [] -> exists m, calculateMeta l = Ok m /\ lCounts m = lCounts l /\ lN m = lN l /\
       List.length (lRem m) = List.length cs /\
       (forall i, (i < List.length cs)%nat ->
          nth i (lRem m) 0%Z = (Z.of_nat (List.length evs) - zsum (firstn (S i) (lCounts l)))%Z /\
          nth i (lCutPct m) 0 = qz (nth i (lCounts l) 0%Z) * qz 100 / qz (Z.of_nat (List.length evs)) /\
          nth i (lRemPct m) 0 = qz (nth i (lRem m) 0%Z) * qz 100 / qz (Z.of_nat (List.length evs))) /\
       (forall i, (S i < List.length cs)%nat -> (nth (S i) (lRem m) 0 <= nth i (lRem m) 0)%Z) /\
       (forall i, S i = List.length cs -> nth i (lRem m) 0%Z = passed)).
Proof.
  intros H Hc. exists (classify cs). split.
  { intros e He. apply classify_spec; [exact H|]. exact (Hc e He). }
  pose proof (run_cuts_ok cs evs H (mk_log (map cutName cs))) as R. cbn [mk_log lCounts lN lNames] in R.
  rewrite repeat_length, map_length in R. specialize (R eq_refl Hc).
  set (passed := zcount _ evs). fold (mk_log (map cutName cs)) in R.
  destruct (run_cuts cs evs (mk_log (map cutName cs))) as [l rs].
  destruct R as [R1 [R2 [R3 [R4 R5]]]]. 
  assert (C5 : forall i, (i < List.length cs)%nat ->
       nth i (lCounts l) 0%Z = zcount (fun e => match classify cs e with Some k => Nat.eqb k i | None => false end) evs).
  { intros i Hi. rewrite R5 by exact Hi. rewrite nth_repeat. lia. }
  assert (SUM : (passed + zsum (lCounts l) = Z.of_nat (List.length evs))%Z).
  { rewrite zsum_nth, R3. rewrite (map_ext_in _ (fun i => zcount (fun e => match classify cs e with Some k => Nat.eqb k i | None => false end) evs)).
    - pose proof (zsum_classes cs evs). unfold passed. lia.
    - intros i Hi. apply in_seq in Hi. apply C5. lia. }
  split; [exact R1|]. split; [exact R4|]. split; [exact R3|]. split; [lia|]. split; [exact C5|]. split; [exact SUM|].
  intros Hne. unfold calculateMeta. rewrite R2, Z.add_0_l.
  assert (Hn : Z.of_nat (List.length evs) <> 0%Z) by (destruct evs; [congruence|cbn; lia]).
  destruct (metaLoop_ok _ (lCounts l) Hn (Z.of_nat (List.length evs))) as [r [E [L N]]]. rewrite E. cbn [bind].
  eexists. split; [reflexivity|]. cbn [lCounts lN lRem lCutPct lRemPct]. split; [reflexivity|]. split; [reflexivity|].
  split; [rewrite map_length; lia|]. rewrite R3 in N. split; [|split].
  - intros i Hi. destruct (N i Hi) as [N1 [N2 N3]]. rewrite N1. auto.
  - intros i Hi. destruct (N i ltac:(lia)) as [N1 _]. destruct (N (S i) Hi) as [N1' _]. rewrite N1, N1'.
    assert (G : forall (c : list Z) k, (k < List.length c)%nat -> zsum (firstn (S k) c) = (zsum (firstn k c) + nth k c 0)%Z).
    { clear. induction c as [|x c IH]; intros k Hk; cbn in Hk; [lia|]. destruct k as [|k]; [cbn; lia|].
      cbn [firstn zsum nth]. rewrite <- Z.add_assoc. f_equal. apply IH. lia. }
    rewrite (G (lCounts l) (S i)) by lia. rewrite (C5 (S i)) by lia.
    assert (P : forall (p : event -> bool) l, (0 <= zcount p l)%Z).
    { clear. intros p l. induction l as [|x l IH]; cbn; [lia|]. destruct (p x); lia. }
    specialize (P (fun e => match classify cs e with Some k => Nat.eqb k (S i) | None => false end) evs). lia.
  - intros i Hi. destruct (N i ltac:(lia)) as [N1 _]. rewrite N1, Hi, <- R3, firstn_all. lia.
Qed.

Lemma log_unchanged_pkg cs e l : (forall b, snd (passesCutsLog cs e l) <> Ok b) -> fst (passesCutsLog cs e l) = l.
Proof.
  unfold passesCutsLog. generalize 0%nat as i. induction cs as [|c cs IH]; intros i H; cbn [passesCutsLogFrom] in *.
  - exfalso. now apply (H true).
  - destruct (passesCut c e) as [[|]| | | |]; try reflexivity.
    + apply IH. exact H.
    + unfold logCut in *. destruct (nth_error (lCounts l) i); cbn in *; [exfalso; now apply (H false)|reflexivity].
Qed.

(** C21 *)
Lemma mapM_throw {A B} (f : A -> res B) (e : exn) l : (exists x, In x l /\ f x = Throw e) ->
  (forall x, In x l -> (exists y, f x = Ok y) \/ f x = Throw e) -> mapM f l = Throw e.
Proof.
  unfold mapM. induction l as [|x l IH]; intros [y [Hy E]] H; [contradiction|]. cbn [map seqM].
  destruct (H x) as [[z Ez]|Ez]; [now left| |]; rewrite Ez; cbn [bind]; [|reflexivity].
  destruct Hy as [->|Hy]; [congruence|]. rewrite IH; [reflexivity|eauto|intros; apply H; now right].
Qed.
Lemma toObsSet_pkg e names :
  (forall vals, toObsSet e (mk_obsset names) = Ok vals <-> Forall2 (has_value e) names vals) /\
  (forall ns, evNames e = Some ns -> List.length ns = List.length (evObs e) ->
     (exists n, In n names /\ ~ In n ns) -> toObsSet e (mk_obsset names) = Throw NotFoundError) /\
  (forall i, (List.length (evObs e) <= i)%nat -> getDatumIdx e i = Throw NotFoundError) /\
  (forall i v, nth_error (evObs e) i = Some v -> getDatumIdx e i = Ok v).
Proof.
  split; [|split; [|split]].
  - unfold toObsSet, mk_obsset. cbn [osNames]. unfold mapM. induction names as [|n names IH]; intros vals; cbn [map seqM].
    + split; intros H; [injection H as <-; constructor|inversion H; reflexivity].
    + split.
      * intros H. destruct (getDatum e n) as [v| | | |] eqn:E; cbn [bind] in H; try discriminate.
        destruct (seqM (map (getDatum e) names)) as [r| | | |]; cbn [bind] in H; try discriminate. injection H as <-.
        constructor; [now apply getDatum_ok|]. now apply IH.
      * intros H. inversion H as [|? v ? r Hv Hr]; subst. rewrite (getDatum_value e n v Hv). cbn [bind].
        apply IH in Hr. rewrite Hr. reflexivity.
  - intros ns E Hl [n [Hn Hni]]. unfold toObsSet. cbn [mk_obsset osNames]. apply mapM_throw.
    + exists n. split; [exact Hn|]. apply getDatum_lacks. exists ns. auto.
    + intros x Hx. unfold getDatum. rewrite E. pose proof (index_of_spec x ns) as S. destruct (index_of x ns) as [i|]; [|now right].
      left. destruct S as [S _]. unfold getDatumIdx.
      assert (Hi : (i < List.length (evObs e))%nat) by (rewrite <- Hl; apply nth_error_Some; congruence).
      apply nth_error_Some in Hi. destruct (nth_error (evObs e) i); [eauto|congruence].
  - intros i Hi. unfold getDatumIdx. apply nth_error_None in Hi. rewrite Hi. reflexivity.
  - intros i v Hi. unfold getDatumIdx. rewrite Hi. reflexivity.
Qed.

Lemma osInv_go names : forall k m n, NoDup names -> 
  sfind n (fold_left (fun m ni => sset (fst ni) (snd ni) m) (combine names (seq k (List.length names))) m) =
  match index_of n names with Some i => Some (k + i)%nat | None => sfind n m end.
Proof.
  induction names as [|x names IH]; intros k m n Hnd; cbn [List.length seq combine fold_left index_of fst snd]; [reflexivity|].
  inversion Hnd as [|? ? Hx Hnd']; subst. rewrite IH by exact Hnd'.
  destruct (String.eqb_spec x n) as [->|Hne].
  - pose proof (index_of_spec n names) as S. destruct (index_of n names) as [i|].
    + exfalso. apply Hx. destruct S as [S _]. eapply nth_error_In; exact S.
    + rewrite sfind_sset_eq. f_equal. lia.
  - destruct (index_of n names) as [i|]; cbn [option_map]; [f_equal; lia|]. rewrite sfind_sset_neq by congruence. reflexivity.
Qed.
Lemma os_index_ok names n : NoDup names ->
  os_index (mk_obsset names) n = match index_of n names with Some i => Ok i | None => Throw std_out_of_range end.
Proof.
  intros H. unfold os_index, sat, mk_obsset. cbn [osInv]. rewrite osInv_go by exact H.
  destruct (index_of n names) as [i|]; [|reflexivity]. now rewrite Nat.add_0_l.
Qed.
Lemma relidx_pkg names big : NoDup names -> NoDup big ->
  (incl names big -> exists idx, relativeIndices (mk_obsset names) (mk_obsset big) = Ok idx /\
     Forall2 (fun n i => nth_error big i = Some n) names idx /\
     forall e vals, evNames e = Some big -> List.length (evObs e) = List.length big ->
       (toObsSet e (mk_obsset names) = Ok vals <-> Forall2 (fun i v => nth_error (evObs e) i = Some v) idx vals)) /\
  (~ incl names big -> relativeIndices (mk_obsset names) (mk_obsset big) = Throw RepresentationError \/
     relativeIndices (mk_obsset names) (mk_obsset big) = Throw std_out_of_range).
Proof.
  intros Hn Hb. unfold relativeIndices. cbn [mk_obsset osNames]. fold (mk_obsset names) (mk_obsset big). split.
  - intros Hin. destruct (Nat.ltb_spec (List.length big) (List.length names)).
    { pose proof (NoDup_incl_length Hn Hin). lia. }
    set (pos := fun n => match index_of n big with Some i => i | None => 0%nat end).
    assert (HP : forall n, In n names -> index_of n big = Some (pos n)).
    { intros n Hx. unfold pos. pose proof (index_of_spec n big) as S. destruct (index_of n big); [reflexivity|]. exfalso. apply S, Hin, Hx. }
    exists (map pos names). split.
    { apply seqM_ok. intros n Hx. rewrite (os_index_ok big n Hb), (HP n Hx). reflexivity. }
    split.
    + clear Hn H. induction names as [|n names IH]; cbn [map]; constructor.
      * pose proof (index_of_spec n big) as S. rewrite (HP n (or_introl eq_refl)) in S. apply S.
      * apply IH; [intros x Hx; apply Hin; now right|intros x Hx; apply HP; now right].
    + intros e vals E Hl. rewrite (proj1 (toObsSet_pkg e names) vals). clear Hn H.
      revert vals. induction names as [|n names IH]; intros vals; cbn [map].
      * split; intros F; inversion F; constructor.
      * specialize (IH ltac:(intros x Hx; apply Hin; now right) ltac:(intros x Hx; apply HP; now right)).
        split; intros F; inversion F as [|? v ? r Hv Hr]; subst; constructor; try (now apply IH).
        -- apply getDatum_value in Hv. unfold getDatum, getDatumIdx in Hv. rewrite E, (HP n (or_introl eq_refl)) in Hv.
           destruct (nth_error (evObs e) (pos n)); congruence.
        -- apply getDatum_ok. unfold getDatum, getDatumIdx. rewrite E, (HP n (or_introl eq_refl)), Hv. reflexivity.
  - intros Hni. destruct (Nat.ltb_spec (List.length big) (List.length names)); [now left|]. right.
    apply mapM_throw.
    + destruct (Exists_dec (fun n => ~ In n big) names) as [Ex|NEx].
      { intros n. destruct (in_dec string_dec n big); [right|left]; tauto. }
      * apply Exists_exists in Ex as [n [H1 H2]]. exists n. split; [exact H1|]. rewrite (os_index_ok big n Hb).
        pose proof (index_of_spec n big) as S. destruct (index_of n big) as [i|]; [|reflexivity]. exfalso. apply H2. destruct S as [S _]. eapply nth_error_In; exact S.
      * exfalso. apply Hni. intros n Hx. destruct (in_dec string_dec n big); [assumption|]. exfalso. apply NEx. apply Exists_exists. eauto.
    + intros x Hx. rewrite (os_index_ok big x Hb). destruct (index_of x big); eauto.
Qed.
