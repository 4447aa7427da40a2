From Coq Require Import ZArith Sorted.
From Verif Require Import Base.Res Base.Num Base.SMap Model.Axis Model.Hist Model.Matrix Model.Grid Model.Minuit Spec.SystSpec Spec.MinuitSpec Proofs.GridP3 Proofs.HistToolsP2 Proofs.GaussP2 Proofs.SystP5.
From Coq Require Import Lia.
Local Open Scope Qc_scope.
Local Open Scope res_scope.

Lemma keys_unit {A} (m : smap A) : skeys (map (fun e => (fst e, tt)) m) = skeys m.
Proof. unfold skeys. rewrite map_map. reflexivity. Qed.
Lemma sorted_eq (l1 l2 : list string) : StronglySorted slt l1 -> StronglySorted slt l2 -> (forall k, In k l1 <-> In k l2) -> l1 = l2.
Proof.
  intros W1 W2 H. assert (E : map (fun k => (k, tt)) l1 = map (fun k => (k, tt)) l2).
  { apply swf_ext.
    - unfold swf, skeys. rewrite map_map, map_id. exact W1.
    - unfold swf, skeys. rewrite map_map, map_id. exact W2.
    - intros k. assert (K : forall l, In k (skeys (map (fun k => (k, tt)) l)) <-> In k l) by (intros l; unfold skeys; rewrite map_map, map_id; tauto).
      destruct (sfind k (map (fun k => (k, tt)) l1)) as [[]|] eqn:E1, (sfind k (map (fun k => (k, tt)) l2)) as [[]|] eqn:E2; try reflexivity; exfalso.
      + apply sfind_not_in in E2. rewrite K in E2. apply E2, H, K. apply sfind_in. eauto.
      + apply sfind_not_in in E1. rewrite K in E1. apply E1, H, K. apply sfind_in. eauto. }
  apply (f_equal (map fst)) in E. rewrite !map_map, !map_id in E. exact E.
Qed.
Lemma same_keys_eq {A B} (a : smap A) (b : smap B) : swf a -> swf b -> (same_keys a b <-> skeys a = skeys b).
Proof. intros W1 W2. split; [intros H; now apply sorted_eq|intros E k; now rewrite E]. Qed.
Lemma hasSame {A B} (a : smap A) (b : smap B) : swf a -> swf b -> (hasSameKeys a b = true <-> same_keys a b).
Proof. intros W1 W2. unfold hasSameKeys. rewrite keys_eqb_eq, same_keys_eq by assumption. reflexivity. Qed.
Definition get0 (k : string) (d : smap Qc) : Qc := match sfind k d with Some v => v | None => 0 end.
Definition def0 (k : string) (d : smap Qc) : smap Qc := match sfind k d with Some _ => d | None => sset k 0 d end.
Lemma sub_eq k d : sub k d = (def0 k d, get0 k d).
Proof. unfold sub, def0, get0. destruct (sfind k d); reflexivity. Qed.
Lemma def0_find k k' d : sfind k (def0 k' d) = if String.eqb k k' then Some (get0 k d) else sfind k d.
Proof.
  unfold def0, get0. destruct (String.eqb_spec k k') as [->|N].
  - destruct (sfind k' d) eqn:E; [exact E|now rewrite sfind_sset_eq].
  - destruct (sfind k' d); [reflexivity|now apply sfind_sset_neq].
Qed.
Lemma def0_get k k' d : get0 k (def0 k' d) = get0 k d.
Proof. unfold get0 at 1. rewrite def0_find. destruct (String.eqb k k'); reflexivity. Qed.
Lemma def0_wf k d : swf d -> swf (def0 k d).
Proof. unfold def0. intros W. destruct (sfind k d); [exact W|now apply sset_wf]. Qed.
Lemma limits_ok names : forall mn mx, exists mn' mx' l, limits names mn mx = (mn', mx', l) /\
  l = map (fun n => Some (get0 n mn, get0 n mx)) names /\
  (forall k, sfind k mn' = if existsb (String.eqb k) names then Some (get0 k mn) else sfind k mn) /\
  (forall k, sfind k mx' = if existsb (String.eqb k) names then Some (get0 k mx) else sfind k mx) /\ (swf mn -> swf mn') /\ (swf mx -> swf mx').
Proof.
  induction names as [|n names IH]; intros mn mx; cbn [limits].
  - exists mn, mx, []. repeat split; auto.
  - rewrite !sub_eq. destruct (IH (def0 n mn) (def0 n mx)) as [a [b [l [-> [-> [Ha [Hb [Wa Wb]]]]]]]]. do 3 eexists. split; [reflexivity|]. split; [|split; [|split]].
    + cbn [map]. f_equal. apply map_ext. intros k. now rewrite !def0_get.
    + intros k. rewrite Ha, def0_get, def0_find. cbn [existsb]. destruct (String.eqb k n), (existsb (String.eqb k) names); reflexivity.
    + intros k. rewrite Hb, def0_get, def0_find. cbn [existsb]. destruct (String.eqb k n), (existsb (String.eqb k) names); reflexivity.
    + split; intros W; [apply Wa|apply Wb]; now apply def0_wf.
Qed.
Lemma existsb_in k l : existsb (String.eqb k) l = true <-> In k l.
Proof. rewrite existsb_exists. split; [intros [x [I E]]; apply String.eqb_eq in E; now subst|intros I; exists k; split; [exact I|apply String.eqb_refl]]. Qed.
Lemma range_check m : swf (mMin m) -> swf (mMax m) -> same_keys (mMin m) (mMax m) ->
  (existsb (fun e => qleb (snd (sub (fst e) (mMax m))) (snd e)) (mMin m) = false <-> ranges_ok m).
Proof.
  intros W1 W2 K. split.
  - intros E k lo hi F1 F2. destruct (Qclt_le_dec lo hi) as [L|L]; [exact L|]. exfalso. assert (X : existsb (fun e => qleb (snd (sub (fst e) (mMax m))) (snd e)) (mMin m) = true); [|congruence].
    apply existsb_exists. exists (k, lo). split; [now apply sfind_In|]. cbn [fst snd]. rewrite sub_eq. unfold get0. rewrite F2. cbn [snd]. now apply qleb_le.
  - intros R. destruct (existsb _ (mMin m)) eqn:E; [|reflexivity]. apply existsb_exists in E. destruct E as [[k lo] [I L]]. cbn [fst snd] in L. rewrite sub_eq in L. cbn [snd] in L.
    apply sfind_In in I; [|exact W1]. assert (J : In k (skeys (mMax m))) by (apply K, sfind_in; eauto). apply sfind_in in J. destruct J as [hi F]. unfold get0 in L. rewrite F in L.
    specialize (R _ _ _ I F). apply qleb_le in L. qlra.
Qed.
Lemma getValues_ok d ks : (forall k, In k ks -> In k (skeys d)) -> getValues d ks = Ok (map (fun k => get0 k d) ks).
Proof.
  unfold getValues. induction ks as [|k ks IH]; intros H; [reflexivity|]. unfold mapM in *. cbn [map seqM]. destruct (proj1 (sfind_in k d) (H k (or_introl eq_refl))) as [v F].
  unfold sat at 1. rewrite F. cbn [bind]. rewrite IH by (intros; apply H; now right). cbn [bind]. unfold get0. rewrite F. reflexivity.
Qed.
Lemma setValues_ok d ks vs : NoDup ks -> List.length vs = List.length ks -> swf d -> exists d', setValues d ks vs = Ok d' /\ swf d' /\
  (forall i, (i < List.length ks)%nat -> sfind (nth i ks ""%string) d' = Some (nth i vs 0)) /\ (forall k, ~ In k ks -> sfind k d' = sfind k d).
Proof.
  intros ND L W. unfold setValues. rewrite L, Nat.eqb_refl. cbn [negb]. eexists. split; [reflexivity|]. revert d vs L W ND. induction ks as [|k ks IH]; intros d [|v vs] L W ND; try discriminate.
  - cbn. split; [exact W|]. split; [intros; lia|reflexivity].
  - cbn [combine fold_left fst snd]. inversion ND as [|? ? Nk ND']; subst. injection L as L. destruct (IH (sset k v d) vs L (sset_wf _ _ _ W) ND') as [A [B C]]. split; [exact A|]. split.
    + intros [|i] Hi; cbn [nth]; [rewrite C by exact Nk; apply sfind_sset_eq|apply B; cbn in Hi; lia].
    + intros k' H. rewrite C by (intros X; apply H; now right). apply sfind_sset_neq. intros ->. apply H. now left.
Qed.
Lemma fixAll_ok names fixed : NoDup names -> (forall n, In n fixed -> In n names) -> exists l, fixAll names fixed = Ok l /\ List.length l = List.length fixed /\
  forall i, In i l <-> (i < List.length names)%nat /\ In (nth i names ""%string) fixed.
Proof.
  intros ND. induction fixed as [|n fixed IH]; intros H; unfold fixAll, mapM in *; cbn [map seqM]; [exists []; split; [reflexivity|]; split; [reflexivity|]; intros i; cbn; tauto|].
  assert (I := H n (or_introl eq_refl)). apply In_nth with (d := ""%string) in I. destruct I as [j [J1 J2]].
  assert (F : index_of n names = Some j).
  { apply index_of_first; [exact J1|exact J2|]. intros i Hi E. rewrite <- E in J2. apply (proj1 (NoDup_nth names ""%string) ND) in J2; lia. }
  rewrite F. cbn [bind]. destruct IH as [l [-> [L P]]]; [intros; apply H; now right|]. cbn [bind]. exists (j :: l). split; [reflexivity|]. split; [cbn; congruence|].
  intros i. cbn [In]. rewrite (P i). split.
  - intros [<-|[X Y]]; [split; [exact J1|left; congruence]|tauto].
  - intros [Hi [X|X]]; [left|now right]. rewrite X in J2. apply (proj1 (NoDup_nth names ""%string) ND) in J2; lia.
Qed.
Lemma fixAll_bad names fixed n : In n fixed -> ~ In n names -> fixAll names fixed = Throw LogicError.
Proof.
  unfold fixAll, mapM. induction fixed as [|x fixed IH]; [intros []|]. intros H N. cbn [map seqM]. destruct (index_of x names) as [i|] eqn:E; cbn [bind]; [|reflexivity].
  destruct H as [->|H]; [rewrite (index_of_notin _ _ N) in E; discriminate|]. rewrite (IH H N). reflexivity.
Qed.
Lemma known_bool s : (String.eqb s "Migrad" || String.eqb s "Minimize" || String.eqb s "Simplex")%bool = true <-> method_known s.
Proof. unfold method_known. rewrite !orb_true_iff, !String.eqb_eq. tauto. Qed.
(** CalcCovarianceMatrix *)
Lemma tri2 n : (2 * tri n = n * (n + 1))%nat.
Proof.
  unfold tri. assert (E : exists k, (n * (n + 1) = k * 2)%nat). { induction n as [|n [k IH]]; [exists 0%nat; reflexivity|]. exists (k + n + 1)%nat. nia. }
  destruct E as [k ->]. rewrite Nat.div_mul by lia. lia.
Qed.
Lemma calcCov_ok n v : List.length v = tri n -> exists c, calcCov v = Ok c /\ square c n /\
  forall j k, (k <= j < n)%nat -> m_get c j k = Ok (nth (tri j + k) v 0) /\ m_get c k j = Ok (nth (tri j + k) v 0).
Proof.
  intros L. unfold calcCov. rewrite L. assert (T := tri2 n). assert (S1 : Z.sqrt (8 * Z.of_nat (tri n) + 1) = (2 * Z.of_nat n + 1)%Z).
  { replace (8 * Z.of_nat (tri n) + 1)%Z with ((2 * Z.of_nat n + 1) * (2 * Z.of_nat n + 1))%Z by nia. apply Z.sqrt_square. lia. }
  rewrite S1. replace ((2 * Z.of_nat n + 1 - 1) / 2)%Z with (Z.of_nat n) by (replace (2 * Z.of_nat n + 1 - 1)%Z with (Z.of_nat n * 2)%Z by lia; now rewrite Z.div_mul).
  rewrite Nat2Z.id. destruct (SystP5.symmetric_pkg (mat_zeros n n) n v) as [_ H]; [repeat split|]. destruct (H L) as [c [-> [Q G]]]. exists c. auto.
Qed.
Lemma calcCov_bad v : (forall n, List.length v <> tri n) -> calcCov v = Throw DimensionError.
Proof.
  intros H. unfold calcCov. set (n := Z.to_nat _). destruct (SystP5.symmetric_pkg (mat_zeros n n) n v) as [E _]; [repeat split|]. rewrite (E (H n)). reflexivity.
Qed.
