(** Shift / Scale / ScaleFunction: the response matrix entry by entry, column sums, identity. *)
From Verif Require Import Base.Res Base.Num Base.SMap Model.Axis Model.Event Model.Hist Model.Matrix Model.Syst
  Spec.AxisSpec Spec.HistSpec Spec.SystSpec Proofs.AxisP Proofs.HistP Proofs.HistP2 Proofs.CutP Proofs.ParamP3 Proofs.SystP.
Local Open Scope Qc_scope.

(** * geometry of one axis *)
Lemma lows_mono a i j : built a -> contiguous a -> (i <= j < aNBins a)%nat -> lo_of a i <= lo_of a j.
Proof.
  intros Hb Hc H. destruct (built_facts _ Hb) as [Hn [Hl [Hh [_ [_ [Hll _]]]]]].
  assert (HS : sortedQ (aLow a)) by (apply sorted_step; intros k Hk; apply Hll; lia).
  apply HS. lia.
Qed.

Lemma below_findBin a x t : built a -> contiguous a -> (t < findBin a x)%nat -> hi_of a t <= x.
Proof.
  intros Hb Hc H. pose proof (contiguous_sorted a Hb Hc) as Hs.
  destruct (lower_bound_le_spec _ x Hs) as [H1 _]. apply H1.
  unfold findBin in H. destruct (Nat.eqb_spec (lower_bound_le (aHigh a) x) (aNBins a)); lia.
Qed.
Lemma above_findBin a x t : built a -> contiguous a -> (findBin a x < t < aNBins a)%nat -> x <= lo_of a t.
Proof.
  intros Hb Hc H. pose proof (contiguous_sorted a Hb Hc) as Hs.
  destruct (built_facts _ Hb) as [Hn [Hl [Hh _]]].
  destruct (lower_bound_le_spec _ x Hs) as [_ H2]. rewrite Hh in H2.
  pose proof (lower_bound_le_range (aHigh a) x) as Hr. rewrite Hh in Hr.
  assert (E : findBin a x = lower_bound_le (aHigh a) x).
  { unfold findBin in *. destruct (Nat.eqb_spec (lower_bound_le (aHigh a) x) (aNBins a)); lia. }
  specialize (H2 (findBin a x) ltac:(lia)). fold (hi_of a (findBin a x)) in H2.
  rewrite (Hc (findBin a x)) in H2 by lia.
  pose proof (lows_mono a (S (findBin a x)) t Hb Hc ltac:(lia)). qlra.
Qed.

Lemma overlap_outside a slo shi t : built a -> contiguous a -> slo < shi -> (t < aNBins a)%nat ->
  (t < findBin a slo \/ findBin a shi < t)%nat -> overlap slo shi (lo_of a t) (hi_of a t) = 0.
Proof.
  intros Hb Hc Hs Ht [H|H].
  - pose proof (below_findBin a slo t Hb Hc H). minmax; qlra.
  - pose proof (above_findBin a shi t Hb Hc ltac:(lia)). minmax; qlra.
Qed.

Lemma overlap_split x y p q r : x <= y -> p <= q -> q <= r ->
  overlap x y p q + overlap x y q r = overlap x y p r.
Proof. intros. minmax; qlra. Qed.

Lemma overlap_sum a x y : built a -> contiguous a -> x <= y ->
  qsum (map (fun t => overlap x y (lo_of a t) (hi_of a t)) (seq 0 (aNBins a))) = overlap x y (aMin a) (aMax a).
Proof.
  intros Hb Hc Hxy. destruct (built_facts _ Hb) as [Hn [Hl [Hh [_ [_ [Hll [Hle [-> ->]]]]]]]].
  assert (G : forall k, (k < aNBins a)%nat ->
    qsum (map (fun t => overlap x y (lo_of a t) (hi_of a t)) (seq 0 (S k))) = overlap x y (lo_of a 0) (hi_of a k)).
  { induction k as [|k IH]; intros Hk.
    - cbn. ring.
    - rewrite seq_S, map_app, qsum_app, IH by lia. cbn [map qsum plus].
      rewrite <- (Hc k Hk). 
      replace (overlap x y (hi_of a k) (hi_of a (S k)) + 0) with (overlap x y (hi_of a k) (hi_of a (S k))) by ring.
      apply overlap_split; [exact Hxy| |].
      + pose proof (lows_mono a 0 k Hb Hc ltac:(lia)). pose proof (Hle k ltac:(lia)). qlra.
      + rewrite (Hc k Hk). apply Hle. exact Hk. }
  replace (aNBins a) with (S (aNBins a - 1)) at 1 by lia. apply G. lia.
Qed.

(** * index tuples *)
Lemma upd_in_shape nb : forall J ax t, in_shape nb J -> (t < nth ax nb 0)%nat -> in_shape nb (upd J ax t).
Proof.
  unfold in_shape. induction nb as [|n nb IH]; intros J ax t H Ht.
  - inversion H; subst. destruct ax; cbn in *; lia.
  - inversion H as [|j ? J' ? Hj H']; subst. destruct ax as [|ax]; cbn in Ht |- *; constructor; auto.
Qed.
Lemma agree_upd ax I J : List.length I = List.length J -> (ax < List.length J)%nat -> agree_off ax I J ->
  I = upd J ax (nth ax I 0%nat).
Proof.
  intros Hl Ha H. apply (nth_ext _ _ 0%nat 0%nat); [now rewrite upd_length|]. intros k Hk.
  rewrite nth_upd by exact Ha. destruct (Nat.eqb_spec k ax) as [->|Hne]; [reflexivity|]. apply H. exact Hne.
Qed.
Lemma upd_agree ax J t : agree_off ax (upd J ax t) J.
Proof.
  intros k Hk. revert ax k Hk. induction J as [|j J IH]; intros [|ax] [|k] Hk; cbn; try reflexivity; try congruence.
  apply IH. congruence.
Qed.

Fixpoint agreeb (ax : nat) (I J : list nat) {struct I} : bool :=
  match I, J with
  | i :: I', j :: J' => match ax with 0%nat => nlist_eqb I' J' | S ax' => Nat.eqb i j && agreeb ax' I' J' end
  | [], [] => true
  | _, _ => false
  end.
Lemma nlist_eqb_eq a b : nlist_eqb a b = true <-> a = b.
Proof. unfold nlist_eqb. destruct (list_eq_dec Nat.eq_dec a b); split; congruence. Qed.
Lemma nlist_eqb_refl a : nlist_eqb a a = true.
Proof. now apply nlist_eqb_eq. Qed.
Lemma agreeb_spec I : forall ax J, List.length I = List.length J -> agreeb ax I J = true <-> agree_off ax I J.
Proof.
  induction I as [|i I IH]; intros ax [|j J] Hl; cbn in Hl; try discriminate.
  - cbn. split; [intros _ k _; reflexivity|reflexivity].
  - injection Hl as Hl. destruct ax as [|ax]; cbn [agreeb].
    + rewrite nlist_eqb_eq. split.
      * intros -> [|k] Hk; [congruence|reflexivity].
      * intros H. apply (nth_ext _ _ 0%nat 0%nat); [exact Hl|]. intros k _. apply (H (S k)). congruence.
    + rewrite andb_true_iff, Nat.eqb_eq, IH by exact Hl. split.
      * intros [-> H] [|k] Hk; [reflexivity|]. cbn. apply H. congruence.
      * intros H. split; [apply (H 0%nat); congruence|]. intros k Hk. apply (H (S k)). congruence.
Qed.

Lemma qsum_flat_map {A B} (f : B -> Qc) (g : A -> list B) l :
  qsum (map f (flat_map g l)) = qsum (map (fun a => qsum (map f (g a))) l).
Proof. induction l as [|a l IH]; cbn; [reflexivity|]. now rewrite map_app, qsum_app, IH. Qed.

Lemma tuples_single s : forall J c, in_shape s J ->
  qsum (map (fun I => if nlist_eqb I J then c else 0) (tuples s)) = c.
Proof.
  induction s as [|n s IH]; intros J c H.
  - inversion H; subst. cbn. ring.
  - inversion H as [|j ? J' ? Hj H']; subst. cbn [tuples]. rewrite qsum_flat_map.
    etransitivity; [|apply (qsum_seq_single (fun _ => c) j n 0); lia]. apply qsum_map_ext. intros i _.
    rewrite map_map. destruct (Nat.eqb_spec i j) as [->|Hne].
    + etransitivity; [|apply (IH J' c H')]. apply qsum_map_ext. intros I' _.
      destruct (nlist_eqb I' J') eqn:E.
      * apply nlist_eqb_eq in E. subst. now rewrite nlist_eqb_refl.
      * destruct (nlist_eqb (j :: I') (j :: J')) eqn:E2; [|reflexivity].
        apply nlist_eqb_eq in E2. injection E2 as ->. rewrite nlist_eqb_refl in E. discriminate.
    + apply qsum_map_0. intros I' _. destruct (nlist_eqb (i :: I') (j :: J')) eqn:E2; [|reflexivity].
      apply nlist_eqb_eq in E2. congruence.
Qed.

Lemma tuples_line s : forall ax J (f : nat -> Qc), in_shape s J -> (ax < List.length s)%nat ->
  qsum (map (fun I => if agreeb ax I J then f (nth ax I 0%nat) else 0) (tuples s)) =
  qsum (map f (seq 0 (nth ax s 0%nat))).
Proof.
  induction s as [|n s IH]; intros ax J f H Ha; [cbn in Ha; lia|].
  inversion H as [|j ? J' ? Hj H']; subst. cbn [tuples]. rewrite qsum_flat_map.
  destruct ax as [|ax].
  - cbn [nth]. apply qsum_map_ext. intros i _. rewrite map_map. cbn [agreeb nth].
    apply (tuples_single s J' (f i) H').
  - cbn [nth]. rewrite <- (IH ax J' f H') by (cbn in Ha; lia).
    etransitivity; [|apply (qsum_seq_single (fun _ => qsum (map (fun I => if agreeb ax I J' then f (nth ax I 0%nat) else 0) (tuples s))) j n 0); lia].
    apply qsum_map_ext. intros i _. rewrite map_map. cbn [agreeb nth].
    destruct (Nat.eqb_spec i j) as [->|Hne]; cbn [andb]; [reflexivity|]. apply qsum_map_0. reflexivity.
Qed.

(** * the cached maps *)
Lemma relidx1 dn tn ax : NoDup dn -> nth_error dn ax = Some tn ->
  relativeIndices (mk_obsset [tn]) (mk_obsset dn) = Ok [ax] /\ os_index (mk_obsset dn) tn = Ok ax.
Proof.
  intros Hnd He. assert (Hi : index_of tn dn = Some ax).
  { pose proof (index_of_spec tn dn) as H. destruct (index_of tn dn) as [i|].
    - destruct H as [H _]. f_equal. apply (proj1 (NoDup_nth_error dn) Hnd).
      + apply nth_error_Some. congruence.
      + congruence.
    - exfalso. apply H. now apply nth_error_In in He. }
  assert (Ho : os_index (mk_obsset dn) tn = Ok ax) by (rewrite os_index_ok, Hi by exact Hnd; reflexivity).
  split; [|exact Ho]. unfold relativeIndices. cbn [osNames mk_obsset List.length].
  destruct (Nat.ltb_spec (List.length dn) 1) as [C|_].
  - destruct dn; [destruct ax; discriminate|cbn in C; lia].
  - change (mapM (os_index (mk_obsset dn)) [tn] = Ok [ax]). unfold mapM. cbn [map seqM]. rewrite Ho. reflexivity.
Qed.

Lemma nth_nth_map {A B} (f : A -> nat -> B) (l : list A) i j n d d' d0 :
  (i < List.length l)%nat -> (j < n)%nat ->
  nth j (nth i (map (fun a => map (f a) (seq 0 n)) l) d0) d = f (nth i l d') j.
Proof.
  intros Hi Hj. rewrite (nth_map2 _ _ _ d') by exact Hi.
  rewrite (nth_map2 _ _ _ 0%nat) by (rewrite seq_length; exact Hj). now rewrite seq_nth.
Qed.
