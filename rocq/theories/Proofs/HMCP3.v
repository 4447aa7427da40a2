(** C48: the reflection loop is billiard motion. *)
From Coq Require Import ZArith QArith.Qround.
From Verif Require Import Base.Res Base.Num Base.SMap Model.Hist Model.MCMC Model.HMC Spec.HMCSpec Proofs.MCMCP3 Proofs.HMCP Proofs.HMCP2.
From Coq Require Import Lia.
Local Open Scope Qc_scope.
Local Open Scope res_scope.

Lemma qz_add a b : qz (a + b) = qz a + qz b.
Proof. apply Qc_is_canon. cbn [this Qcplus qz Q2Qc]. rewrite !Qred_correct. rewrite inject_Z_plus. reflexivity. Qed.
Lemma qz_1 : qz 1 = 1. Proof. reflexivity. Qed.
Lemma qz_m1 : qz (-1) = - (1). Proof. apply Qc_is_canon. reflexivity. Qed.
Lemma qz_le a b : (a <= b)%Z <-> qz a <= qz b.
Proof. unfold Qcle, qz, Q2Qc, this. rewrite !Qred_correct. rewrite Zle_Qle. reflexivity. Qed.
Lemma turned_succ z p : turned (z + 1) p = - turned z p.
Proof. unfold turned. rewrite Z.even_add. cbn [Z.even Bool.eqb]. destruct (Z.even z); cbn; ring. Qed.
Lemma turned_pred z p : turned (z - 1) p = - turned z p.
Proof. unfold turned. rewrite Z.even_sub. cbn [Z.even Bool.eqb]. destruct (Z.even z); cbn; ring. Qed.
Lemma turned_vel z p m : turned z p / m = turned z (p / m).
Proof. unfold turned. destruct (Z.even z); [reflexivity|]. unfold Qcdiv. ring. Qed.
Lemma folded_shift lo hi u z s v : folded lo hi u z + s * turned z v = folded lo hi (u + s * v) z.
Proof. unfold folded, turned. destruct (Z.even z); ring. Qed.
Lemma folded_in lo hi u z : lo + qz z * (hi - lo) <= u -> u <= lo + qz (z + 1) * (hi - lo) -> lo <= folded lo hi u z /\ folded lo hi u z <= hi.
Proof.
  rewrite qz_add, qz_1. intros H1 H2. assert (H3 : u <= qz z * (hi - lo) + hi).
  { replace (qz z * (hi - lo) + hi) with (lo + (qz z + 1) * (hi - lo)) by ring. exact H2. }
  unfold folded. set (a := qz z * (hi - lo)) in *. clearbody a. clear H2. destruct (Z.even z); split; qlra.
Qed.
Lemma folded_out lo hi u z : lo <= folded lo hi u z -> folded lo hi u z <= hi -> lo + qz z * (hi - lo) <= u /\ u <= lo + qz (z + 1) * (hi - lo).
Proof.
  rewrite qz_add, qz_1. replace (lo + (qz z + 1) * (hi - lo)) with (qz z * (hi - lo) + hi) by ring.
  unfold folded. set (a := qz z * (hi - lo)) in *. clearbody a. destruct (Z.even z); intros; split; qlra.
Qed.
(** the wall ahead, seen unfolded *)
Lemma folded_ahead lo hi u z v : (0 < v -> u < lo + qz (z + 1) * (hi - lo)) -> (v < 0 -> lo + qz z * (hi - lo) < u) ->
  (0 < turned z v -> folded lo hi u z < hi) /\ (turned z v < 0 -> lo < folded lo hi u z).
Proof.
  rewrite qz_add, qz_1. replace (lo + (qz z + 1) * (hi - lo)) with (qz z * (hi - lo) + hi) by ring.
  unfold folded, turned. set (a := qz z * (hi - lo)) in *. clearbody a. destruct (Z.even z); intros H1 H2; split; intros H.
  - specialize (H1 H). qlra.
  - specialize (H2 H). qlra.
  - assert (Hv : v < 0) by qlra. specialize (H2 Hv). qlra.
  - assert (Hv : 0 < v) by qlra. specialize (H1 Hv). qlra.
Qed.
Lemma folded_hit lo hi u z v : v <> 0 -> (0 < turned z v -> folded lo hi u z = hi) -> (turned z v < 0 -> folded lo hi u z = lo) ->
  (0 < v -> u = lo + qz (z + 1) * (hi - lo)) /\ (v < 0 -> u = lo + qz z * (hi - lo)).
Proof.
  intros Nv. rewrite qz_add, qz_1. replace (lo + (qz z + 1) * (hi - lo)) with (qz z * (hi - lo) + hi) by ring.
  unfold folded, turned. set (a := qz z * (hi - lo)) in *. clearbody a. destruct (Z.even z); intros H1 H2; split; intros H.
  - specialize (H1 H). qlra.
  - specialize (H2 H). qlra.
  - assert (Hv : - v < 0) by qlra. specialize (H2 Hv). qlra.
  - assert (Hv : 0 < - v) by qlra. specialize (H1 Hv). qlra.
Qed.
Lemma folded_flip lo hi z : forall u, u = lo + qz (z + 1) * (hi - lo) -> folded lo hi u (z + 1) = folded lo hi u z.
Proof. intros u ->. unfold folded. rewrite Z.even_add. cbn [Z.even]. rewrite !qz_add, qz_1. destruct (Z.even z); cbn [Bool.eqb]; ring. Qed.
Lemma folded_flip' lo hi z : forall u, u = lo + qz z * (hi - lo) -> folded lo hi u (z - 1) = folded lo hi u z.
Proof.
  intros u ->. unfold folded. rewrite Z.even_sub. cbn [Z.even]. unfold Z.sub. rewrite !qz_add.
  change (- (1))%Z with (-1)%Z. rewrite qz_m1. destruct (Z.even z); cbn [Bool.eqb]; ring.
Qed.

Section Loop.
Variables (M mi ma qs ps : smap Qc) (eps : Qc).
Hypothesis (Hwq : swf qs) (Hwp : swf ps) (Hp : forall k, In k (skeys qs) -> In k (skeys ps)) (Hm : has_masses M qs)
  (Hb : inside mi ma qs) (Hne : ~ In ""%string (skeys qs)) (He : 0 <= eps) (HL : not_leaving M mi ma qs ps) (HC : no_corner M mi ma qs ps eps).

Local Notation lo := (fun k => val k mi).
Local Notation hi := (fun k => val k ma).
Local Notation V := (vel M ps).
Local Notation U := (free M qs ps).

Definition cell (z : Z) (t : Qc) (k : string) : Prop :=
  val k mi + qz z * (val k ma - val k mi) <= U k t /\ U k t <= val k mi + qz (z + 1) * (val k ma - val k mi) /\
  (0 < V k -> U k t < val k mi + qz (z + 1) * (val k ma - val k mi)) /\ (V k < 0 -> val k mi + qz z * (val k ma - val k mi) < U k t) /\
  (V k = 0 -> z = 0%Z) /\ (0 < V k -> (0 <= z)%Z) /\ (V k < 0 -> (z <= 0)%Z).
Definition Inv (z : string -> Z) (t : Qc) (q p : smap Qc) : Prop :=
  skeys q = skeys qs /\ skeys p = skeys ps /\ swf q /\ swf p /\ 0 <= t /\ (t = 0 \/ t < eps) /\
  (forall k, ~ In k (skeys qs) -> sfind k p = sfind k ps) /\
  forall k, In k (skeys qs) -> cell (z k) t k /\
    sfind k q = Some (folded (val k mi) (val k ma) (U k t) (z k)) /\ sfind k p = Some (turned (z k) (val k ps)).

Lemma box_keys k : In k (skeys qs) -> In k (skeys mi) /\ In k (skeys ma) /\ val k mi <= val k qs /\ val k qs <= val k ma.
Proof.
  intros Hk. destruct (Hb k Hk) as [a [b [E1 [E2 [H1 H2]]]]]. rewrite (val_find _ _ _ E1), (val_find _ _ _ E2).
  repeat split; auto; apply sfind_in; eauto.
Qed.
Lemma Inv_start : Inv (fun _ => 0%Z) 0 qs ps.
Proof.
  do 4 (split; [auto|]). split; [apply Qcle_refl|]. split; [now left|]. split; [auto|]. intros k Hk.
  destruct (box_keys k Hk) as [_ [_ [B1 B2]]]. destruct (HL k Hk) as [L1 L2].
  assert (Eu : U k 0 = val k qs) by (unfold free; ring).
  unfold cell. rewrite Eu. change (0 + 1)%Z with 1%Z. rewrite qz_1.
  assert (E0 : qz 0 = 0) by reflexivity. rewrite E0.
  replace (val k mi + 0 * (val k ma - val k mi)) with (val k mi) by ring.
  replace (val k mi + 1 * (val k ma - val k mi)) with (val k ma) by ring.
  split; [repeat split; auto; intros; reflexivity|].
  unfold folded, turned. cbn [Z.even]. rewrite E0. split.
  - replace (val k qs - 0 * (val k ma - val k mi)) with (val k qs) by ring.
    apply sfind_in in Hk. destruct Hk as [v Hv]. rewrite (val_find _ _ _ Hv). exact Hv.
  - apply Hp in Hk. apply sfind_in in Hk. destruct Hk as [v Hv]. rewrite (val_find _ _ _ Hv). exact Hv.
Qed.
Lemma Inv_vel z t q p k : Inv z t q p -> In k (skeys qs) -> vel M p k = turned (z k) (V k).
Proof.
  intros [_ [_ [_ [_ [_ [_ [_ H]]]]]]] Hk. destruct (H k Hk) as [_ [_ E]]. unfold vel. rewrite (val_find _ _ _ E). apply turned_vel.
Qed.
Lemma Inv_good z t q p : Inv z t q p -> forall k, In k (skeys q) -> good M mi ma q p k.
Proof.
  intros I k Hk. pose proof I as [K1 [K2 [_ [_ [_ [_ [_ H]]]]]]]. rewrite K1 in Hk. destruct (H k Hk) as [[C1 [C2 [C3 [C4 _]]]] [E1 E2]].
  destruct (box_keys k Hk) as [B1 [B2 _]]. unfold good. rewrite K2, (Inv_vel _ _ _ _ _ I Hk), (val_find _ _ _ E1).
  split; [now apply Hp|]. split; [now apply Hm|]. split; [exact B1|]. split; [exact B2|].
  destruct (folded_in _ _ _ _ C1 C2) as [F1 F2]. split; [exact F1|]. split; [exact F2|]. exact (folded_ahead _ _ _ _ _ C3 C4).
Qed.
(** positions after a further time s without reflection *)
Lemma Inv_moved z t q p s k : Inv z t q p -> In k (skeys qs) ->
  sfind k (moved s M q p) = Some (folded (val k mi) (val k ma) (U k (t + s)) (z k)).
Proof.
  intros I Hk. pose proof I as [_ [_ [_ [_ [_ [_ [_ H]]]]]]]. destruct (H k Hk) as [_ [E1 E2]]. unfold moved.
  rewrite (sfind_map (fun e => snd e + s * val (fst e) p / val (fst e) M)), E1. cbn [fst snd]. f_equal.
  transitivity (folded (val k mi) (val k ma) (U k t) (z k) + s * turned (z k) (V k)).
  - rewrite <- (Inv_vel _ _ _ _ _ I Hk). unfold vel, Qcdiv. ring.
  - rewrite folded_shift. unfold free. f_equal. ring.
Qed.
Lemma swf_keys {A B} (a : smap A) (b : smap B) : skeys a = skeys b -> swf b -> swf a.
Proof. unfold swf. intros ->. auto. Qed.

Definition bump (d : string) (s : Z) (z : string -> Z) (k : string) : Z := if String.eqb k d then (z k + s)%Z else z k.
Lemma Inv_step z t q p d s : Inv z t q p -> In d (skeys qs) -> 0 < s -> t + s < eps -> vel M p d <> 0 ->
  (0 < vel M p d -> val d q + s * vel M p d = val d ma) -> (vel M p d < 0 -> val d q + s * vel M p d = val d mi) ->
  (forall k, In k (skeys q) -> stays M mi ma q p s k) ->
  exists j, (j = 1 \/ j = -1)%Z /\ (j = 1 -> 0 <= z d)%Z /\ (j = -1 -> z d <= 0)%Z /\
    Inv (bump d j z) (t + s) (moved s M q p) (sset d (- val d p) p).
Proof.
  intros I Hd Hs Hts Nv W1 W2 Hst. pose proof I as [K1 [K2 [Wq [Wp [Ht [_ [Hout H]]]]]]].
  destruct (H d Hd) as [[C1 [C2 [C3 [C4 [C5 [C6 C7]]]]]] [E1 E2]].
  assert (Hvd : vel M p d = turned (z d) (V d)) by exact (Inv_vel _ _ _ _ _ I Hd).
  assert (NV : V d <> 0). { intros C. apply Nv. rewrite Hvd, C. unfold turned. destruct (Z.even (z d)); ring. }
  assert (Hpos : val d q + s * vel M p d = folded (val d mi) (val d ma) (U d (t + s)) (z d)).
  { rewrite (val_find _ _ _ E1), Hvd, folded_shift. unfold free. f_equal. ring. }
  rewrite Hpos, Hvd in W1, W2. destruct (folded_hit _ _ _ _ _ NV W1 W2) as [G1 G2].
  assert (Hts0 : 0 < t + s) by qlra.
  (* the width of the box of d is positive *)
  assert (Hw : 0 < val d ma - val d mi).
  { destruct (box_keys d Hd) as [_ [_ [B1 B2]]]. destruct (Qc_dec (V d) 0) as [[Hv|Hv]|Hv]; [| |contradiction].
    - specialize (C4 Hv). rewrite qz_add, qz_1 in C2. set (a := qz (z d)) in *.
      assert (E : val d mi + (a + 1) * (val d ma - val d mi) = val d mi + a * (val d ma - val d mi) + (val d ma - val d mi)) by ring.
      rewrite E in C2. set (b := val d mi + a * (val d ma - val d mi)) in *. clearbody b. qlra.
    - specialize (C3 Hv). rewrite qz_add, qz_1 in C3. set (a := qz (z d)) in *.
      assert (E : val d mi + (a + 1) * (val d ma - val d mi) = val d mi + a * (val d ma - val d mi) + (val d ma - val d mi)) by ring.
      rewrite E in C3. set (b := val d mi + a * (val d ma - val d mi)) in *. clearbody b. qlra. }
  assert (Hwall : at_wall M mi ma qs ps d (t + s)).
  { destruct (Qc_dec (V d) 0) as [[Hv|Hv]|Hv]; [exists (z d)| exists (z d + 1)%Z|contradiction]; auto. }
  assert (Hother : forall k, In k (skeys qs) -> k <> d -> cell (z k) (t + s) k).
  { intros k Hk Hkd. destruct (H k Hk) as [[D1 [D2 [D3 [D4 [D5 [D6 D7]]]]]] [F1 F2]].
    assert (Hk2 : In k (skeys q)) by (rewrite K1; exact Hk). destruct (Hst k Hk2) as [S1 S2].
    rewrite (Inv_vel _ _ _ _ _ I Hk), (val_find _ _ _ F1), folded_shift in S1, S2.
    assert (EU : U k t + s * V k = U k (t + s)) by (unfold free; ring). rewrite EU in S1, S2.
    destruct (folded_out _ _ _ _ S1 S2) as [T1 T2].
    assert (Hnw : V k <> 0 -> forall x, U k (t + s) <> val k mi + qz x * (val k ma - val k mi)).
    { intros Hv x Hx. refine (HC d k (t + s) Hd Hk _ NV Hv Hts0 Hts Hwall _); [congruence|]. exists x. exact Hx. }
    unfold cell. split; [exact T1|]. split; [exact T2|]. split; [|split; [|auto]].
    - intros Hv. apply Qcle_lt_or_eq in T2. destruct T2 as [T2|T2]; [exact T2|]. exfalso.
      refine (Hnw _ _ T2). intros C. rewrite C in Hv. exact (Qclt_not_eq _ _ Hv eq_refl).
    - intros Hv. apply Qcle_lt_or_eq in T1. destruct T1 as [T1|T1]; [exact T1|]. exfalso. symmetry in T1.
      refine (Hnw _ _ T1). intros C. rewrite C in Hv. exact (Qclt_not_eq _ _ Hv eq_refl). }
  assert (Hdp : In d (skeys p)) by (rewrite K2; now apply Hp).
  assert (Hbuild : forall j, cell (z d + j) (t + s) d ->
     folded (val d mi) (val d ma) (U d (t + s)) (z d + j) = folded (val d mi) (val d ma) (U d (t + s)) (z d) ->
     turned (z d + j) (val d ps) = - turned (z d) (val d ps) ->
     Inv (bump d j z) (t + s) (moved s M q p) (sset d (- val d p) p)).
  { intros j Hc Hf Htu. split; [rewrite skeys_moved; exact K1|]. split; [rewrite sset_keys_id by assumption; exact K2|].
    split; [apply (swf_keys _ q); [apply skeys_moved|exact Wq]|]. split; [apply sset_wf; exact Wp|]. split; [now apply Qclt_le_weak|]. split; [now right|].
    split. { intros k Hk. rewrite sfind_sset_neq; [now apply Hout|]. intros ->. contradiction. }
    intros k Hk. unfold bump. destruct (String.eqb_spec k d) as [->|Hkd].
    - split; [exact Hc|]. split; [rewrite (Inv_moved z t q p s d I Hd), Hf; reflexivity|].
      rewrite sfind_sset_eq, (val_find _ _ _ E2), Htu. reflexivity.
    - split; [now apply Hother|]. split; [exact (Inv_moved z t q p s k I Hk)|]. rewrite sfind_sset_neq by exact Hkd. exact (proj2 (proj2 (H k Hk))). }
  destruct (Qc_dec (V d) 0) as [[Hv|Hv]|Hv]; [| |contradiction].
  - exists (-1)%Z. split; [now right|]. split; [discriminate|]. split; [intros _; exact (C7 Hv)|].
    specialize (G2 Hv). apply Hbuild.
    + unfold cell. rewrite G2. replace (z d + -1 + 1)%Z with (z d) by lia. rewrite qz_add, qz_m1.
      assert (E : val d mi + (qz (z d) + - (1)) * (val d ma - val d mi) = val d mi + qz (z d) * (val d ma - val d mi) - (val d ma - val d mi)) by ring.
      rewrite E. set (b := val d mi + qz (z d) * (val d ma - val d mi)) in *. clearbody b. repeat split.
      * qlra.
      * apply Qcle_refl.
      * intros; exfalso; qlra.
      * intros _; qlra.
      * intros C; rewrite C in Hv; exfalso; exact (Qclt_not_eq _ _ Hv eq_refl).
      * intros; exfalso; qlra.
      * intros _. specialize (C7 Hv). lia.
    + apply folded_flip'. exact G2.
    + apply (turned_pred (z d)).
  - exists 1%Z. split; [now left|]. split; [intros _; exact (C6 Hv)|]. split; [discriminate|].
    specialize (G1 Hv). apply Hbuild.
    + unfold cell. rewrite G1. rewrite (qz_add (z d + 1) 1), qz_1.
      assert (E : val d mi + (qz (z d + 1) + 1) * (val d ma - val d mi) = val d mi + qz (z d + 1) * (val d ma - val d mi) + (val d ma - val d mi)) by ring.
      rewrite E. set (b := val d mi + qz (z d + 1) * (val d ma - val d mi)) in *. clearbody b. repeat split.
      * apply Qcle_refl.
      * qlra.
      * intros _; qlra.
      * intros; exfalso; qlra.
      * intros C; rewrite C in Hv; exfalso; exact (Qclt_not_eq _ _ Hv eq_refl).
      * intros _. specialize (C6 Hv). lia.
      * intros; exfalso; qlra.
    + apply folded_flip. exact G1.
    + apply turned_succ.
Qed.

(** number of reflections so far *)
Fixpoint total (z : string -> Z) (L : list string) : nat := match L with [] => 0%nat | k :: t => (Z.abs_nat (z k) + total z t)%nat end.
Lemma total_other d j z L : ~ In d L -> total (bump d j z) L = total z L.
Proof.
  induction L as [|k L IH]; intros H; cbn [total]; [reflexivity|]. rewrite IH by (intros C; apply H; now right). unfold bump.
  destruct (String.eqb_spec k d) as [->|_]; [exfalso; apply H; now left|reflexivity].
Qed.
Lemma total_bump d j z L : NoDup L -> In d L -> (j = 1 \/ j = -1)%Z -> (j = 1 -> 0 <= z d)%Z -> (j = -1 -> z d <= 0)%Z ->
  total (bump d j z) L = S (total z L).
Proof.
  intros Hn Hin Hj H1 H2. induction Hn as [|k L Hk Hn IH]; [destruct Hin|]. cbn [total]. destruct Hin as [->|Hin].
  - rewrite total_other by exact Hk. unfold bump. rewrite String.eqb_refl. destruct Hj as [->| ->]; [specialize (H1 eq_refl)|specialize (H2 eq_refl)]; lia.
  - rewrite (IH Hin). unfold bump. destruct (String.eqb_spec k d) as [->|_]; [contradiction|lia].
Qed.
Lemma nat_above (x : Qc) : exists n, x <= qn n.
Proof.
  exists (Z.to_nat (Qceiling (this x))). unfold Qcle, qn, qz, Q2Qc, this at 2. rewrite Qred_correct.
  eapply Qle_trans; [apply Qle_ceiling|]. rewrite <- Zle_Qle. lia.
Qed.
Lemma cell_bound k : In k (skeys qs) -> exists b, forall z t, 0 <= t -> t <= eps -> cell z t k -> (Z.abs_nat z <= b)%nat.
Proof.
  intros Hk. destruct (box_keys k Hk) as [_ [_ [B1 B2]]]. destruct (Qc_dec (V k) 0) as [[Hv|Hv]|Hv].
  - destruct (Qclt_le_dec 0 (val k ma - val k mi)) as [Hw|Hw].
    + destruct (nat_above ((val k ma - val k mi - eps * V k) / (val k ma - val k mi))) as [n Hn]. exists n.
      intros z t Ht0 Ht [C1 [C2 [_ [_ [_ [_ C7]]]]]]. specialize (C7 Hv).
      assert (Hn2 : val k ma - val k mi - eps * V k <= qn n * (val k ma - val k mi)).
      { set (w := val k ma - val k mi) in *. assert (E : (w - eps * V k) / w * w = w - eps * V k) by (field; intros C; rewrite C in Hw; exact (Qclt_not_eq _ _ Hw eq_refl)).
        rewrite <- E. apply Qcmult_le_compat_r; [exact Hn|now apply Qclt_le_weak]. }
      rewrite qz_add, qz_1 in C2. unfold free in C2.
      assert (Ht2 : eps * V k <= t * V k) by (clear -Ht Hv; qnra).
      assert (Hz : - qz z * (val k ma - val k mi) <= qn n * (val k ma - val k mi)).
      { eapply Qcle_trans; [|exact Hn2]. set (w := val k ma - val k mi) in *. set (a := qz z) in *.
        assert (E1 : (a + 1) * w = a * w + w) by ring. rewrite E1 in C2. assert (E2 : - a * w = - (a * w)) by ring. rewrite E2.
        set (aw := a * w) in *. set (ev := eps * V k) in *. set (tv := t * V k) in *. unfold w in *. clearbody aw ev tv. qlra. }
      assert (Hz2 : - qz z <= qn n).
      { destruct (Qclt_le_dec (qn n) (- qz z)) as [C|C]; [|exact C]. exfalso. apply (Qclt_not_le _ _ (Qcmult_lt_compat_r _ _ _ Hw C)). exact Hz. }
      assert (E : - qz z = qz (- z)). { apply Qc_is_canon. cbn [this Qcopp qz Q2Qc]. rewrite !Qred_correct, inject_Z_opp. reflexivity. }
      rewrite E in Hz2. apply qz_le in Hz2. lia.
    + exists 0%nat. intros z t _ _ [C1 [C2 [_ [C4 _]]]]. specialize (C4 Hv). exfalso.
      rewrite qz_add, qz_1 in C2. set (a := qz z) in *. assert (E1 : (a + 1) * (val k ma - val k mi) = a * (val k ma - val k mi) + (val k ma - val k mi)) by ring. rewrite E1 in C2.
      set (aw := a * (val k ma - val k mi)) in *. clearbody aw. qlra.
  - destruct (Qclt_le_dec 0 (val k ma - val k mi)) as [Hw|Hw].
    + destruct (nat_above ((val k ma - val k mi + eps * V k) / (val k ma - val k mi))) as [n Hn]. exists n.
      intros z t Ht0 Ht [C1 [C2 [_ [_ [_ [C6 _]]]]]]. specialize (C6 Hv).
      assert (Hn2 : val k ma - val k mi + eps * V k <= qn n * (val k ma - val k mi)).
      { set (w := val k ma - val k mi) in *. assert (E : (w + eps * V k) / w * w = w + eps * V k) by (field; intros C; rewrite C in Hw; exact (Qclt_not_eq _ _ Hw eq_refl)).
        rewrite <- E. apply Qcmult_le_compat_r; [exact Hn|now apply Qclt_le_weak]. }
      unfold free in C1.
      assert (Ht2 : t * V k <= eps * V k) by (clear -Ht Hv; qnra).
      assert (Hz : qz z * (val k ma - val k mi) <= qn n * (val k ma - val k mi)).
      { eapply Qcle_trans; [|exact Hn2].
        set (aw := qz z * (val k ma - val k mi)) in *. set (ev := eps * V k) in *. set (tv := t * V k) in *. clearbody aw ev tv. qlra. }
      assert (Hz2 : qz z <= qn n).
      { destruct (Qclt_le_dec (qn n) (qz z)) as [C|C]; [|exact C]. exfalso. apply (Qclt_not_le _ _ (Qcmult_lt_compat_r _ _ _ Hw C)). exact Hz. }
      apply qz_le in Hz2. lia.
    + exists 0%nat. intros z t _ _ [C1 [_ [C3 _]]]. specialize (C3 Hv). exfalso.
      rewrite qz_add, qz_1 in C3. set (a := qz z) in *. assert (E1 : (a + 1) * (val k ma - val k mi) = a * (val k ma - val k mi) + (val k ma - val k mi)) by ring. rewrite E1 in C3.
      set (aw := a * (val k ma - val k mi)) in *. clearbody aw. qlra.
  - exists 0%nat. intros z t _ _ [_ [_ [_ [_ [C5 _]]]]]. rewrite (C5 Hv). cbn. lia.
Qed.
Lemma total_bound : exists N, forall z t q p, Inv z t q p -> (total z (skeys qs) <= N)%nat.
Proof.
  assert (H : forall L, incl L (skeys qs) -> exists N, forall z t q p, Inv z t q p -> (total z L <= N)%nat).
  { induction L as [|k L IH]; intros Hi.
    - exists 0%nat. intros. cbn [total]. lia.
    - destruct IH as [N HN]; [intros x Hx; apply Hi; now right|].
      assert (Hk : In k (skeys qs)) by (apply Hi; now left). destruct (cell_bound k Hk) as [b Hbk].
      exists (b + N)%nat. intros z t q p I. cbn [total]. specialize (HN _ _ _ _ I).
      destruct I as [_ [_ [_ [_ [Ht [Ht2 [_ HI]]]]]]]. destruct (HI k Hk) as [Hc _].
      assert (t <= eps) by (destruct Ht2 as [->|Ht2]; [exact He|now apply Qclt_le_weak]). specialize (Hbk _ _ Ht H Hc). lia. }
  apply (H (skeys qs)). apply incl_refl.
Qed.

Lemma loop_ok N : (forall z t q p, Inv z t q p -> (total z (skeys qs) <= N)%nat) ->
  forall fuel z t q p, Inv z t q p -> (N <= total z (skeys qs) + fuel)%nat ->
  exists z' t' q' p', reflLoop fuel M mi ma eps t q p = Ok (q', p', t') /\ Inv z' t' q' p' /\
    (forall k, In k (skeys qs) -> stays M mi ma q' p' (eps - t') k).
Proof.
  intros HN. induction fuel as [|fuel IH]; intros z t q p I Hf; cbn [reflLoop].
  all: pose proof I as [K1 [K2 [Wq [Wp [Ht [Ht2 [Hout HI]]]]]]].
  all: assert (Hrem : 0 <= eps - t) by (destruct Ht2 as [->|Ht2]; qlra).
  all: assert (Hne2 : ~ In ""%string (skeys q)) by (rewrite K1; exact Hne).
  all: destruct (firstHit_ok M mi ma q p (eps - t) Hrem Wq (Inv_good _ _ _ _ I) Hne2) as [d [s [E [[-> Hst]|[D1 [D2 [D3 [D4 [D5 [D6 [D7 D8]]]]]]]]]]];
    rewrite E; cbn [bind fst snd].
  1, 3: cbn [String.eqb]; exists z, t, q, p; split; [reflexivity|]; split; [exact I|]; intros k Hk; apply Hst; rewrite K1; exact Hk.
  all: assert (Hd : In d (skeys qs)) by (rewrite <- K1; exact D1).
  all: assert (Hts : t + s < eps) by qlra.
  all: destruct (Inv_step z t q p d s I Hd D3 Hts D5 D6 D7 D8) as [j [J1 [J2 [J3 I2]]]].
  all: pose proof (HN _ _ _ _ I2) as HB; rewrite (total_bump d j z (skeys qs) (swf_nodup _ Hwq) Hd J1 J2 J3) in HB.
  - exfalso. lia.
  - destruct (String.eqb_spec d "") as [->|_]; [contradiction|].
    assert (Hpk : forall k, In k (skeys q) -> In k (skeys p)) by (intros k; rewrite K1, K2; apply Hp).
    rewrite (drift_eq s M q p Hpk (has_masses_keys _ _ _ K1 Hm)). cbn [bind fst snd].
    rewrite (sat_val d p) by (apply Hpk; exact D1). cbn [bind].
    apply (IH _ _ _ _ I2). rewrite (total_bump d j z (skeys qs) (swf_nodup _ Hwq) Hd J1 J2 J3). lia.
Qed.
Lemma loop_billiard : exists N, forall fuel, (N <= fuel)%nat -> exists q1 p1 t1,
  reflLoop fuel M mi ma eps 0 qs ps = Ok (q1, p1, t1) /\
  drift (eps - t1) M q1 p1 = Ok (moved (eps - t1) M q1 p1, p1) /\ swf p1 /\
  billiard M mi ma qs ps eps (moved (eps - t1) M q1 p1) p1.
Proof.
  destruct total_bound as [N HN]. exists N. intros fuel Hf.
  destruct (loop_ok N HN fuel _ _ _ _ Inv_start) as [z [t [q [p [E [I Hst]]]]]]; [lia|].
  pose proof I as [K1 [K2 [Wq [Wp [Ht [Ht2 [Hout HI]]]]]]].
  exists q, p, t. split; [exact E|]. split.
  { apply drift_eq; [intros k; rewrite K1, K2; apply Hp|exact (has_masses_keys _ _ _ K1 Hm)]. }
  split; [exact Wp|]. split; [rewrite skeys_moved; exact K1|]. split; [exact K2|]. split; [intros k _ Hk; now apply Hout|].
  intros k Hk. destruct (HI k Hk) as [[C1 [C2 [C3 [C4 [C5 [C6 C7]]]]]] [E1 E2]]. exists (z k). cbv zeta.
  assert (Efin : sfind k (moved (eps - t) M q p) = Some (folded (val k mi) (val k ma) (U k eps) (z k))).
  { rewrite (Inv_moved z t q p (eps - t) k I Hk). replace (t + (eps - t)) with eps by ring. reflexivity. }
  destruct (Hst k Hk) as [S1 S2].
  rewrite (Inv_vel _ _ _ _ _ I Hk), (val_find _ _ _ E1), folded_shift in S1, S2.
  assert (EU : U k t + (eps - t) * V k = U k eps) by (unfold free; ring). rewrite EU in S1, S2.
  destruct (folded_out _ _ _ _ S1 S2) as [T1 T2]. split; [exact T1|]. split; [exact T2|].
  assert (Hstrict : 0 < eps -> 0 < eps - t) by (intros H0; destruct Ht2 as [->|H1]; qlra).
  split; [|split; [|split; [exact C5|split; [exact Efin|exact E2]]]].
  - intros H0 Hv. specialize (Hstrict H0). eapply Qcle_lt_trans; [exact C1|]. rewrite <- EU.
    set (r := eps - t) in *. assert (0 < r * V k) by (clear -Hstrict Hv; qnra). set (rv := r * V k) in *. clearbody rv. qlra.
  - intros H0 Hv. specialize (Hstrict H0). eapply Qclt_le_trans; [|exact C2]. rewrite <- EU.
    set (r := eps - t) in *. assert (r * V k < 0) by (clear -Hstrict Hv; qnra). set (rv := r * V k) in *. clearbody rv. qlra.
Qed.
End Loop.
