(** C48, C47: the reflecting step. *)
From Coq Require Import ZArith.
From Verif Require Import Base.Res Base.Num Base.SMap Model.Hist Model.MCMC Model.HMC Spec.HMCSpec Proofs.MCMCP3 Proofs.HMCP Proofs.HMCP2 Proofs.HMCP3.
From Coq Require Import Lia.
Local Open Scope Qc_scope.
Local Open Scope res_scope.

Lemma pushed_kick c g p : kick c g p = pushed c g p. Proof. reflexivity. Qed.
Lemma swf_pushed c g p : swf p -> swf (pushed c g p).
Proof. intros H. apply (swf_keys _ p); [apply (skeys_kick c g p)|exact H]. Qed.

Lemma billiard_inside M mi ma qs ps eps q' p' : inside mi ma qs -> billiard M mi ma qs ps eps q' p' -> inside mi ma q'.
Proof.
  intros Hb [K1 [K2 [_ H]]] k Hk. rewrite K1 in Hk. destruct (H k Hk) as [z Hz]. cbv zeta in Hz. destruct Hz as [T1 [T2 [_ [_ [_ [E _]]]]]].
  destruct (Hb k Hk) as [a [b [E1 [E2 _]]]]. exists a, b. split; [exact E1|]. split; [exact E2|]. rewrite (val_find _ _ _ E).
  rewrite (val_find _ _ _ E1), (val_find _ _ _ E2) in *. exact (folded_in _ _ _ _ T1 T2).
Qed.

Lemma reflLoop_mono M mi ma eps fuel : forall t q p r, reflLoop fuel M mi ma eps t q p = Ok r ->
  forall fuel', (fuel <= fuel')%nat -> reflLoop fuel' M mi ma eps t q p = Ok r.
Proof.
  induction fuel as [|fuel IH]; intros t q p r; cbn [reflLoop];
    destruct (firstHit q p M mi ma (eps - t)) as [h| | | |] eqn:Eh; cbn [bind]; try discriminate;
    destruct (String.eqb (fst h) "") eqn:Ed; intros E fuel' Hf.
  - destruct fuel'; cbn [reflLoop]; rewrite Eh; cbn [bind]; rewrite Ed; exact E.
  - discriminate.
  - destruct fuel'; cbn [reflLoop]; rewrite Eh; cbn [bind]; rewrite Ed; exact E.
  - destruct fuel' as [|fuel']; [lia|]. cbn [reflLoop]. rewrite Eh. cbn [bind]. rewrite Ed.
    destruct (drift (snd h) M q p) as [x| | | |]; cbn [bind] in *; try discriminate.
    destruct (sat (fst h) (snd x)) as [y| | | |]; cbn [bind] in *; try discriminate. apply (IH _ _ _ _ E). lia.
Qed.

(** one reflecting step from a generic state *)
Lemma step_pkg differ eps M mi ma q p g : 0 <= eps -> well_formed M (q, p) -> inside mi ma q -> differ q = Ok g ->
  not_leaving M mi ma q (pushed (eps / qz 2) g p) -> no_corner M mi ma q (pushed (eps / qz 2) g p) eps ->
  exists N q' p', swf p' /\ billiard M mi ma q (pushed (eps / qz 2) g p) eps q' p' /\ inside mi ma q' /\
    forall fuel, (N <= fuel)%nat -> reflStep fuel differ eps M mi ma (q, p) = (do g' <- differ q'; Ok (q', pushed (eps / qz 2) g' p')).
Proof.
  intros He [Wq [Wp [Hp [Hm Hne]]]] Hb Hg HL HC. unfold has_momenta in Hp. cbn [fst snd] in *.
  assert (Hp1 : forall k, In k (skeys q) -> In k (skeys (pushed (eps / qz 2) g p))) by (intros k Hk; rewrite <- pushed_kick, skeys_kick; now apply Hp).
  destruct (loop_billiard M mi ma q (pushed (eps / qz 2) g p) eps Wq (swf_pushed _ _ _ Wp) Hp1 Hm Hb Hne He HL HC) as [N HN].
  destruct (HN N (le_n N)) as [q1 [p1 [t1 [E1 [E2 [W1 B]]]]]].
  exists N, (moved (eps - t1) M q1 p1), p1. split; [exact W1|]. split; [exact B|]. split; [exact (billiard_inside _ _ _ _ _ _ _ _ Hb B)|].
  intros fuel Hf. unfold reflStep. cbn [fst snd]. rewrite Hg. cbn [bind]. rewrite pushed_kick.
  rewrite (reflLoop_mono _ _ _ _ _ _ _ _ _ E1 fuel Hf). cbn [bind fst snd]. rewrite E2. cbn [bind fst snd]. reflexivity.
Qed.
Lemma step_any differ eps M mi ma s s' fuel : 0 <= eps -> well_formed M s -> inside mi ma (fst s) -> generic differ eps M mi ma s ->
  reflStep fuel differ eps M mi ma s = Ok s' -> well_formed M s' /\ inside mi ma (fst s').
Proof.
  destruct s as [q p]. cbn [fst snd]. intros He Hwf Hb [g [Hg [HL HC]]] E. cbn [fst snd] in *.
  destruct (step_pkg _ _ _ _ _ _ _ _ He Hwf Hb Hg HL HC) as [N [q' [p' [Wp' [B [Hb' HN]]]]]].
  assert (E2 : reflStep (Nat.max N fuel) differ eps M mi ma (q, p) = Ok s').
  { unfold reflStep in *. cbn [fst snd] in *. rewrite Hg in *. cbn [bind] in *.
    destruct (reflLoop fuel M mi ma eps 0 q (kick (eps / qz 2) g p)) as [l| | | |] eqn:El; cbn [bind] in E; try discriminate.
    rewrite (reflLoop_mono _ _ _ _ _ _ _ _ _ El (Nat.max N fuel)) by lia. exact E. }
  rewrite HN in E2 by lia. destruct (differ q') as [g'| | | |]; cbn [bind] in E2; try discriminate. injection E2 as <-. cbn [fst snd].
  split; [|exact Hb']. destruct Hwf as [Wq [Wp [Hp [Hm Hne]]]]. unfold has_momenta in Hp. cbn [fst snd] in *. destruct B as [K1 [K2 _]].
  rewrite <- pushed_kick, skeys_kick in K2.
  split; [exact (swf_keys _ _ K1 Wq)|]. split; [apply swf_pushed; exact Wp'|]. split.
  { intros k; cbn [fst snd]. rewrite <- pushed_kick, skeys_kick, K1, K2. apply Hp. }
  cbn [fst]. rewrite K1. split; [exact (has_masses_keys _ _ _ K1 Hm)|exact Hne].
Qed.
Lemma steps_inside differ eps M mi ma fuel n : forall s s', 0 <= eps -> well_formed M s -> inside mi ma (fst s) ->
  (forall i si, (i < n)%nat -> reflSteps fuel differ eps M mi ma i s = Ok si -> generic differ eps M mi ma si) ->
  reflSteps fuel differ eps M mi ma n s = Ok s' -> well_formed M s' /\ inside mi ma (fst s').
Proof.
  induction n as [|n IH]; intros s s' He Hwf Hb Hg E; cbn [reflSteps] in E.
  - injection E as <-. auto.
  - destruct (reflStep fuel differ eps M mi ma s) as [s1| | | |] eqn:E1; cbn [bind] in E; try discriminate.
    destruct (step_any _ _ _ _ _ _ _ _ He Hwf Hb (Hg 0%nat s ltac:(lia) eq_refl) E1) as [Hwf1 Hb1].
    apply (IH s1 s' He Hwf1 Hb1); [|exact E]. intros i si Hi Ei. apply (Hg (S i) si); [lia|]. cbn [reflSteps]. rewrite E1. exact Ei.
Qed.

(** reversal *)
Lemma cell_zero lo hi x v c : lo <= x -> x <= hi -> lo + qz c * (hi - lo) <= x -> x <= lo + qz (c + 1) * (hi - lo) -> v <> 0 ->
  (0 < v -> x < hi /\ x < lo + qz (c + 1) * (hi - lo)) -> (v < 0 -> lo < x /\ lo + qz c * (hi - lo) < x) -> c = 0%Z.
Proof.
  intros H1 H2 H3 H4 Nv Hp Hn. assert (Hw : 0 < hi - lo).
  { clear H3 H4. destruct (Qc_dec v 0) as [[Hv|Hv]|Hv]; [destruct (Hn Hv) as [A _]|destruct (Hp Hv) as [A _]|contradiction]; clear Hn Hp; qlra. }
  assert (Hc : (c < 1)%Z /\ (-1 < c)%Z); [|lia]. split.
  - apply Z.nle_gt. intros C. apply qz_le in C. rewrite qz_1 in C. assert (B : 1 * (hi - lo) <= qz c * (hi - lo)) by (apply Qcmult_le_compat_r; [exact C|now apply Qclt_le_weak]).
    rewrite Qcmult_1_l in B. set (a := qz c * (hi - lo)) in *. clearbody a. destruct (Qc_dec v 0) as [[Hv|Hv]|Hv]; [destruct (Hn Hv)|destruct (Hp Hv)|contradiction]; qlra.
  - apply Z.nle_gt. intros C. assert (C2 : (c + 1 <= 0)%Z) by lia. apply qz_le in C2. change (qz 0) with 0 in C2.
    assert (B : qz (c + 1) * (hi - lo) <= 0 * (hi - lo)) by (apply Qcmult_le_compat_r; [exact C2|now apply Qclt_le_weak]).
    rewrite Qcmult_0_l in B. set (a := qz (c + 1) * (hi - lo)) in *. clearbody a. set (b := qz c * (hi - lo)) in *. clearbody b.
    destruct (Qc_dec v 0) as [[Hv|Hv]|Hv]; [destruct (Hn Hv)|destruct (Hp Hv)|contradiction]; qlra.
Qed.
(** the doubly folded position *)
Lemma refold lo hi x z y v : lo <= x -> x <= hi -> v <> 0 -> (0 < v -> x < hi) -> (v < 0 -> lo < x) ->
  lo + qz y * (hi - lo) <= folded lo hi x z -> folded lo hi x z <= lo + qz (y + 1) * (hi - lo) ->
  (0 < - turned z v -> lo + qz y * (hi - lo) < folded lo hi x z) -> (- turned z v < 0 -> folded lo hi x z < lo + qz (y + 1) * (hi - lo)) ->
  Z.even y = Z.even z /\ folded lo hi (folded lo hi x z) y = x.
Proof.
  intros H1 H2 Nv Hp Hn C1 C2 S1 S2. unfold folded in C1, C2, S1, S2. unfold turned in S1, S2. destruct (Z.even z) eqn:Ez.
  - assert (Hc : (y + z)%Z = 0%Z).
    { apply (cell_zero lo hi x v); auto.
      - rewrite qz_add. replace ((qz y + qz z) * (hi - lo)) with (qz y * (hi - lo) + qz z * (hi - lo)) by ring.
        set (a := qz y * (hi - lo)) in *. set (b := qz z * (hi - lo)) in *. clearbody a b. qlra.
      - replace (y + z + 1)%Z with (y + 1 + z)%Z by lia. rewrite (qz_add (y + 1) z). replace ((qz (y + 1) + qz z) * (hi - lo)) with (qz (y + 1) * (hi - lo) + qz z * (hi - lo)) by ring.
        set (a := qz (y + 1) * (hi - lo)) in *. set (b := qz z * (hi - lo)) in *. clearbody a b. qlra.
      - intros Hv. split; [auto|]. replace (y + z + 1)%Z with (y + 1 + z)%Z by lia. rewrite (qz_add (y + 1) z). replace ((qz (y + 1) + qz z) * (hi - lo)) with (qz (y + 1) * (hi - lo) + qz z * (hi - lo)) by ring.
        assert (Hv2 : - v < 0) by qlra. specialize (S2 Hv2). set (a := qz (y + 1) * (hi - lo)) in *. set (b := qz z * (hi - lo)) in *. clearbody a b. qlra.
      - intros Hv. split; [auto|]. rewrite qz_add. replace ((qz y + qz z) * (hi - lo)) with (qz y * (hi - lo) + qz z * (hi - lo)) by ring.
        assert (Hv2 : 0 < - v) by qlra. specialize (S1 Hv2). set (a := qz y * (hi - lo)) in *. set (b := qz z * (hi - lo)) in *. clearbody a b. qlra. }
    assert (Hy : y = (- z)%Z) by lia. subst y. rewrite Z.even_opp. split; [exact Ez|]. unfold folded. rewrite Z.even_opp, Ez.
    assert (E : qz (- z) = - qz z). { apply Qc_is_canon. cbn [this Qcopp qz Q2Qc]. rewrite !Qred_correct, inject_Z_opp. reflexivity. }
    rewrite E. ring.
  - assert (E : qz (- y) = - qz y). { apply Qc_is_canon. cbn [this Qcopp qz Q2Qc]. rewrite !Qred_correct, inject_Z_opp. reflexivity. }
    assert (Hc : (z - y)%Z = 0%Z).
    { unfold Z.sub. apply (cell_zero lo hi x v); auto.
      - rewrite qz_add, E. rewrite qz_add, qz_1 in C2. replace ((qz z + - qz y) * (hi - lo)) with (qz z * (hi - lo) - qz y * (hi - lo)) by ring.
        replace ((qz y + 1) * (hi - lo)) with (qz y * (hi - lo) + (hi - lo)) in C2 by ring.
        set (a := qz y * (hi - lo)) in *. set (b := qz z * (hi - lo)) in *. clearbody a b. qlra.
      - rewrite !qz_add, E, qz_1. replace ((qz z + - qz y + 1) * (hi - lo)) with (qz z * (hi - lo) - qz y * (hi - lo) + (hi - lo)) by ring.
        set (a := qz y * (hi - lo)) in *. set (b := qz z * (hi - lo)) in *. clearbody a b. qlra.
      - intros Hv. split; [auto|]. rewrite !qz_add, E, qz_1. replace ((qz z + - qz y + 1) * (hi - lo)) with (qz z * (hi - lo) - qz y * (hi - lo) + (hi - lo)) by ring.
        assert (Hv2 : 0 < - - v) by qlra. specialize (S1 Hv2). set (a := qz y * (hi - lo)) in *. set (b := qz z * (hi - lo)) in *. clearbody a b. qlra.
      - intros Hv. split; [auto|]. rewrite qz_add, E. assert (Hv2 : - - v < 0) by qlra. specialize (S2 Hv2). rewrite qz_add, qz_1 in S2.
        replace ((qz z + - qz y) * (hi - lo)) with (qz z * (hi - lo) - qz y * (hi - lo)) by ring.
        replace ((qz y + 1) * (hi - lo)) with (qz y * (hi - lo) + (hi - lo)) in S2 by ring.
        set (a := qz y * (hi - lo)) in *. set (b := qz z * (hi - lo)) in *. clearbody a b. qlra. }
    assert (Hy : y = z) by lia. subst y. split; [exact Ez|]. unfold folded. rewrite Ez. ring.
Qed.
