(** C47: the reflecting step reversed; the Hamiltonian sampler. *)
From Coq Require Import ZArith.
From Verif Require Import Base.Res Base.Num Base.SMap Model.Hist Model.MCMC Model.HMC Spec.HMCSpec Proofs.MCMCP3 Proofs.HMCP Proofs.HMCP2 Proofs.HMCP3 Proofs.HMCP4.
From Coq Require Import Lia.
Local Open Scope Qc_scope.
Local Open Scope res_scope.

Section Rev.
Variables (M mi ma q P q' p' : smap Qc) (eps : Qc).
Hypothesis (Hb : inside mi ma q) (He : 0 < eps) (HL : not_leaving M mi ma q P) (HC : no_corner M mi ma q P eps)
  (B : billiard M mi ma q P eps q' p').

Lemma rev_key k : In k (skeys q) -> exists z, let lo := val k mi in let hi := val k ma in let u := free M q P k eps in
  lo <= val k q /\ val k q <= hi /\
  lo + qz z * (hi - lo) <= u /\ u <= lo + qz (z + 1) * (hi - lo) /\
  (0 < vel M P k -> lo + qz z * (hi - lo) < u) /\ (vel M P k < 0 -> u < lo + qz (z + 1) * (hi - lo)) /\
  (vel M P k = 0 -> z = 0%Z) /\ val k q' = folded lo hi u z /\ val k p' = turned z (val k P) /\
  vel M (negated p') k = - turned z (vel M P k) /\
  (forall t, free M q' (negated p') k t = folded lo hi (free M q P k (eps - t)) z).
Proof.
  intros Hk. destruct B as [K1 [K2 [_ H]]]. destruct (H k Hk) as [z Hz]. cbv zeta in Hz. destruct Hz as [T1 [T2 [T3 [T4 [T5 [E1 E2]]]]]].
  destruct (box_keys mi ma q Hb k Hk) as [_ [_ [B1 B2]]]. exists z. cbv zeta.
  assert (Hv : vel M (negated p') k = - turned z (vel M P k)).
  { unfold vel. rewrite val_negated, (val_find _ _ _ E2). rewrite <- turned_vel. unfold Qcdiv. ring. }
  do 4 (split; [assumption|]). split; [auto|]. split; [auto|]. split; [exact T5|]. split; [apply val_find; exact E1|]. split; [apply val_find; exact E2|].
  split; [exact Hv|]. intros t. unfold free at 1. rewrite Hv, (val_find _ _ _ E1).
  transitivity (folded (val k mi) (val k ma) (free M q P k eps) z + (- t) * turned z (vel M P k)); [ring|].
  rewrite folded_shift. unfold free. f_equal. ring.
Qed.
Lemma rev_not_leaving : not_leaving M mi ma q' (negated p').
Proof.
  intros k Hk. destruct B as [K1 _]. rewrite K1 in Hk. destruct (rev_key k Hk) as [z Hz]. cbv zeta in Hz.
  destruct Hz as [B1 [B2 [T1 [T2 [T3 [T4 [T5 [E1 [E2 [Hv Hf]]]]]]]]]]. rewrite Hv, E1.
  rewrite qz_add, qz_1 in T4. replace (val k mi + (qz z + 1) * (val k ma - val k mi)) with (qz z * (val k ma - val k mi) + val k ma) in T4 by ring.
  clear Hv Hf E1 E2 T5 T1 T2. unfold folded, turned in *. set (a := qz z * (val k ma - val k mi)) in *. clearbody a. set (v := vel M P k) in *. clearbody v.
  destruct (Z.even z); split; intros H.
  - assert (Hv : v < 0) by qlra. specialize (T4 Hv). qlra.
  - assert (Hv : 0 < v) by qlra. specialize (T3 Hv). qlra.
  - assert (Hv : 0 < v) by qlra. specialize (T3 Hv). qlra.
  - assert (Hv : v < 0) by qlra. specialize (T4 Hv). qlra.
Qed.
Lemma turned_nz z v : - turned z v <> 0 -> v <> 0.
Proof. intros H C. apply H. rewrite C. unfold turned. destruct (Z.even z); ring. Qed.
Lemma rev_at_wall k t : In k (skeys q) -> at_wall M mi ma q' (negated p') k t -> at_wall M mi ma q P k (eps - t).
Proof.
  intros Hk [y Hy]. destruct (rev_key k Hk) as [z Hz]. cbv zeta in Hz. destruct Hz as [_ [_ [_ [_ [_ [_ [_ [_ [_ [_ Hf]]]]]]]]]].
  rewrite Hf in Hy. unfold folded in Hy. destruct (Z.even z).
  - exists (y + z)%Z. rewrite qz_add. replace (val k mi + (qz y + qz z) * (val k ma - val k mi)) with (val k mi + qz y * (val k ma - val k mi) + qz z * (val k ma - val k mi)) by ring.
    rewrite <- Hy. ring.
  - exists (1 + z - y)%Z. unfold Z.sub. rewrite !qz_add, qz_1.
    assert (E : qz (- y) = - qz y). { apply Qc_is_canon. cbn [this Qcopp qz Q2Qc]. rewrite !Qred_correct, inject_Z_opp. reflexivity. }
    rewrite E. set (u := free M q P k (eps - t)) in *. clearbody u.
    transitivity (val k mi + val k ma + qz z * (val k ma - val k mi) - (val k mi + val k ma - (u - qz z * (val k ma - val k mi)))); [ring|].
    rewrite Hy. ring.
Qed.
Lemma rev_no_corner : no_corner M mi ma q' (negated p') eps.
Proof.
  intros a b t Ha Hbb Hne Va Vb Ht1 Ht2 Wa Wb. destruct B as [K1 _]. rewrite K1 in *.
  destruct (rev_key a Ha) as [za Hza]. cbv zeta in Hza. destruct Hza as [_ [_ [_ [_ [_ [_ [_ [_ [_ [Hva _]]]]]]]]]].
  destruct (rev_key b Hbb) as [zb Hzb]. cbv zeta in Hzb. destruct Hzb as [_ [_ [_ [_ [_ [_ [_ [_ [_ [Hvb _]]]]]]]]]].
  rewrite Hva in Va. rewrite Hvb in Vb. apply turned_nz in Va. apply turned_nz in Vb.
  apply (HC a b (eps - t) Ha Hbb Hne Va Vb); [qlra|qlra|now apply rev_at_wall|now apply rev_at_wall].
Qed.
Lemma rev_result q2 p2 : swf q -> swf P -> swf q2 -> swf p2 -> (forall k, In k (skeys q) -> In k (skeys P)) ->
  billiard M mi ma q' (negated p') eps q2 p2 -> q2 = q /\ p2 = negated P.
Proof.
  intros Wq WP Wq2 Wp2 Hp B2. pose proof B as [K1 [K2 [O1 _]]]. destruct B2 as [K3 [K4 [O2 H2]]].
  assert (Hk : forall k, In k (skeys q) -> sfind k q2 = sfind k q /\ sfind k p2 = sfind k (negated P)).
  { intros k Hk. destruct (rev_key k Hk) as [z Hz]. cbv zeta in Hz. destruct Hz as [B1 [B2' [T1 [T2 [T3 [T4 [T5 [E1 [E2 [Hv Hf]]]]]]]]]].
    assert (Hk' : In k (skeys q')) by (rewrite K1; exact Hk). destruct (H2 k Hk') as [y Hy]. cbv zeta in Hy.
    destruct Hy as [Y1 [Y2 [Y3 [Y4 [Y5 [F1 F2]]]]]]. rewrite Hf in Y1, Y2, Y3, Y4, F1. rewrite Hv in Y3, Y4, Y5.
    assert (E0 : free M q P k (eps - eps) = val k q) by (unfold free; ring). rewrite E0 in *.
    assert (Eq : sfind k q = Some (val k q)). { apply sfind_in in Hk. destruct Hk as [x Hx]. rewrite (val_find _ _ _ Hx). exact Hx. }
    assert (EP : sfind k (negated P) = Some (- val k P)).
    { unfold negated. rewrite (sfind_map (fun e => - snd e)). apply Hp in Hk. apply sfind_in in Hk. destruct Hk as [x Hx]. rewrite Hx, (val_find _ _ _ Hx). reflexivity. }
    rewrite Eq, EP, F1, F2, val_negated, E2. destruct (HL k Hk) as [L1 L2].
    destruct (Qc_eq_dec (vel M P k) 0) as [Hz|Hz].
    - rewrite (T5 Hz) in *. rewrite (Y5 ltac:(rewrite Hz; reflexivity)) in *. unfold folded, turned. cbn [Z.even]. change (qz 0) with 0. split; f_equal; ring.
    - destruct (refold _ _ _ z y (vel M P k) B1 B2' Hz L1 L2 Y1 Y2 (Y3 He) (Y4 He)) as [R1 R2]. rewrite R2. split; [reflexivity|].
      f_equal. unfold turned. rewrite R1. destruct (Z.even z); ring. }
  split.
  - apply swf_ext; auto. intros k. destruct (in_dec string_dec k (skeys q)) as [Hi|Hi]; [exact (proj1 (Hk k Hi))|].
    assert (~ In k (skeys q2)) by (rewrite K3, K1; exact Hi). apply sfind_not_in in H. apply sfind_not_in in Hi. congruence.
  - apply swf_ext; auto; [apply (swf_keys _ P); [apply skeys_neg|exact WP]|]. intros k.
    destruct (in_dec string_dec k (skeys q)) as [Hi|Hi]; [exact (proj2 (Hk k Hi))|].
    destruct (in_dec string_dec k (skeys P)) as [Hj|Hj].
    + rewrite O2; [|rewrite skeys_neg, K2; exact Hj|rewrite K1; exact Hi]. unfold negated. rewrite !(sfind_map (fun e => - snd e)), (O1 k Hj Hi). reflexivity.
    + assert (A1 : ~ In k (skeys p2)) by (rewrite K4, skeys_neg, K2; exact Hj). assert (A2 : ~ In k (skeys (negated P))) by (rewrite skeys_neg; exact Hj).
      apply sfind_not_in in A1. apply sfind_not_in in A2. congruence.
Qed.
End Rev.

Lemma refl_reverse_pkg differ eps M mi ma s s' fuel : 0 < eps -> well_formed M s -> inside mi ma (fst s) -> generic differ eps M mi ma s ->
  reflStep fuel differ eps M mi ma s = Ok s' ->
  exists N, forall fuel', (N <= fuel')%nat -> reflStep fuel' differ eps M mi ma (fst s', negated (snd s')) = Ok (fst s, negated (snd s)).
Proof.
  destruct s as [q p]. cbn [fst snd]. intros He Hwf Hb [g [Hg [HL HC]]] E. cbn [fst snd] in *.
  assert (He' : 0 <= eps) by now apply Qclt_le_weak.
  destruct (step_pkg _ _ _ _ _ _ _ _ He' Hwf Hb Hg HL HC) as [N [q' [p' [Wp' [B [Hb' HN]]]]]].
  assert (E2 : reflStep (Nat.max N fuel) differ eps M mi ma (q, p) = Ok s').
  { unfold reflStep in *. cbn [fst snd] in *. rewrite Hg in *. cbn [bind] in *.
    destruct (reflLoop fuel M mi ma eps 0 q (kick (eps / qz 2) g p)) as [l| | | |] eqn:El; cbn [bind] in E; try discriminate.
    rewrite (reflLoop_mono _ _ _ _ _ _ _ _ _ El (Nat.max N fuel)) by lia. exact E. }
  rewrite HN in E2 by lia. destruct (differ q') as [g'| | | |] eqn:Eg'; cbn [bind] in E2; try discriminate. injection E2 as <-. cbn [fst snd].
  destruct Hwf as [Wq [Wp [Hp [Hm Hne]]]]. unfold has_momenta in Hp. cbn [fst snd] in *.
  set (P := pushed (eps / qz 2) g p) in *. pose proof B as [K1 [K2 _]].
  assert (KP : skeys P = skeys p) by apply (skeys_kick (eps / qz 2) g p). rewrite KP in K2.
  assert (Wq' : swf q') by exact (swf_keys _ _ K1 Wq).
  assert (Ek : pushed (eps / qz 2) g' (negated (pushed (eps / qz 2) g' p')) = negated p') by exact (kick_neg _ _ p' _ eq_refl).
  assert (Hwf2 : well_formed M (q', negated (pushed (eps / qz 2) g' p'))).
  { split; [exact Wq'|]. split; [cbn [snd]; apply (swf_keys _ p'); [rewrite skeys_neg; apply (skeys_kick (eps / qz 2) g' p')|exact Wp']|]. split.
    - intros k; cbn [fst snd]. rewrite skeys_neg, <- pushed_kick, skeys_kick, K1, K2. apply Hp.
    - cbn [fst]. rewrite K1. split; [exact (has_masses_keys _ _ _ K1 Hm)|exact Hne]. }
  destruct (step_pkg differ eps M mi ma q' (negated (pushed (eps / qz 2) g' p')) g' He' Hwf2 Hb' Eg') as [N2 [q2 [p2 [Wp2 [B2 [_ HN2]]]]]].
  { rewrite Ek. exact (rev_not_leaving M mi ma q P q' p' eps Hb He B). }
  { rewrite Ek. exact (rev_no_corner M mi ma q P q' p' eps Hb He HC B). }
  rewrite Ek in B2. pose proof B2 as [K3 _].
  destruct (rev_result M mi ma q P q' p' eps Hb He HL B q2 p2 Wq (swf_pushed _ _ _ Wp) (swf_keys _ _ K3 Wq') Wp2) as [-> ->]; [|exact B2|].
  { intros k Hk. rewrite KP. now apply Hp. }
  exists N2. intros fuel' Hf. rewrite (HN2 fuel' Hf), Hg. cbn [bind]. f_equal. f_equal. exact (kick_neg (eps / qz 2) g p _ eq_refl).
Qed.

(** the sampler *)
Lemma kinetic_ok M l : forall a k, foldM (fun acc e => do m <- sat (fst e) M; do d <- qdiv (snd e * snd e / qz 2) m; Ok (acc + d)) l a = Ok k ->
  k = a + energy_of M l.
Proof.
  induction l as [|[x v] l IH]; intros a k; cbn [foldM].
  - intros E. injection E as <-. unfold energy_of. cbn [map qsum]. ring.
  - cbn [fst snd]. unfold sat at 1. destruct (sfind x M) as [m|] eqn:Em; cbn [bind]; [|discriminate]. unfold qdiv at 1.
    destruct (qeqb m 0); cbn [bind]; [discriminate|]. intros E. apply IH in E. rewrite E. unfold energy_of. cbn [map qsum fst snd]. rewrite (val_find _ _ _ Em). ring.
Qed.
Lemma momenta_ok (gauss : string -> Qc) cur : forall m0 : smap Qc, swf m0 -> let mo := fold_left (fun mo (e : string * Qc) => sset (fst e) (gauss (fst e)) mo) cur m0 in
  swf mo /\ forall k, sfind k mo = if existsb (String.eqb k) (skeys cur) then Some (gauss k) else sfind k m0.
Proof.
  induction cur as [|[x v] cur IH]; intros m0 Hw; cbn [fold_left]; [split; [exact Hw|reflexivity]|].
  destruct (IH (sset x (gauss x) m0) (sset_wf _ _ _ Hw)) as [W H]. cbn [fst]. split; [exact W|]. intros k. cbv zeta in H. rewrite H.
  unfold skeys. cbn [map fst existsb]. destruct (String.eqb_spec k x) as [->|Hne]; cbn [orb].
  - rewrite sfind_sset_eq. destruct (existsb _ _); reflexivity.
  - rewrite sfind_sset_neq by exact Hne. reflexivity.
Qed.
Lemma masses_ok cur : forall M : smap Qc, (forall k, In k (skeys cur) -> In k (skeys M)) -> fold_left (fun ms (e : string * Qc) => snd (sget0 (fst e) ms)) cur M = M.
Proof.
  induction cur as [|[x v] cur IH]; intros M H; cbn [fold_left]; [reflexivity|]. cbn [fst].
  assert (Hx : In x (skeys M)) by (apply H; now left). apply sfind_in in Hx. destruct Hx as [m Hm]. unfold sget0 at 2. rewrite Hm. cbn [snd].
  apply IH. intros k Hk. apply H. now right.
Qed.
Lemma draw_pkg fuel differ eps n M mi ma gauss cur next corr : (forall k, In k (skeys cur) -> In k (skeys M)) ->
  hmcDraw fuel differ eps n M mi ma gauss cur = Ok (next, corr) ->
  exists p0 p1, swf p0 /\ (forall k, sfind k p0 = if existsb (String.eqb k) (skeys cur) then Some (gauss k) else None) /\
    (mi = [] \/ ma = [] -> lfSteps differ eps M n (cur, p0) = Ok (next, p1)) /\
    (mi <> [] -> ma <> [] -> reflSteps fuel differ eps M mi ma n (cur, p0) = Ok (next, p1)) /\
    corr = energy_of M p0 - energy_of M p1 /\
    (forall (ll : smap Qc -> Qc), ll next - ll cur + corr = (- ll cur + energy_of M p0) - (- ll next + energy_of M p1)).
Proof.
  intros HM E. unfold hmcDraw in E. rewrite (masses_ok cur M HM) in E.
  destruct (momenta_ok gauss cur sempty sempty_wf) as [W H]. set (p0 := fold_left (fun mo e => sset (fst e) (gauss (fst e)) mo) cur sempty) in *. clearbody p0.
  destruct (kinetic M p0) as [k0| | | |] eqn:E0; cbn [bind] in E; try discriminate.
  apply kinetic_ok in E0. rewrite Qcplus_0_l in E0.
  match type of E with bind ?x _ = _ => destruct x as [[nx p1]| | | |] eqn:Es; cbn [bind fst snd] in E; try discriminate end.
  destruct (kinetic M p1) as [k1| | | |] eqn:E1; cbn [bind] in E; try discriminate. apply kinetic_ok in E1. rewrite Qcplus_0_l in E1.
  injection E as <- <-. exists p0, p1. split; [exact W|]. split; [exact H|].
  split; [intros [->| ->]; cbn [List.length Nat.eqb negb andb] in Es; [exact Es|]; destruct (Nat.eqb _ _); exact Es|].
  split; [intros N1 N2; destruct mi as [|e1 mi]; [contradiction|]; destruct ma as [|e2 ma]; [contradiction|]; exact Es|].
  split; [congruence|]. intros ll. subst. ring.
Qed.

(** several reflecting steps reversed *)
Lemma reflSteps_iterate fuel differ eps M mi ma n : forall s, reflSteps fuel differ eps M mi ma n s = iterate (reflStep fuel differ eps M mi ma) n s.
Proof. induction n as [|n IH]; intros s; cbn [reflSteps iterate]; [reflexivity|]. destruct (reflStep fuel differ eps M mi ma s); cbn [bind]; auto. Qed.
Lemma reflSteps_reverse differ eps M mi ma fuel n : forall s s', 0 < eps -> well_formed M s -> inside mi ma (fst s) ->
  (forall i si, (i < n)%nat -> reflSteps fuel differ eps M mi ma i s = Ok si -> generic differ eps M mi ma si) ->
  reflSteps fuel differ eps M mi ma n s = Ok s' ->
  exists N, forall fuel', (N <= fuel')%nat -> reflSteps fuel' differ eps M mi ma n (fst s', negated (snd s')) = Ok (fst s, negated (snd s)).
Proof.
  induction n as [|n IH]; intros s s' He Hwf Hb Hg E; cbn [reflSteps] in E.
  - injection E as <-. exists 0%nat. reflexivity.
  - destruct (reflStep fuel differ eps M mi ma s) as [s1| | | |] eqn:E1; cbn [bind] in E; try discriminate.
    assert (He' : 0 <= eps) by now apply Qclt_le_weak. assert (G0 : generic differ eps M mi ma s) by (apply (Hg 0%nat s); [lia|reflexivity]).
    destruct (step_any _ _ _ _ _ _ _ _ He' Hwf Hb G0 E1) as [Hwf1 Hb1].
    destruct (refl_reverse_pkg _ _ _ _ _ _ _ _ He Hwf Hb G0 E1) as [N1 R1].
    destruct (IH s1 s' He Hwf1 Hb1) as [N2 R2]; [|exact E|].
    { intros i si Hi Ei. apply (Hg (S i) si); [lia|]. cbn [reflSteps]. rewrite E1. exact Ei. }
    exists (Nat.max N1 N2). intros fuel' Hf. rewrite reflSteps_iterate, iterate_snoc, <- reflSteps_iterate.
    rewrite (R2 fuel') by lia. cbn [bind]. apply R1. lia.
Qed.

(** kinetic energy only depends on the squares *)
Lemma energy_keys M p : NoDup (skeys p) -> energy_of M p = qsum (map (fun k => val k p * val k p / qz 2 / val k M) (skeys p)).
Proof.
  intros Hn. unfold energy_of, skeys. rewrite map_map. assert (H : forall e, In e p -> val (fst e) p = snd e).
  { intros [k v] Hin. cbn [fst snd]. apply val_find. induction p as [|[a b] p IH]; [destruct Hin|]. unfold skeys in Hn. cbn [map fst] in Hn.
    apply NoDup_cons_iff in Hn. destruct Hn as [N1 N2]. cbn [sfind]. destruct Hin as [E|Hin].
    - injection E as -> ->. rewrite String.eqb_refl. reflexivity.
    - destruct (String.eqb_spec k a) as [->|_]; [exfalso; apply N1; apply in_map_iff; exists (a, v); auto|]. exact (IH N2 Hin). }
  f_equal. apply map_ext_in. intros e He. rewrite (H e He). reflexivity.
Qed.
Lemma billiard_energy M mi ma q P eps q' p' : swf P -> billiard M mi ma q P eps q' p' -> energy_of M p' = energy_of M P.
Proof.
  intros W [_ [K2 [O H]]]. pose proof (swf_nodup _ W) as Hn. rewrite (energy_keys M P Hn), (energy_keys M p') by (rewrite K2; exact Hn). rewrite K2. f_equal.
  apply map_ext_in. intros k Hk. destruct (in_dec string_dec k (skeys q)) as [Hi|Hi].
  - destruct (H k Hi) as [z Hz]. cbv zeta in Hz. destruct Hz as [_ [_ [_ [_ [_ [_ E]]]]]]. rewrite (val_find _ _ _ E). unfold turned.
    destruct (Z.even z); [reflexivity|]. unfold Qcdiv. ring.
  - unfold val. rewrite (O k Hk Hi). reflexivity.
Qed.
Lemma refl_step_pkg differ eps M mi ma q p g : 0 <= eps -> well_formed M (q, p) -> inside mi ma q -> differ q = Ok g ->
  not_leaving M mi ma q (pushed (eps / qz 2) g p) -> no_corner M mi ma q (pushed (eps / qz 2) g p) eps ->
  exists N q' p', billiard M mi ma q (pushed (eps / qz 2) g p) eps q' p' /\ inside mi ma q' /\
    energy_of M p' = energy_of M (pushed (eps / qz 2) g p) /\
    forall fuel, (N <= fuel)%nat -> reflStep fuel differ eps M mi ma (q, p) = (do g' <- differ q'; Ok (q', pushed (eps / qz 2) g' p')).
Proof.
  intros He Hwf Hb Hg HL HC. destruct (step_pkg _ _ _ _ _ _ _ _ He Hwf Hb Hg HL HC) as [N [q' [p' [W [B [I R]]]]]].
  exists N, q', p'. split; [exact B|]. split; [exact I|]. split; [|exact R]. apply (billiard_energy M mi ma q _ eps q' p'); [|exact B].
  apply swf_pushed. exact (proj1 (proj2 Hwf)).
Qed.
