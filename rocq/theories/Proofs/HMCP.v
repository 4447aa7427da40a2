(** C47, C49. *)
From Coq Require Import ZArith.
From Verif Require Import Base.Res Base.Num Base.SMap Model.Hist Model.MCMC Model.HMC Spec.HMCSpec Proofs.MCMCP3.
From Coq Require Import Lia.
Local Open Scope Qc_scope.
Local Open Scope res_scope.

Definition moved (c : Qc) (masses qs ps : smap Qc) : smap Qc :=
  map (fun e => (fst e, snd e + c * val (fst e) ps / val (fst e) masses)) qs.
Lemma val_find k m v : sfind k m = Some v -> val k m = v.
Proof. unfold val. intros ->. reflexivity. Qed.
Lemma val_gget k m : gget k m = val k m. Proof. reflexivity. Qed.
Lemma skeys_map (f : string * Qc -> Qc) (m : smap Qc) : skeys (map (fun e => (fst e, f e)) m) = skeys m.
Proof. unfold skeys. rewrite map_map. apply map_ext. reflexivity. Qed.
Lemma skeys_kick c g ps : skeys (kick c g ps) = skeys ps. Proof. apply (skeys_map (fun e => snd e - c * gget (fst e) g)). Qed.
Lemma skeys_neg ps : skeys (negated ps) = skeys ps. Proof. apply (skeys_map (fun e => - snd e)). Qed.
Lemma skeys_moved c m qs ps : skeys (moved c m qs ps) = skeys qs.
Proof. apply (skeys_map (fun e => snd e + c * val (fst e) ps / val (fst e) m)). Qed.
Lemma sfind_map (f : string * Qc -> Qc) (m : smap Qc) k : sfind k (map (fun e => (fst e, f e)) m) = match sfind k m with Some v => Some (f (k, v)) | None => None end.
Proof.
  induction m as [|[a v] m IH]; cbn [map sfind fst]; [reflexivity|]. destruct (String.eqb_spec k a) as [->|_]; [reflexivity|exact IH].
Qed.
Lemma has_masses_keys M q q' : skeys q' = skeys q -> has_masses M q -> has_masses M q'.
Proof. intros E H k Hk. rewrite E in Hk. exact (H k Hk). Qed.

Lemma drift_eq c masses qs : forall ps, (forall k, In k (skeys qs) -> In k (skeys ps)) -> has_masses masses qs ->
  drift c masses qs ps = Ok (moved c masses qs ps, ps).
Proof.
  induction qs as [|[k q] t IH]; intros ps Hp Hm; cbn [drift]; [reflexivity|].
  assert (Hk : In k (skeys ps)) by (apply Hp; now left). apply sfind_in in Hk. destruct Hk as [p Hp0].
  unfold sget0. rewrite Hp0. destruct (Hm k) as [m [E1 E2]]; [now left|]. unfold sat. rewrite E1. cbn [bind].
  unfold qdiv. destruct (qeqb m 0) eqn:Ez; [apply qeqb_eq in Ez; contradiction|]. cbn [bind].
  rewrite IH; [|intros x Hx; apply Hp; now right|intros x Hx; apply Hm; now right]. cbn [bind fst snd].
  unfold moved. cbn [map fst snd]. rewrite (val_find _ _ _ Hp0), (val_find _ _ _ E1). reflexivity.
Qed.
Lemma drift_ok c masses qs : forall ps r, (forall k, In k (skeys qs) -> In k (skeys ps)) -> drift c masses qs ps = Ok r ->
  r = (moved c masses qs ps, ps) /\ has_masses masses qs.
Proof.
  intros ps r Hp E. assert (Hm : has_masses masses qs).
  { revert ps r Hp E. induction qs as [|[k q] t IH]; intros ps r Hp E; [intros k []|].
    cbn [drift] in E. assert (Hk : In k (skeys ps)) by (apply Hp; now left). apply sfind_in in Hk. destruct Hk as [p Hp0].
    unfold sget0 in E. rewrite Hp0 in E. unfold sat in E. destruct (sfind k masses) as [m|] eqn:Em; cbn [bind] in E; [|discriminate].
    unfold qdiv in E. destruct (qeqb m 0) eqn:Ez; cbn [bind] in E; [discriminate|].
    destruct (drift c masses t ps) as [r1| | | |] eqn:Ed; cbn [bind] in E; try discriminate.
    intros x [<-|Hx]; [exists m; split; [exact Em|]; intros C; apply qeqb_eq in C; cbn [fst] in C; congruence|].
    refine (IH ps r1 _ Ed x Hx). intros y Hy. apply Hp. now right. }
  split; [|exact Hm]. rewrite (drift_eq c masses qs ps Hp Hm) in E. congruence.
Qed.

Lemma map_id_in {A} (f : A -> A) l : (forall x, In x l -> f x = x) -> map f l = l.
Proof. induction l as [|x l IH]; intros H; cbn [map]; [reflexivity|]. rewrite H, IH; [reflexivity| |now left]. intros y Hy. apply H. now right. Qed.
Lemma val_negated k ps : val k (negated ps) = - val k ps.
Proof. unfold val, negated. rewrite (sfind_map (fun e => - snd e)). destruct (sfind k ps) as [v|]; cbn [snd]; ring. Qed.
Lemma kick_neg c g p p' : p' = kick c g p -> kick c g (negated p') = negated p.
Proof.
  intros ->. unfold kick, negated. rewrite !map_map. apply map_ext. intros [k v]. cbn [fst snd]. f_equal. ring.
Qed.
Lemma moved_back c M q p : has_masses M q -> moved c M (moved c M q p) (negated p) = q.
Proof.
  intros Hm. unfold moved. rewrite map_map. cbn [fst snd].
  apply map_id_in. intros [k v] Hk. cbn [fst snd]. f_equal. rewrite val_negated.
  destruct (Hm k) as [m [E1 E2]]; [apply in_map_iff; exists (k, v); auto|]. rewrite (val_find _ _ _ E1). field. exact E2.
Qed.
Definition rev_state (s : smap Qc * smap Qc) : smap Qc * smap Qc := (fst s, negated (snd s)).
Lemma lfStep_rev differ eps M s s' : has_momenta s -> lfStep differ eps M s = Ok s' ->
  has_momenta s' /\ has_masses M (fst s) /\ skeys (fst s') = skeys (fst s) /\ skeys (snd s') = skeys (snd s) /\
  lfStep differ eps M (rev_state s') = Ok (rev_state s).
Proof.
  intros Hp E. destruct s as [q p]. unfold has_momenta in Hp. cbn [fst snd] in *. unfold lfStep in E. cbn [fst snd] in E.
  destruct (differ q) as [g| | | |] eqn:Eg; cbn [bind] in E; try discriminate.
  destruct (drift eps M q (kick (eps / qz 2) g p)) as [r| | | |] eqn:Ed; cbn [bind] in E; try discriminate.
  apply drift_ok in Ed; [|intros k Hk; rewrite skeys_kick; now apply Hp]. destruct Ed as [-> Hm]. cbn [fst snd] in E.
  set (pA := kick (eps / qz 2) g p) in *. set (q1 := moved eps M q pA) in *.
  destruct (differ q1) as [g2| | | |] eqn:Eg2; cbn [bind] in E; try discriminate. injection E as <-. cbn [fst snd].
  assert (K1 : skeys q1 = skeys q) by apply skeys_moved.
  assert (K2 : skeys (kick (eps / qz 2) g2 pA) = skeys p) by (rewrite skeys_kick; unfold pA; apply skeys_kick).
  split; [intros k; cbn [fst snd]; rewrite K1, K2; apply Hp|]. split; [exact Hm|]. split; [exact K1|]. split; [exact K2|].
  unfold lfStep, rev_state. cbn [fst snd]. rewrite Eg2. cbn [bind]. rewrite (kick_neg _ _ pA _ eq_refl).
  rewrite drift_eq; [|intros k; rewrite skeys_neg; unfold pA; rewrite skeys_kick, K1; apply Hp|exact (has_masses_keys _ _ _ K1 Hm)].
  cbn [bind fst snd]. unfold q1. rewrite moved_back by exact Hm. rewrite Eg. cbn [bind].
  rewrite (kick_neg _ _ p pA eq_refl). reflexivity.
Qed.

Lemma iterate_snoc {A} (f : A -> res A) n : forall s, iterate f (S n) s = bind (iterate f n s) f.
Proof.
  induction n as [|n IH]; intros s; cbn [iterate].
  - cbn [bind]. destruct (f s); reflexivity.
  - cbn [iterate] in IH. destruct (f s) as [s1| | | |]; cbn [bind]; try reflexivity. apply IH.
Qed.
Lemma iterate_rev differ eps M n : forall s s', has_momenta s -> iterate (lfStep differ eps M) n s = Ok s' ->
  has_momenta s' /\ skeys (fst s') = skeys (fst s) /\ skeys (snd s') = skeys (snd s) /\
  iterate (lfStep differ eps M) n (rev_state s') = Ok (rev_state s).
Proof.
  induction n as [|n IH]; intros s s' Hp E.
  - cbn [iterate] in *. injection E as <-. auto.
  - cbn [iterate] in E. destruct (lfStep differ eps M s) as [s1| | | |] eqn:E1; cbn [bind] in E; try discriminate.
    destruct (lfStep_rev _ _ _ _ _ Hp E1) as [Hp1 [_ [K1 [K2 R1]]]]. destruct (IH _ _ Hp1 E) as [Hp2 [K3 [K4 R2]]].
    split; [exact Hp2|]. split; [congruence|]. split; [congruence|]. rewrite iterate_snoc, R2. cbn [bind]. exact R1.
Qed.

(** the several-steps version is the repetition of the single step *)
Lemma two_nz : qz 2 <> 0. Proof. intros C. apply (f_equal this) in C. vm_compute in C. discriminate. Qed.
Lemma two_eq : qz 2 = 1 + 1. Proof. apply Qc_is_canon. reflexivity. Qed.
Lemma kick_twice eps g p : kick (eps / qz 2) g (kick (eps / qz 2) g p) = kick eps g p.
Proof.
  unfold kick. rewrite map_map. apply map_ext. intros [k v]. cbn [fst snd]. f_equal. pose proof two_nz as T2. rewrite two_eq in *. field. exact T2.
Qed.
Lemma steps_loop differ eps M n : forall r j q p, (j + S r = n)%nat ->
  (do x <- foldM (fun r i => do r1 <- drift eps M (fst r) (snd r);
                   if negb (Nat.eqb i (n - 1)) then do g1 <- differ (fst r1); Ok (fst r1, kick eps g1 (snd r1)) else Ok r1) (seq j (S r)) (q, p);
   do g2 <- differ (fst x); Ok (fst x, kick (eps / qz 2) g2 (snd x)))
  = (do d <- drift eps M q p; do g <- differ (fst d); iterate (lfStep differ eps M) r (fst d, kick (eps / qz 2) g (snd d))).
Proof.
  induction r as [|r IH]; intros j q p Hj.
  - cbn [seq foldM fst snd]. destruct (drift eps M q p) as [d| | | |]; cbn [bind]; try reflexivity.
    assert (E : Nat.eqb j (n - 1) = true) by (apply Nat.eqb_eq; lia). rewrite E. cbn [negb bind].
    destruct (differ (fst d)); reflexivity.
  - change (seq j (S (S r))) with (j :: seq (S j) (S r)). cbn [foldM fst snd]. destruct (drift eps M q p) as [d| | | |]; cbn [bind]; try reflexivity.
    assert (E : Nat.eqb j (n - 1) = false) by (apply Nat.eqb_neq; lia). rewrite E. cbn [negb].
    destruct (differ (fst d)) as [g| | | |] eqn:Eg; cbn [bind]; try reflexivity.
    rewrite IH by lia. cbn [iterate]. unfold lfStep at 2. cbn [fst snd]. rewrite Eg. cbn [bind]. rewrite kick_twice.
    destruct (drift eps M (fst d) (kick eps g (snd d))) as [d2| | | |]; cbn [bind]; try reflexivity.
    destruct (differ (fst d2)); reflexivity.
Qed.
Lemma steps_pkg differ eps M n s : (0 < n)%nat -> lfSteps differ eps M n s = iterate (lfStep differ eps M) n s.
Proof.
  intros Hn. destruct n as [|r]; [lia|]. unfold lfSteps. cbn [iterate]. unfold lfStep at 1.
  destruct (differ (fst s)) as [g| | | |]; cbn [bind]; try reflexivity.
  rewrite (steps_loop differ eps M (S r) r 0 (fst s) (kick (eps / qz 2) g (snd s)) eq_refl).
  destruct (drift eps M (fst s) (kick (eps / qz 2) g (snd s))) as [d| | | |]; cbn [bind]; try reflexivity.
  destruct (differ (fst d)); reflexivity.
Qed.
Lemma reverse_pkg differ eps M n q p q' p' : has_momenta (q, p) ->
  lfSteps differ eps M n (q, p) = Ok (q', p') -> lfSteps differ eps M n (q', negated p') = Ok (q, negated p).
Proof.
  intros Hp E. destruct n as [|r].
  - unfold lfSteps in *. cbn [seq foldM fst snd] in *. destruct (differ q) as [g| | | |] eqn:Eg; cbn [bind] in E; try discriminate.
    cbn [fst snd] in E. rewrite Eg in E. cbn [bind] in E. injection E as <- <-. rewrite Eg. cbn [bind fst snd]. rewrite Eg. cbn [bind].
    rewrite (kick_neg _ _ _ _ eq_refl), (kick_neg _ _ _ _ eq_refl). reflexivity.
  - rewrite steps_pkg in * by lia. destruct (iterate_rev _ _ _ _ _ _ Hp E) as [_ [_ [_ R]]]. exact R.
Qed.
Lemma neg_neg p : negated (negated p) = p.
Proof. unfold negated. rewrite map_map. apply map_id_in. intros [k v] _. cbn [fst snd]. f_equal. ring. Qed.
Lemma injective_pkg differ eps M n s1 s2 s' : has_momenta s1 -> has_momenta s2 ->
  lfSteps differ eps M n s1 = Ok s' -> lfSteps differ eps M n s2 = Ok s' -> s1 = s2.
Proof.
  destruct s1 as [q1 p1], s2 as [q2 p2], s' as [q p]. intros H1 H2 E1 E2.
  apply reverse_pkg in E1; [|exact H1]. apply reverse_pkg in E2; [|exact H2]. rewrite E1 in E2. injection E2 as -> E2.
  f_equal. rewrite <- (neg_neg p1), <- (neg_neg p2), E2. reflexivity.
Qed.

(** C49 *)
Lemma gradient_loop f eps x0 (d : string -> Qc) l : eps <> 0 -> NoDup (skeys l) ->
  (forall k v, In (k, v) l -> exists hv lv, f (sset k (v + eps) x0) = Ok hv /\ f (sset k (v - eps) x0) = Ok lv /\ (hv - lv) / qz 2 / eps = d k) ->
  forall g0, swf g0 -> exists g, foldM (fun grad (e : string * Qc) => let (k, v) := e in
           do hv <- f (sset k (v + eps) x0); do lv <- f (sset k (v - eps) x0); do g <- qdiv ((hv - lv) / qz 2) eps; Ok (sset k g grad)) l g0 = Ok g /\
    swf g /\ forall k, sfind k g = if existsb (String.eqb k) (skeys l) then Some (d k) else sfind k g0.
Proof.
  intros He. induction l as [|[k v] t IH]; intros Hnd Hd g0 Hw.
  - exists g0. cbn [foldM skeys map existsb]. auto.
  - unfold skeys in Hnd. cbn [map fst] in Hnd. apply NoDup_cons_iff in Hnd. destruct Hnd as [N1 N2]. cbn [foldM].
    destruct (Hd k v) as [hv [lv [E1 [E2 E3]]]]; [now left|]. rewrite E1, E2. cbn [bind]. unfold qdiv at 1.
    destruct (qeqb eps 0) eqn:Ez; [apply qeqb_eq in Ez; contradiction|]. cbn [bind]. rewrite E3.
    destruct (IH N2) with (g0 := sset k (d k) g0) as [g [G1 [G2 G3]]]; [intros k' v' H; apply Hd; now right|apply sset_wf; exact Hw|].
    exists g. split; [exact G1|]. split; [exact G2|]. intros k'. rewrite G3. unfold skeys. cbn [map fst existsb].
    destruct (String.eqb_spec k' k) as [->|Hne]; cbn [orb].
    + rewrite sfind_sset_eq. destruct (existsb (String.eqb k) (map fst t)); reflexivity.
    + rewrite sfind_sset_neq by exact Hne. reflexivity.
Qed.
Lemma gradient_pkg f eps x0 (d : string -> Qc) : eps <> 0 -> swf x0 ->
  (forall k v, sfind k x0 = Some v -> exists c3 a b c, cubic_in f x0 k c3 a b c /\ d k = qz 3 * c3 * v * v + qz 2 * a * v + b + c3 * eps * eps) ->
  exists g, gradient f eps x0 = Ok g /\ swf g /\ (forall k, In k (skeys x0) -> sfind k g = Some (d k)) /\ (forall k, ~ In k (skeys x0) -> sfind k g = None).
Proof.
  intros He Hw Hd. destruct (gradient_loop f eps x0 d x0 He (swf_nodup _ Hw)) with (g0 := @sempty Qc) as [g [G1 [G2 G3]]].
  - intros k v Hin. apply sfind_In in Hin; [|exact Hw]. destruct (Hd k v Hin) as [c3 [a [b [c [H1 H2]]]]].
    do 2 eexists. split; [apply H1|]. split; [apply H1|]. rewrite H2.
    assert (T : qz 2 = 1 + 1) by (apply Qc_is_canon; reflexivity). assert (T3 : qz 3 = 1 + 1 + 1) by (apply Qc_is_canon; reflexivity).
    pose proof two_nz as T2. rewrite T in *. rewrite T3. field. auto.
  - apply sempty_wf.
  - exists g. split; [exact G1|]. split; [exact G2|]. split; intros k Hk; rewrite G3.
    + assert (E : existsb (String.eqb k) (skeys x0) = true) by (apply existsb_exists; exists k; split; [exact Hk|apply String.eqb_refl]). now rewrite E.
    + destruct (existsb (String.eqb k) (skeys x0)) eqn:E; [|reflexivity]. apply existsb_exists in E. destruct E as [x [X1 X2]].
      apply String.eqb_eq in X2. subst. contradiction.
Qed.
