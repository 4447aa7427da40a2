(** C47, C48, C49: the integrator, the sampler and the gradient of Hamiltonian Monte Carlo. *)
From Coq Require Import ZArith.
From Verif Require Import Base.Res Base.Num Base.SMap Model.Hist Model.MCMC Model.HMC
  Spec.HMCSpec Proofs.HMCP Proofs.HMCP3 Proofs.HMCP4 Proofs.HMCP5.
From Coq Require Import Lia.
Local Open Scope Qc_scope.

(** * C47 *)
(** n steps, momenta negated, n steps: back at the start with negated momenta.  Any gradient (deterministic function of
    the point), masses, step size of either sign, number of steps. *)
Theorem C47_reversible differ eps M n q p q' p' : has_momenta (q, p) ->
  lfSteps differ eps M n (q, p) = Ok (q', p') -> lfSteps differ eps M n (q', negated p') = Ok (q, negated p).
Proof. exact (reverse_pkg differ eps M n q p q' p'). Qed.
Print Assumptions C47_reversible.

(** The fused loop (one full push between drifts) is n single steps (two half pushes), including which failure occurs. *)
Theorem C47_steps_compose differ eps M n s : (0 < n)%nat -> lfSteps differ eps M n s = iterate (lfStep differ eps M) n s.
Proof. exact (steps_pkg differ eps M n s). Qed.
Print Assumptions C47_steps_compose.

(** No two states are carried to the same state. *)
Theorem C47_injective differ eps M n s1 s2 s' : has_momenta s1 -> has_momenta s2 ->
  lfSteps differ eps M n s1 = Ok s' -> lfSteps differ eps M n s2 = Ok s' -> s1 = s2.
Proof. exact (injective_pkg differ eps M n s1 s2 s'). Qed.
Print Assumptions C47_injective.

(** The reflecting version is reversible too, when no step meets a corner or starts out through a wall. *)
Theorem C47_reflective_partial differ eps M mi ma fuel n s s' : 0 < eps -> well_formed M s -> inside mi ma (fst s) ->
  (forall i si, (i < n)%nat -> reflSteps fuel differ eps M mi ma i s = Ok si -> generic differ eps M mi ma si) ->
  reflSteps fuel differ eps M mi ma n s = Ok s' ->
  exists N, forall fuel', (N <= fuel')%nat -> reflSteps fuel' differ eps M mi ma n (fst s', negated (snd s')) = Ok (fst s, negated (snd s)).
Proof. exact (reflSteps_reverse differ eps M mi ma fuel n s s'). Qed.
Print Assumptions C47_reflective_partial.

(** A draw integrates from the current point with the drawn momenta (with walls exactly when both kinds are set) and its
    correction makes the acceptance exponent the drop in total energy. *)
Theorem C47_sampler_correction fuel differ eps n M mi ma gauss cur next corr : (forall k, In k (skeys cur) -> In k (skeys M)) ->
  hmcDraw fuel differ eps n M mi ma gauss cur = Ok (next, corr) ->
  exists p0 p1, swf p0 /\ (forall k, sfind k p0 = if existsb (String.eqb k) (skeys cur) then Some (gauss k) else None) /\
    (mi = [] \/ ma = [] -> lfSteps differ eps M n (cur, p0) = Ok (next, p1)) /\
    (mi <> [] -> ma <> [] -> reflSteps fuel differ eps M mi ma n (cur, p0) = Ok (next, p1)) /\
    corr = energy_of M p0 - energy_of M p1 /\
    (forall (ll : smap Qc -> Qc), ll next - ll cur + corr = (- ll cur + energy_of M p0) - (- ll next + energy_of M p1)).
Proof. exact (draw_pkg fuel differ eps n M mi ma gauss cur next corr). Qed.
Print Assumptions C47_sampler_correction.

(** * C48 *)
(** From inside, not starting out through a wall and meeting no corner, a step terminates, its drift is billiard motion in
    the box (positions folded at the walls, momenta flipped once per reflection), ends inside and keeps the kinetic energy. *)
Theorem C48_step_partial differ eps M mi ma q p g : 0 <= eps -> well_formed M (q, p) -> inside mi ma q -> differ q = Ok g ->
  not_leaving M mi ma q (pushed (eps / qz 2) g p) -> no_corner M mi ma q (pushed (eps / qz 2) g p) eps ->
  exists N q' p', billiard M mi ma q (pushed (eps / qz 2) g p) eps q' p' /\ inside mi ma q' /\
    energy_of M p' = energy_of M (pushed (eps / qz 2) g p) /\
    forall fuel, (N <= fuel)%nat -> reflStep fuel differ eps M mi ma (q, p) = bind (differ q') (fun g' => Ok (q', pushed (eps / qz 2) g' p')).
Proof. exact (refl_step_pkg differ eps M mi ma q p g). Qed.
Print Assumptions C48_step_partial.

Theorem C48_steps_partial differ eps M mi ma fuel n s s' : 0 <= eps -> well_formed M s -> inside mi ma (fst s) ->
  (forall i si, (i < n)%nat -> reflSteps fuel differ eps M mi ma i s = Ok si -> generic differ eps M mi ma si) ->
  reflSteps fuel differ eps M mi ma n s = Ok s' -> well_formed M s' /\ inside mi ma (fst s').
Proof. exact (steps_inside differ eps M mi ma fuel n s s'). Qed.
Print Assumptions C48_steps_partial.

(** The full property is false.  Each witness: masses 1, no gradient, box [-1,1] in each parameter. *)
Definition ex_flat (q : smap Qc) : res (smap Qc) := Ok [].
Definition ex_a (v : Qc) : smap Qc := [("a"%string, v)].
Definition ex_ab (v w : Qc) : smap Qc := [("a"%string, v); ("b"%string, w)].
Lemma ex_not_inside k mi ma q lo hi : In k (skeys q) -> sfind k mi = Some lo -> sfind k ma = Some hi -> hi < val k q -> ~ inside mi ma q.
Proof.
  intros Hk Hlo Hhi Ho H. destruct (H k Hk) as [l [h [E1 [E2 [_ E3]]]]]. rewrite Hhi in E2. injection E2 as <-.
  exact (Qclt_not_le _ _ Ho E3).
Qed.
Lemma ex_inside_a v : - (1) <= v -> v <= 1 -> inside (ex_a (- (1))) (ex_a 1) (ex_a v).
Proof. intros H1 H2 k [<-|[]]. exists (- (1)), 1. repeat split; assumption. Qed.
Lemma ex_inside_ab v w : - (1) <= v -> v <= 1 -> - (1) <= w -> w <= 1 -> inside (ex_ab (- (1)) (- (1))) (ex_ab 1 1) (ex_ab v w).
Proof. intros H1 H2 H3 H4 k [<-|[<-|[]]]; exists (- (1)), 1; repeat split; assumption. Qed.
Lemma ex_swf_a v : swf (ex_a v). Proof. exact (sset_wf _ _ _ (sempty_wf)). Qed.
Lemma ex_swf_ab v w : swf (ex_ab v w). Proof. exact (sset_wf "b"%string w _ (ex_swf_a v)). Qed.
Lemma ex_wf_a q p : well_formed (ex_a 1) (ex_a q, ex_a p).
Proof.
  split; [apply ex_swf_a|]. split; [apply ex_swf_a|]. split; [intros k H; exact H|]. split.
  - intros k [<-|[]]. exists 1. split; [reflexivity|discriminate].
  - intros [H|[]]; discriminate H.
Qed.
Lemma ex_wf_ab q r p s m : m <> 0 -> well_formed (ex_ab 1 m) (ex_ab q r, ex_ab p s).
Proof.
  intros Hm. split; [apply ex_swf_ab|]. split; [apply ex_swf_ab|]. split; [intros k H; exact H|]. split.
  - intros k [<-|[<-|[]]]; [exists 1|exists m]; (split; [reflexivity|]); [discriminate|exact Hm].
  - intros [H|[H|[]]]; discriminate H.
Qed.

(** starting on a wall and moving outwards: no reflection *)
Theorem C48_wall_refuted : exists differ eps M mi ma s s', 0 < eps /\ well_formed M s /\ inside mi ma (fst s) /\
  (forall fuel, reflSteps fuel differ eps M mi ma 1 s = Ok s') /\ ~ inside mi ma (fst s').
Proof.
  exists ex_flat, 1, (ex_a 1), (ex_a (- (1))), (ex_a 1), (ex_a 1, ex_a 1), (ex_a (qz 2), ex_a 1).
  split; [reflexivity|]. split; [apply ex_wf_a|]. split; [apply ex_inside_a; vm_compute; discriminate|]. split.
  - intros fuel. destruct fuel; vm_compute; reflexivity.
  - apply (ex_not_inside "a" _ _ _ (- (1)) 1); [left; reflexivity|reflexivity|reflexivity|vm_compute; reflexivity].
Qed.
Print Assumptions C48_wall_refuted.

(** a step that ends exactly on a wall is not reflected, and the next one leaves the box *)
Theorem C48_landing_refuted : exists differ eps M mi ma s s', 0 < eps /\ well_formed M s /\ inside mi ma (fst s) /\
  generic differ eps M mi ma s /\
  (forall fuel, reflSteps fuel differ eps M mi ma 2 s = Ok s') /\ ~ inside mi ma (fst s').
Proof.
  exists ex_flat, 1, (ex_a 1), (ex_a (- (1))), (ex_a 1), (ex_a 0, ex_a 1), (ex_a (qz 2), ex_a 1).
  split; [reflexivity|]. split; [apply ex_wf_a|]. split; [apply ex_inside_a; vm_compute; discriminate|]. split.
  - exists []. split; [reflexivity|]. split.
    + intros k [<-|[]]. split; intros _; vm_compute; reflexivity.
    + intros a b t [<-|[]] [<-|[]] H. destruct (H eq_refl).
  - split.
    + intros fuel. destruct fuel; vm_compute; reflexivity.
    + apply (ex_not_inside "a" _ _ _ (- (1)) 1); [left; reflexivity|reflexivity|reflexivity|vm_compute; reflexivity].
Qed.
Print Assumptions C48_landing_refuted.

(** two parameters reaching their walls at the same moment: only one is reflected *)
Theorem C48_corner_refuted : exists differ eps M mi ma s s', 0 < eps /\ well_formed M s /\ inside mi ma (fst s) /\
  not_leaving M mi ma (fst s) (snd s) /\
  (forall fuel, (1 <= fuel)%nat -> reflSteps fuel differ eps M mi ma 1 s = Ok s') /\ ~ inside mi ma (fst s').
Proof.
  exists ex_flat, (qz 2), (ex_ab 1 1), (ex_ab (- (1)) (- (1))), (ex_ab 1 1), (ex_ab 0 0, ex_ab 1 1), (ex_ab 0 (qz 2), ex_ab (- (1)) 1).
  split; [reflexivity|]. split; [apply ex_wf_ab; discriminate|]. split; [apply ex_inside_ab; vm_compute; discriminate|]. split.
  - intros k [<-|[<-|[]]]; split; intros _; vm_compute; reflexivity.
  - split.
    + intros [|[|fuel]] H; [lia| |]; vm_compute; reflexivity.
    + apply (ex_not_inside "b" _ _ _ (- (1)) 1); [right; left; reflexivity|reflexivity|reflexivity|vm_compute; reflexivity].
Qed.
Print Assumptions C48_corner_refuted.

(** a parameter whose name is empty is never reflected (the empty name also means "no wall reached") *)
Theorem C48_empty_name_refuted : exists differ eps M mi ma s s', 0 < eps /\ swf (fst s) /\ swf (snd s) /\ has_momenta s /\ has_masses M (fst s) /\
  inside mi ma (fst s) /\ generic differ eps M mi ma s /\
  (forall fuel, reflSteps fuel differ eps M mi ma 1 s = Ok s') /\ ~ inside mi ma (fst s').
Proof.
  pose (e := fun v : Qc => [(""%string, v)]).
  exists ex_flat, (qz 2), (e 1), (e (- (1))), (e 1), (e 0, e 1), (e (qz 2), e 1).
  split; [reflexivity|]. split; [exact (sset_wf _ _ _ (sempty_wf))|]. split; [exact (sset_wf _ _ _ (sempty_wf))|].
  split; [intros k H; exact H|]. split; [intros k [<-|[]]; exists 1; split; [reflexivity|discriminate]|].
  split; [intros k [<-|[]]; exists (- (1)), 1; repeat split; vm_compute; discriminate|]. split.
  - exists []. split; [reflexivity|]. split.
    + intros k [<-|[]]. split; intros _; vm_compute; reflexivity.
    + intros a b t [<-|[]] [<-|[]] H. destruct (H eq_refl).
  - split.
    + intros fuel. destruct fuel; vm_compute; reflexivity.
    + apply (ex_not_inside "" _ _ _ (- (1)) 1); [left; reflexivity|reflexivity|reflexivity|vm_compute; reflexivity].
Qed.
Print Assumptions C48_empty_name_refuted.

(** * C49 *)
(** Exact for a statistic quadratic in each coordinate. *)
Theorem C49_quadratic f eps x0 (d : string -> Qc) : eps <> 0 -> swf x0 ->
  (forall k v, sfind k x0 = Some v -> exists a b c, quadratic_in f x0 k a b c /\ d k = qz 2 * a * v + b) ->
  exists g, gradient f eps x0 = Ok g /\ swf g /\ (forall k, In k (skeys x0) -> sfind k g = Some (d k)) /\ (forall k, ~ In k (skeys x0) -> sfind k g = None).
Proof.
  intros He Hw H. apply (gradient_pkg f eps x0 d He Hw). intros k v E. destruct (H k v E) as [a [b [c [Q D]]]].
  exists 0, a, b, c. split; [|rewrite D; ring]. intros w. rewrite Q. f_equal. ring.
Qed.
Print Assumptions C49_quadratic.

(** For a cubic coordinate the error is exactly (third-order coefficient) * epsilon^2. *)
Theorem C49_cubic f eps x0 (d : string -> Qc) : eps <> 0 -> swf x0 ->
  (forall k v, sfind k x0 = Some v -> exists c3 a b c, cubic_in f x0 k c3 a b c /\ d k = qz 3 * c3 * v * v + qz 2 * a * v + b + c3 * eps * eps) ->
  exists g, gradient f eps x0 = Ok g /\ swf g /\ (forall k, In k (skeys x0) -> sfind k g = Some (d k)) /\ (forall k, ~ In k (skeys x0) -> sfind k g = None).
Proof. exact (gradient_pkg f eps x0 d). Qed.
Print Assumptions C49_cubic.

(** * the theorems are not vacuous *)
(** harmonic forces, two parameters of masses 1 and 2 *)
Definition ex_spring (q : smap Qc) : res (smap Qc) := Ok q.
Definition ex_start := (ex_ab 0 qhalf, ex_ab 1 (- (1))).
Definition okb {A} (r : res A) : bool := match r with Ok _ => true | _ => false end.
Lemma okb_spec {A} (r : res A) : okb r = true -> exists x, r = Ok x.
Proof. destruct r; try discriminate. intros _. eexists. reflexivity. Qed.
Example C47_nonvacuous : has_momenta ex_start /\ (exists s', lfSteps ex_spring qhalf (ex_ab 1 (qz 2)) 5 ex_start = Ok s').
Proof. split; [intros k H; exact H|]. apply okb_spec. vm_compute. reflexivity. Qed.
Example C47_sampler_nonvacuous : exists r, hmcDraw 3 ex_spring qhalf 5 (ex_ab 1 (qz 2)) [] [] (fun _ => 1) (ex_ab 0 qhalf) = Ok r.
Proof. apply okb_spec. vm_compute. reflexivity. Qed.

(** two reflecting steps of length 5/2 from the centre of the box, both parameters reflected in each *)
Definition ex_mid := (ex_ab 0 0, ex_ab 1 1).
Definition ex_mid1 := (ex_ab (- qhalf) (qq 3 4), ex_ab (- (1)) (- (1))).
Definition ex_run2 n := reflSteps 9 ex_flat (qq 5 2) (ex_ab 1 (qz 2)) (ex_ab (- (1)) (- (1))) (ex_ab 1 1) n ex_mid.
Lemma ex_parity (x y k : Z) (t c d : Qc) : t = c + qz (2 * x) -> t = d + qz (4 * y) -> d - c = qz k -> Z.odd k = true -> False.
Proof.
  intros E1 E2 E3 O. assert (E : qz (2 * x) = qz (k + 4 * y)).
  { rewrite qz_add, <- E3. rewrite E1 in E2. assert (R : qz (2 * x) = c + qz (2 * x) - c) by ring. rewrite R, E2. ring. }
  assert ((2 * x = k + 4 * y)%Z). { apply Z.le_antisymm; apply qz_le; rewrite E; apply Qcle_refl. }
  rewrite <- Z.negb_even in O. assert (Z.even (2 * (x - 2 * y)) = true) by (rewrite Z.even_mul; reflexivity).
  replace (2 * (x - 2 * y))%Z with k in H0 by lia. rewrite H0 in O. discriminate O.
Qed.
Lemma qz2 z : qz (2 * z) = qz z * (1 - - (1)).
Proof. replace (2 * z)%Z with (z + z)%Z by lia. rewrite qz_add. ring. Qed.
Lemma qz4 z : qz (4 * z) = qz z * (1 - - (1)) + qz z * (1 - - (1)).
Proof. replace (4 * z)%Z with (2 * z + 2 * z)%Z by lia. rewrite qz_add, qz2. reflexivity. Qed.
Lemma ex_corner0 : no_corner (ex_ab 1 (qz 2)) (ex_ab (- (1)) (- (1))) (ex_ab 1 1) (ex_ab 0 0) (ex_ab 1 1) (qq 5 2).
Proof.
  assert (K : forall t, at_wall (ex_ab 1 (qz 2)) (ex_ab (- (1)) (- (1))) (ex_ab 1 1) (ex_ab 0 0) (ex_ab 1 1) "a" t ->
                        at_wall (ex_ab 1 (qz 2)) (ex_ab (- (1)) (- (1))) (ex_ab 1 1) (ex_ab 0 0) (ex_ab 1 1) "b" t -> False).
  { intros t [x X] [y Y]. unfold free, vel in X, Y. cbn [val ex_ab sfind String.eqb Ascii.eqb Bool.eqb] in X, Y.
    refine (ex_parity x y (-1) t (- (1)) (qz (-2)) _ _ _ eq_refl).
    - rewrite qz2, <- X. unfold Qcdiv. field. discriminate.
    - rewrite qz4. replace t with ((0 + t * (1 / qz 2)) + (0 + t * (1 / qz 2))) by (rewrite two_eq; field; exact two_nz). rewrite Y.
      replace (qz (-2)) with (- (1) + - (1)) by (apply Qc_is_canon; reflexivity). ring.
    - apply Qc_is_canon. reflexivity. }
  intros a b t [<-|[<-|[]]] [<-|[<-|[]]] N _ _ _ _ A B; try (destruct (N eq_refl)); [exact (K t A B)|exact (K t B A)].
Qed.
Lemma ex_corner1 : no_corner (ex_ab 1 (qz 2)) (ex_ab (- (1)) (- (1))) (ex_ab 1 1) (ex_ab (- qhalf) (qq 3 4)) (ex_ab (- (1)) (- (1))) (qq 5 2).
Proof.
  assert (K : forall t, at_wall (ex_ab 1 (qz 2)) (ex_ab (- (1)) (- (1))) (ex_ab 1 1) (ex_ab (- qhalf) (qq 3 4)) (ex_ab (- (1)) (- (1))) "a" t ->
                        at_wall (ex_ab 1 (qz 2)) (ex_ab (- (1)) (- (1))) (ex_ab 1 1) (ex_ab (- qhalf) (qq 3 4)) (ex_ab (- (1)) (- (1))) "b" t -> False).
  { intros t [x X] [y Y]. unfold free, vel in X, Y. cbn [val ex_ab sfind String.eqb Ascii.eqb Bool.eqb] in X, Y.
    refine (ex_parity x y (-3) (- t) (- qhalf) (qq (-7) 2) _ _ _ eq_refl).
    - rewrite qz2. replace (- t) with ((- qhalf + t * (- (1) / 1)) + qhalf) by (field; discriminate). rewrite X.
      replace (- qhalf) with (qhalf - 1) by (apply Qc_is_canon; reflexivity). ring.
    - rewrite qz4. replace (- t) with ((qq 3 4 + t * (- (1) / qz 2)) + (qq 3 4 + t * (- (1) / qz 2)) - (qq 3 4 + qq 3 4)) by (rewrite two_eq; field; exact two_nz). rewrite Y.
      replace (qq (-7) 2) with (- (1) + - (1) - (qq 3 4 + qq 3 4)) by (apply Qc_is_canon; reflexivity). ring.
    - apply Qc_is_canon. reflexivity. }
  intros a b t [<-|[<-|[]]] [<-|[<-|[]]] N _ _ _ _ A B; try (destruct (N eq_refl)); [exact (K t A B)|exact (K t B A)].
Qed.

Example C48_nonvacuous : well_formed (ex_ab 1 (qz 2)) ex_mid /\ inside (ex_ab (- (1)) (- (1))) (ex_ab 1 1) (fst ex_mid) /\
  ex_run2 1 = Ok ex_mid1 /\ (exists s', ex_run2 2 = Ok s') /\
  (forall i si, (i < 2)%nat -> ex_run2 i = Ok si -> generic ex_flat (qq 5 2) (ex_ab 1 (qz 2)) (ex_ab (- (1)) (- (1))) (ex_ab 1 1) si).
Proof.
  assert (R : ex_run2 1 = Ok ex_mid1) by (vm_compute; reflexivity).
  split; [apply ex_wf_ab; discriminate|]. split; [apply ex_inside_ab; vm_compute; discriminate|]. split; [exact R|].
  split; [apply okb_spec; vm_compute; reflexivity|].
  intros [|[|i]] si Hi E; [| |lia].
  - injection E as <-. exists []. split; [reflexivity|].
    replace (pushed (qq 5 2 / qz 2) [] (snd ex_mid)) with (ex_ab 1 1) by (vm_compute; reflexivity). split; [|exact ex_corner0].
    intros k [<-|[<-|[]]]; split; intros _; vm_compute; reflexivity.
  - rewrite R in E. injection E as <-. exists []. split; [reflexivity|].
    replace (pushed (qq 5 2 / qz 2) [] (snd ex_mid1)) with (ex_ab (- (1)) (- (1))) by (vm_compute; reflexivity). split; [|exact ex_corner1].
    intros k [<-|[<-|[]]]; split; intros _; vm_compute; reflexivity.
Qed.

(** 3a^2 + ab - 2b *)
Definition ex_quad (p : smap Qc) : res Qc :=
  Ok (qz 3 * val "a" p * val "a" p + val "a" p * val "b" p - qz 2 * val "b" p).
Example C49_nonvacuous : swf (ex_ab 1 (qz 5)) /\ (forall k v, sfind k (ex_ab 1 (qz 5)) = Some v -> exists a b c, quadratic_in ex_quad (ex_ab 1 (qz 5)) k a b c /\ (if String.eqb k "a" then qz 11 else - (1)) = qz 2 * a * v + b) /\ (exists g, gradient ex_quad (qq 1 10) (ex_ab 1 (qz 5)) = Ok g).
Proof.
  split; [apply ex_swf_ab|]. split; [|apply okb_spec; vm_compute; reflexivity].
  intros k v. unfold ex_ab. cbn [sfind]. destruct (String.eqb k "a") eqn:Ea; [|destruct (String.eqb k "b") eqn:Eb; [|discriminate]].
  - apply String.eqb_eq in Ea. subst k. intros [= <-]. exists (qz 3), (qz 5), (- qz 10). split; [|apply Qc_is_canon; reflexivity].
    intros w. unfold ex_quad. f_equal.
    change (val "a" (sset "a" w [("a"%string, 1); ("b"%string, qz 5)])) with w. change (val "b" (sset "a" w [("a"%string, 1); ("b"%string, qz 5)])) with (qz 5).
    replace (qz 10) with (qz 2 * qz 5) by (apply Qc_is_canon; reflexivity). ring.
  - apply String.eqb_eq in Eb. subst k. intros [= <-]. exists 0, (- (1)), (qz 3). split; [|apply Qc_is_canon; reflexivity].
    intros w. unfold ex_quad. f_equal.
    change (val "a" (sset "b" w [("a"%string, 1); ("b"%string, qz 5)])) with 1. change (val "b" (sset "b" w [("a"%string, 1); ("b"%string, qz 5)])) with w.
    rewrite two_eq. ring.
Qed.
