From Coq Require Import Reals Lia.
From Verif Require Import Base.Res Base.Num Base.RNum Base.SMap Model.Axis Model.Hist Model.Gauss Model.Density Spec.GaussSpec Spec.DensitySpec Proofs.GaussP Proofs.GaussP3 Proofs.GaussP4.
From Coq Require Import Lra.
Local Open Scope R_scope.

Lemma tau_pos : 0 < sqrt (2 * PI).
Proof. apply sqrt_lt_R0. pose proof PI_RGT_0. lra. Qed.
Lemma vat_nth {A} (l : list A) i d : (i < List.length l)%nat -> vat l i = Ok (nth i l d).
Proof. intros H. unfold vat. now rewrite (nth_error_nth' l d H). Qed.
Fixpoint devs (g : gauss) (vals : list Qc) (k : nat) : Qc :=
  match k with O => 0%Qc | S j => (devs g vals j + ((nth j vals 0 - mean_of g j) / std_of g j) * ((nth j vals 0 - mean_of g j) / std_of g j))%Qc end.
Lemma seqS k : seq 0 (S k) = (seq 0 k ++ [k])%list.
Proof. rewrite seq_S. reflexivity. Qed.
Lemma foldM_snoc' {A B} (f : B -> A -> res B) l x : forall s, foldM f (l ++ [x]) s = bind (foldM f l s) (fun r => f r x).
Proof.
  induction l as [|a l IH]; intros s; cbn [foldM app bind].
  - destruct (f s x); reflexivity.
  - destruct (f s a); cbn [bind]; auto.
Qed.
Lemma exponent_ok g vals : sized g -> List.length vals = gND g -> (forall i, (i < gND g)%nat -> std_of g i <> 0%Qc) ->
  gExponent g vals = Ok (devs g vals (gND g)).
Proof.
  intros (Z1 & Z2 & _) L N. unfold gExponent.
  assert (K : forall k, (k <= gND g)%nat -> foldM (fun e i => bind (vat (gMeans g) i) (fun mean => bind (vat (gStds g) i) (fun sd => bind (vat vals i) (fun v =>
                    bind (qdiv (v - mean) sd) (fun nDevs => Ok (e + nDevs * nDevs)%Qc))))) (seq 0 k) 0%Qc = Ok (devs g vals k)).
  { induction k as [|k IH]; intros H; [reflexivity|]. rewrite seqS, foldM_snoc', IH by lia. cbn [bind].
    rewrite (vat_nth _ k 0%Qc) by lia. cbn [bind]. rewrite (vat_nth _ k 0%Qc) by lia. cbn [bind]. rewrite (vat_nth _ k 0%Qc) by lia. cbn [bind].
    unfold qdiv. specialize (N k ltac:(lia)). unfold std_of in N. rewrite (proj2 (qeqb_neq _ _) N). cbn [bind]. reflexivity. }
  apply K. lia.
Qed.
Lemma norm_ok g : sized g -> gNorm g = Ok (rprod (gND g) (fun i => sqrt (2 * PI) * qr (std_of g i))).
Proof.
  intros (Z1 & Z2 & _). unfold gNorm.
  assert (K : forall k, (k <= gND g)%nat -> foldM (fun n i => bind (vat (gStds g) i) (fun sd => Ok (n * (sqrt (2 * PI) * qr sd)))) (seq 0 k) 1 = Ok (rprod k (fun i => sqrt (2 * PI) * qr (std_of g i)))).
  { induction k as [|k IH]; intros H; [reflexivity|]. rewrite seqS, foldM_snoc', IH by lia. cbn [bind]. rewrite (vat_nth _ k 0%Qc) by lia. reflexivity. }
  apply K. lia.
Qed.
Lemma rprod_pos n f : (forall i, (i < n)%nat -> 0 < f i) -> 0 < rprod n f.
Proof. induction n as [|n IH]; cbn [rprod]; intros H; [lra|]. apply Rmult_lt_0_compat; [apply IH; intros; apply H; lia|apply H; lia]. Qed.
Lemma rprod_ext n f h : (forall i, (i < n)%nat -> f i = h i) -> rprod n f = rprod n h.
Proof. induction n as [|n IH]; cbn [rprod]; intros H; [reflexivity|]. rewrite IH by (intros; apply H; lia). now rewrite (H n) by lia. Qed.
Lemma rprod_mono n f h : (forall i, (i < n)%nat -> 0 < f i <= h i) -> 0 < rprod n f <= rprod n h.
Proof.
  induction n as [|n IH]; cbn [rprod]; intros H; [lra|]. assert (A : 0 < rprod n f <= rprod n h) by (apply IH; intros; apply H; lia).
  specialize (H n ltac:(lia)). split; [apply Rmult_lt_0_compat; lra|]. apply Rmult_le_compat; lra.
Qed.
Lemma rprod_strict n f h j : (forall i, (i < n)%nat -> 0 < f i <= h i) -> (j < n)%nat -> f j < h j -> rprod n f < rprod n h.
Proof.
  induction n as [|n IH]; intros H J Lt; [lia|]. cbn [rprod]. assert (A : 0 < rprod n f <= rprod n h) by (apply rprod_mono; intros; apply H; lia).
  pose proof (H n ltac:(lia)) as B. destruct (Nat.eq_dec j n) as [->|Nj].
  - apply Rle_lt_trans with (rprod n h * f n); [apply Rmult_le_compat_r; lra|apply Rmult_lt_compat_l; lra].
  - assert (C : rprod n f < rprod n h) by (apply IH; [intros; apply H; lia|lia|exact Lt]).
    apply Rlt_le_trans with (rprod n h * f n); [apply Rmult_lt_compat_r; lra|apply Rmult_le_compat_l; lra].
Qed.
Lemma density_form g vals : forall k, (forall i, (i < k)%nat -> (0 < std_of g i)%Qc) ->
  exp (- (1 / 2) * qr (devs g vals k)) / rprod k (fun i => sqrt (2 * PI) * qr (std_of g i)) = rprod k (fun i => normal (qr (mean_of g i)) (qr (std_of g i)) (coord vals i)).
Proof.
  induction k as [|k IH]; intros P.
  - cbn [devs rprod]. rewrite qr_0, Rmult_0_r, exp_0. field.
  - cbn [devs rprod]. rewrite <- IH by (intros; apply P; lia). pose proof (P k ltac:(lia)) as Pk. apply qr_lt in Pk. rewrite qr_0 in Pk.
    pose proof tau_pos as T. assert (R : 0 < rprod k (fun i => sqrt (2 * PI) * qr (std_of g i))).
    { apply rprod_pos. intros i Hi. apply Rmult_lt_0_compat; [exact T|]. pose proof (P i ltac:(lia)) as Q. apply qr_lt in Q. now rewrite qr_0 in Q. }
    assert (NZ : std_of g k <> 0%Qc) by (intros Q; rewrite Q, qr_0 in Pk; lra).
    rewrite qr_plus, qr_mult, !(qr_div _ _ NZ), qr_minus. unfold normal, coord. set (x := qr (nth k vals 0%Qc)). set (m := qr (mean_of g k)). set (s := qr (std_of g k)) in *.
    set (D := qr (devs g vals k)). set (B := rprod k _) in *.
    replace (- (1 / 2) * (D + (x - m) / s * ((x - m) / s))) with (- (1 / 2) * D + - ((x - m) * (x - m)) / (2 * s * s)) by (field; lra).
    rewrite exp_plus. field. lra.
Qed.
Lemma density_pkg g x : sized g -> positive_widths g -> List.length x = gND g -> gDensity g x = Ok (density_at g (coord x)).
Proof.
  intros Z P L. unfold gDensity. rewrite L, Nat.eqb_refl. cbn [negb].
  rewrite (exponent_ok g x Z L) by (apply width_nz; exact P).
  cbn [bind]. rewrite (norm_ok g Z). cbn [bind]. f_equal. unfold density_at. apply density_form. exact P.
Qed.
Lemma normal_pos m s x : 0 < s -> 0 < normal m s x.
Proof. intros H. unfold normal. apply Rdiv_lt_0_compat; [apply exp_pos|]. apply Rmult_lt_0_compat; [exact H|apply tau_pos]. Qed.
Lemma Rabs_sqr_le a b : Rabs a <= Rabs b -> a * a <= b * b.
Proof. intros H. apply Rsqr_le_abs_1 in H. exact H. Qed.
Lemma Rabs_sqr_lt a b : Rabs a < Rabs b -> a * a < b * b.
Proof. intros H. apply Rsqr_lt_abs_1 in H. exact H. Qed.
Lemma div_lt a b c : 0 < c -> a < b -> - b / c < - a / c.
Proof. intros H L. unfold Rdiv. apply Rmult_lt_compat_r; [now apply Rinv_0_lt_compat|lra]. Qed.
Lemma normal_lt m s x y : 0 < s -> Rabs (x - m) < Rabs (y - m) -> normal m s y < normal m s x.
Proof.
  intros H L. unfold normal. unfold Rdiv at 1 3. apply Rmult_lt_compat_r.
  - apply Rinv_0_lt_compat. apply Rmult_lt_0_compat; [exact H|apply tau_pos].
  - apply exp_increasing. apply div_lt; [nra|]. now apply Rabs_sqr_lt.
Qed.
Lemma normal_eq m s x y : Rabs (x - m) = Rabs (y - m) -> normal m s y = normal m s x.
Proof. intros L. unfold normal. replace ((y - m) * (y - m)) with ((x - m) * (x - m)); [reflexivity|]. pose proof (Rsqr_eq_asb_1 _ _ L) as Q. exact Q. Qed.
Lemma normal_le m s x y : 0 < s -> Rabs (x - m) <= Rabs (y - m) -> normal m s y <= normal m s x.
Proof. intros H [L|L]; [left; now apply normal_lt|right; now apply normal_eq]. Qed.
Lemma width_r g i : positive_widths g -> (i < gND g)%nat -> 0 < qr (std_of g i).
Proof. intros P H. specialize (P i H). apply qr_lt in P. now rewrite qr_0 in P. Qed.
Lemma order_pkg g x y : sized g -> positive_widths g -> List.length x = gND g -> List.length y = gND g -> no_further g x y ->
  exists dx dy, gDensity g x = Ok dx /\ gDensity g y = Ok dy /\ 0 < dy <= dx /\
    (dy = dx <-> forall i, (i < gND g)%nat -> Rabs (coord x i - qr (mean_of g i)) = Rabs (coord y i - qr (mean_of g i))).
Proof.
  intros Z P Lx Ly F. exists (density_at g (coord x)), (density_at g (coord y)). split; [now apply density_pkg|]. split; [now apply density_pkg|].
  assert (A : forall i, (i < gND g)%nat -> 0 < normal (qr (mean_of g i)) (qr (std_of g i)) (coord y i) <= normal (qr (mean_of g i)) (qr (std_of g i)) (coord x i)).
  { intros i Hi. split; [apply normal_pos; now apply width_r|]. apply normal_le; [now apply width_r|]. now apply F. }
  split; [apply rprod_mono; exact A|]. split.
  - intros E i Hi. destruct (F i Hi) as [L|L]; [|exact L]. exfalso.
    assert (Q : density_at g (coord y) < density_at g (coord x)); [|lra]. apply rprod_strict with i; [exact A|exact Hi|]. apply normal_lt; [now apply width_r|exact L].
  - intros E. apply rprod_ext. intros i Hi. apply normal_eq. now apply E.
Qed.
Lemma max_pkg g x : sized g -> positive_widths g -> List.length x = gND g ->
  exists d top, gDensity g x = Ok d /\ gDensity g (gMeans g) = Ok top /\ 0 < d <= top /\ (d = top <-> x = gMeans g) /\
    top = rprod (gND g) (fun i => 1 / (qr (std_of g i) * sqrt (2 * PI))).
Proof.
  intros Z P L. pose proof (proj1 Z) as Lm. destruct (order_pkg g (gMeans g) x Z P Lm L) as (dt & d & E1 & E2 & Q & Iff).
  { intros i Hi. unfold coord, mean_of. rewrite Rminus_diag_eq by reflexivity. rewrite Rabs_R0. apply Rabs_pos. }
  exists d, dt. split; [exact E2|]. split; [exact E1|]. split; [exact Q|]. split.
  - rewrite Iff. split.
    + intros H. apply nth_ext with 0%Qc 0%Qc; [congruence|]. intros i Hi. specialize (H i ltac:(lia)). unfold coord, mean_of in H.
      rewrite Rminus_diag_eq in H by reflexivity. rewrite Rabs_R0 in H. apply qr_inj. symmetry in H.
      destruct (Req_dec (qr (nth i x 0%Qc) - qr (nth i (gMeans g) 0%Qc)) 0) as [W|W]; [lra|]. now apply Rabs_no_R0 in W.
    + intros ->. reflexivity.
  - rewrite (density_pkg g (gMeans g) Z P Lm) in E1. injection E1 as <-. unfold density_at. apply rprod_ext. intros i Hi. unfold normal, coord, mean_of.
    pose proof (width_r g i P Hi) as W. pose proof tau_pos. rewrite Rminus_diag_eq by reflexivity. replace (- (0 * 0) / (2 * qr (std_of g i) * qr (std_of g i))) with 0 by (field; lra). now rewrite exp_0.
Qed.
Lemma error_pkg g x : (List.length x <> gND g -> gDensity g x = Throw DimensionError) /\
  (sized g -> List.length x = gND g -> (exists i, (i < gND g)%nat /\ std_of g i = 0%Qc) -> gDensity g x = NonFinite).
Proof.
  split.
  - intros H. unfold gDensity. destruct (Nat.eqb_spec (List.length x) (gND g)); [contradiction|reflexivity].
  - intros (Z1 & Z2 & _) L (j & Hj & E0). unfold gDensity. rewrite L, Nat.eqb_refl. cbn [negb].
    assert (G : gExponent g x = NonFinite); [|now rewrite G]. unfold gExponent.
    assert (K : forall k, (k <= gND g)%nat -> (exists e, foldM (fun e i => bind (vat (gMeans g) i) (fun mean => bind (vat (gStds g) i) (fun sd => bind (vat x i) (fun v =>
                    bind (qdiv (v - mean) sd) (fun nDevs => Ok (e + nDevs * nDevs)%Qc))))) (seq 0 k) 0%Qc = Ok e /\ forall i, (i < k)%nat -> std_of g i <> 0%Qc) \/
                    foldM (fun e i => bind (vat (gMeans g) i) (fun mean => bind (vat (gStds g) i) (fun sd => bind (vat x i) (fun v =>
                    bind (qdiv (v - mean) sd) (fun nDevs => Ok (e + nDevs * nDevs)%Qc))))) (seq 0 k) 0%Qc = NonFinite).
    { induction k as [|k IH]; intros H; [left; eexists; split; [reflexivity|lia]|]. rewrite seqS, foldM_snoc'. destruct (IH ltac:(lia)) as [(e & -> & N)| ->]; [|now right].
      cbn [bind]. rewrite (vat_nth _ k 0%Qc) by lia. cbn [bind]. rewrite (vat_nth _ k 0%Qc) by lia. cbn [bind]. rewrite (vat_nth _ k 0%Qc) by lia. cbn [bind].
      unfold qdiv. destruct (qeqb (nth k (gStds g) 0%Qc) 0%Qc) eqn:Q; cbn [bind]; [now right|]. apply qeqb_neq in Q. left. eexists. split; [reflexivity|].
      intros i Hi. destruct (Nat.eq_dec i k) as [->|]; [exact Q|apply N; lia]. }
    destruct (K (gND g) ltac:(lia)) as [(e & _ & N)|R]; [exfalso; now apply (N j Hj)|exact R].
Qed.
(** kernels *)
Lemma jump_density_pkg g x x2 d : sized g -> positive_widths g -> List.length x = gND g -> List.length x2 = gND g -> List.length d = gND g ->
  jDensity (Some g) x x2 = Ok (density_at g (fun i => coord x i - coord x2 i)) /\
  jDensity (Some g) (translate x d) (translate x2 d) = jDensity (Some g) x x2.
Proof.
  intros Z P Lx L2 Ld. split.
  - unfold jDensity. destruct (jDiff_ok x x2) as (y & E & Ly & V); [congruence|]. rewrite E. cbn [bind]. rewrite (density_pkg g y Z P) by congruence. f_equal.
    unfold density_at. apply rprod_ext. intros i Hi. unfold coord. rewrite V by lia. now rewrite qr_minus.
  - unfold jDensity. rewrite jDiff_translate by congruence. reflexivity.
Qed.
Lemma vary_density_pkg fns k x x2 k1 v1 : swf fns -> sized k -> vDensity fns k x x2 = Ok (k1, v1) ->
  sized k1 /\
  (forall i, (i < gND k)%nat -> match sfind (mean_name k i) fns with Some f => f x2 = Ok (mean_of k1 i) | None => mean_of k1 i = mean_of k i end) /\
  (forall i, (i < gND k)%nat -> match sfind (std_name k i) fns with Some f => f x2 = Ok (std_of k1 i) | None => std_of k1 i = std_of k i end) /\
  jDensity (Some k1) x x2 = Ok v1 /\
  (forall x' x2', vDensity fns k1 x' x2' = vDensity fns k x' x2').
Proof.
  intros W Hs. unfold vDensity. destruct (vSetup fns x2) as [d| | | |] eqn:E; cbn [bind]; try discriminate.
  destruct (setup_ok _ _ _ W E) as [Wd [Kd Vd]]. destruct (setAll_pkg d (swf_nodup _ Wd) k Hs) as [k' [F [X S1]]]. rewrite F. cbn [bind].
  destruct (jDensity (Some k') x x2) as [v| | | |] eqn:J; cbn [bind]; try discriminate. intros [= <- <-]. split; [exact S1|].
  pose proof X as [A1 [A2 [A3 [A4 [A5 [A6 A7]]]]]]. split; [|split; [|split; [exact J|]]].
  - intros i Hi. specialize (A6 i Hi). destruct (sfind (mean_name k i) fns) as [f|] eqn:Q.
    + destruct (Vd _ _ Q) as [w [Fw Sw]]. rewrite Sw in A6. congruence.
    + rewrite (proj2 (sfind_not_in _ d)) in A6; [exact A6|]. rewrite Kd. now apply sfind_not_in.
  - intros i Hi. specialize (A7 i Hi). destruct (sfind (std_name k i) fns) as [f|] eqn:Q.
    + destruct (Vd _ _ Q) as [w [Fw Sw]]. rewrite Sw in A7. congruence.
    + rewrite (proj2 (sfind_not_in _ d)) in A7; [exact A7|]. rewrite Kd. now apply sfind_not_in.
  - intros m' y. destruct (vSetup fns y) as [d'| | | |] eqn:E'; cbn [bind]; try reflexivity. destruct (setup_ok _ _ _ W E') as [Wd' [Kd' _]].
    rewrite (setAll_over d d' k k' Hs (swf_nodup _ Wd) (swf_nodup _ Wd') ltac:(intros z; rewrite Kd, Kd'; tauto) F). reflexivity.
Qed.
(** the square root *)
Lemma sqrt_pkg grad x rest : 
  sqrtScale grad [] = Throw std_out_of_range /\
  exists r, sqrtScale grad (x :: rest) = Ok r /\ r * r = qr grad * qr grad * Rabs (qr x) /\ (0 <= qr grad -> 0 <= r) /\ (qr grad <= 0 -> r <= 0) /\
    sqrtScale grad ((- x)%Qc :: rest) = Ok r.
Proof.
  split; [reflexivity|]. exists (qr grad * sqrt (Rabs (qr x))). split; [reflexivity|]. pose proof (Rabs_pos (qr x)) as A. pose proof (sqrt_pos (Rabs (qr x))) as B.
  pose proof (sqrt_sqrt _ A) as C. split; [nra|]. split; [intros; nra|]. split; [intros; nra|]. unfold sqrtScale. cbn. now rewrite qr_opp, Rabs_Ropp.
Qed.
