(** C103: the grid search with rounding. *)
From Coq Require Import ZArith QArith Qcanon Reals Lia.
From Verif Require Import Base.Res Base.Num Base.RNum Base.SMap Model.Axis Model.Hist Model.Rand Model.Grid Model.Float Spec.GridSpec Spec.FloatSpec Proofs.GenP Proofs.GridP3 Proofs.GridP4 Proofs.FloatP1 Proofs.FloatP2.
From Coq Require Import Lra.
Local Open Scope Qc_scope.

Section Grid.
Variables (r : Qc -> Qc) (g : grid).
Hypothesis (WS : well_set g).
Hypothesis (EX : exact_steps r g).
Definition onv (vals : smap Qc) : Prop := forall k, In k (skeys (grMin g)) -> val vals k <= val (grMax g) k /\ exists j : nat, val vals k = val (grMin g) k + qn j * val (grStep g) k.
Lemma sat_val {m : smap Qc} {k} : In k (skeys m) -> sat k m = Ok (val m k).
Proof. intros H. destruct (proj1 (sfind_in _ _) H) as [v E]. unfold sat, val. now rewrite E. Qed.
Lemma val_set k v m k' : val (sset k v m) k' = if String.eqb k' k then v else val m k'.
Proof. unfold val. destruct (String.eqb_spec k' k) as [->|N]; [now rewrite sfind_sset_eq|now rewrite sfind_sset_neq]. Qed.
Lemma onv_set k v vals : onv vals -> (v <= val (grMax g) k /\ exists j : nat, v = val (grMin g) k + qn j * val (grStep g) k) -> onv (sset k v vals).
Proof. intros O H k' Hk'. rewrite val_set. destruct (String.eqb_spec k' k) as [->|N]; [exact H|now apply O]. Qed.
Lemma onv_min : onv (grMin g).
Proof.
  destruct WS as [_ [_ [_ [_ [_ [_ W]]]]]]. intros k Hk. destruct (W k Hk) as [_ [H _]]. split; [exact H|]. exists 0%nat. rewrite qn_0. ring.
Qed.
Lemma inc_eq rest : forall it last vals, onv vals -> incl rest (skeys (grMin g)) ->
  gIncF r g rest it last vals = gInc g rest it last vals /\ forall b v', gInc g rest it last vals = Ok (b, v') -> onv v'.
Proof.
  pose proof WS as [_ [_ [_ [K1 [K2 [_ W]]]]]].
  induction rest as [|k rest IH]; intros it last vals O Hi; cbn [gIncF gInc]; [split; [reflexivity|discriminate]|].
  destruct (dict_eqb (grMin g) (grMax g)); [split; [reflexivity|intros b v' E; injection E as _ <-; exact O]|].
  assert (Hk : In k (skeys (grMin g))) by (apply Hi; now left). assert (Hi' : incl rest (skeys (grMin g))) by (intros x X; apply Hi; now right).
  rewrite !(@sat_val (grStep g)) by now rewrite K2. cbn [bind]. rewrite !(@sat_val (grMax g)) by now rewrite K1. cbn [bind]. rewrite !(@sat_val (grMin g)) by exact Hk. cbn [bind].
  destruct (O k Hk) as [Ov [j Ej]]. change (match sfind k vals with Some x => x | None => Q2Qc 0 end) with (val vals k).
  assert (Er : r (val vals k + val (grStep g) k) = val vals k + val (grStep g) k).
  { replace (val vals k + val (grStep g) k) with (val (grMin g) k + qn (S j) * val (grStep g) k) by (rewrite Ej, qn_S; ring). apply EX; [exact Hk|]. rewrite <- Ej. exact Ov. }
  rewrite Er. assert (Om : onv (sset k (val (grMin g) k) vals)) by (apply onv_set; [exact O|]; apply onv_min; exact Hk).
  destruct (qltb_spec (val (grMax g) k) (val vals k + val (grStep g) k)) as [C|C].
  - destruct (it =? last)%Z; [split; [reflexivity|intros b v' E; injection E as _ <-; exact Om]|]. apply IH; assumption.
  - split; [reflexivity|]. intros b v' E. injection E as _ <-. apply onv_set; [exact O|]. split; [exact C|]. exists (S j). rewrite Ej, qn_S. ring.
Qed.
Lemma loop_eq f fuel : forall vals b, onv vals -> gLoopF r g f fuel vals b = gLoop g f fuel vals b.
Proof.
  pose proof WS as [_ [_ [_ [_ [K2 _]]]]].
  induction fuel as [|fuel IH]; intros vals b O; cbn [gLoopF gLoop]; [reflexivity|].
  destruct (inc_eq (skeys (grStep g)) 0 (Z.of_nat (List.length (grStep g))) vals O) as [E N]; [rewrite K2; apply incl_refl|]. rewrite E.
  destruct (gInc g (skeys (grStep g)) 0 (Z.of_nat (List.length (grStep g))) vals) as [[b0 v']| | | |]; try reflexivity. cbn [bind fst snd].
  destruct b0; [|reflexivity]. destruct (f v'); try reflexivity. cbn [bind]. apply IH. exact (N _ _ eq_refl).
Qed.
End Grid.

Lemma mapM_all {A B} (f : A -> res B) l : (forall x, In x l -> exists y, f x = Ok y) -> exists ys, mapM f l = Ok ys.
Proof.
  induction l as [|x l IH]; intros H; [exists []; reflexivity|]. destruct (H x (or_introl eq_refl)) as [y E]. destruct IH as [ys E2]; [intros z Z; apply H; now right|].
  exists (y :: ys). unfold mapM in *. cbn [map seqM]. rewrite E. cbn [bind]. rewrite E2. reflexivity.
Qed.
Lemma count_ok g q k x : In (k, x) (grMin g) -> swf (grMin g) -> 0 < val (grStep g) k -> 0 <= q -> q < qz (2 ^ 64) ->
  exists c, (if qeqb (val (grStep g) k) 0 then UB else let c := qtrunc q in if (c <? 0)%Z || (2 ^ 64 <=? c)%Z then UB else Ok c) = Ok c.
Proof.
  intros Hk W S0 Q0 Q1. destruct (qeqb (val (grStep g) k) 0) eqn:E. { apply qeqb_eq in E. rewrite E in S0. exfalso. exact (Qclt_not_eq _ _ S0 eq_refl). }
  destruct (qtrunc_bounds q (2 ^ 64) Q0 Q1) as [A B]. cbv zeta. destruct (Z.ltb_spec (qtrunc q) 0); [lia|]. destruct (Z.leb_spec (2 ^ 64) (qtrunc q)); [lia|]. eexists. reflexivity.
Qed.
Lemma qdiv_nonneg x y : 0 <= x -> 0 < y -> 0 <= x / y.
Proof.
  intros A B. assert (N : y <> 0) by (intros C; rewrite C in B; exact (Qclt_not_eq _ _ B eq_refl)). apply qr_le. rewrite qr_div by exact N. apply qr_le in A. apply qr_lt in B. rewrite qr_0 in *. apply Rmult_le_pos; [exact A|left; now apply Rinv_0_lt_compat].
Qed.
Lemma qdiv_lt x y z : 0 < y -> x < z * y -> x / y < z.
Proof.
  intros B A. assert (N : y <> 0) by (intros C; rewrite C in B; exact (Qclt_not_eq _ _ B eq_refl)). apply qr_lt. rewrite qr_div by exact N. apply qr_lt in A, B. rewrite qr_0 in *. rewrite qr_mult in A. apply (Rmult_lt_reg_r (qr y)); [exact B|]. unfold Rdiv. rewrite Rmult_assoc, Rinv_l by lra. lra.
Qed.
Lemma grid_same r g f fuel : rounding r -> well_set g -> exact_steps r g ->
  (forall k, In k (skeys (grMin g)) -> r (r (val (grMax g) k - val (grMin g) k) / val (grStep g) k) < qz (2 ^ 64)) ->
  gOptimiseF r g f fuel = gOptimise g f fuel.
Proof.
  intros [M [Z0 I]] WS EX CN. pose proof WS as [W1 [_ [_ [K1 [K2 [_ W]]]]]].
  assert (V : forall k x, In (k, x) (grMin g) -> val (grMin g) k = x /\ In k (skeys (grMin g))).
  { intros k x H. split; [|apply in_map_iff; exists (k, x); split; [reflexivity|exact H]]. apply sfind_In in H; [|exact W1]. unfold val. now rewrite H. }
  assert (D : forall k, In k (skeys (grMin g)) -> 0 <= val (grMax g) k - val (grMin g) k).
  { intros k Hk. destruct (W k Hk) as [_ [H _]]. apply qr_le in H. apply qr_le. rewrite qr_minus, qr_0. lra. }
  assert (C1 : exists l, mapM (gCountF r g) (grMin g) = Ok l).
  { apply mapM_all. intros [k x] Hx. destruct (V k x Hx) as [Ex Hk]. destruct (W k Hk) as [S0 _]. unfold gCountF. cbn [fst snd]. fold (val (grMax g) k) (val (grStep g) k). rewrite <- Ex. apply (count_ok g _ k x); auto.
    rewrite <- Z0. apply M. apply qdiv_nonneg; [|exact S0]. rewrite <- Z0. apply M. now apply D. }
  assert (C2 : exists l, mapM (gCount g) (grMin g) = Ok l).
  { apply mapM_all. intros [k x] Hx. destruct (V k x Hx) as [Ex Hk]. destruct (W k Hk) as [S0 [_ S2]]. unfold gCount. cbn [fst snd]. fold (val (grMax g) k) (val (grStep g) k). rewrite <- Ex. apply (count_ok g _ k x); auto.
    - apply qdiv_nonneg; [now apply D|exact S0].
    - now apply qdiv_lt. }
  unfold gOptimiseF, gOptimise. destruct (negb (hasSameKeys (grStep g) (grMax g)) || negb (hasSameKeys (grStep g) (grMin g))); [reflexivity|].
  destruct C1 as [l1 ->], C2 as [l2 ->]. cbn [bind]. apply loop_eq; [exact WS|exact EX|apply onv_min; exact WS].
Qed.
Lemma qz_mul a b : qz (a * b) = qz a * qz b.
Proof. apply qr_inj. rewrite qr_mult, !qr_z. apply mult_IZR. Qed.
Lemma qz_add a b : qz (a + b) = qz a + qz b.
Proof. apply qr_inj. rewrite qr_plus, !qr_z. apply plus_IZR. Qed.
Lemma two_pow_pos e : 0 < two_pow e.
Proof. apply qr_lt. rewrite qr_0, qr_two_pow. apply Flocq.Core.Raux.bpow_gt_0. Qed.
Lemma scaled_le a b e : qz a * two_pow e <= qz b * two_pow e <-> (a <= b)%Z.
Proof.
  pose proof (two_pow_pos e) as P. apply qr_lt in P. rewrite qr_0 in P. rewrite qr_le, !qr_mult, !qr_z. split; intros H.
  - apply le_IZR. now apply Rmult_le_reg_r in H.
  - apply Rmult_le_compat_r; [lra|now apply IZR_le].
Qed.
Lemma grid_double g f fuel : well_set g -> few_bits g -> gOptimiseF b64 g f fuel = gOptimise g f fuel.
Proof.
  intros WS FB. pose proof WS as [_ [_ [_ [_ [_ [_ W]]]]]]. pose proof b64_rounding as BR. apply grid_same; [exact BR|exact WS| |].
  - intros k j Hk H. destruct (FB k Hk) as [e [a [s [b [He [Ha [Hb [E1 [E2 E3]]]]]]]]]. destruct (W k Hk) as [S0 _].
    assert (S1 : (0 < s)%Z). { apply Z.lt_nge. intros C. rewrite E2 in S0. apply (scaled_le s 0 e) in C. replace (qz 0 * two_pow e) with 0 in C by (change (qz 0) with 0; ring). exact (Qclt_not_le _ _ S0 C). }
    rewrite E1, E2, E3 in *. unfold qn in *. replace (qz a * two_pow e + qz (Z.of_nat j) * (qz s * two_pow e)) with (qz (a + Z.of_nat j * s) * two_pow e) in H by (rewrite qz_add, qz_mul; ring).
    replace (qz a * two_pow e + qz (Z.of_nat (S j)) * (qz s * two_pow e)) with (qz (a + Z.of_nat (S j) * s) * two_pow e) by (rewrite qz_add, qz_mul; ring).
    apply scaled_le in H. apply b64_dyadic; [|exact He]. rewrite Nat2Z.inj_succ. apply Z.abs_le. nia.
  - intros k Hk. destruct (FB k Hk) as [e [a [s [b [He [Ha [Hb [E1 [E2 E3]]]]]]]]]. destruct (W k Hk) as [S0 [S2 _]].
    assert (S1 : (0 < s)%Z). { apply Z.lt_nge. intros C. rewrite E2 in S0. apply (scaled_le s 0 e) in C. replace (qz 0 * two_pow e) with 0 in C by (change (qz 0) with 0; ring). exact (Qclt_not_le _ _ S0 C). }
    destruct BR as [M _].
    assert (A1 : b64 (val (grMax g) k - val (grMin g) k) <= qz (2 ^ 53) * two_pow (e + 1)).
    { rewrite <- (b64_dyadic (2 ^ 53) (e + 1)) by lia. apply M. rewrite E1, E3. replace (two_pow (e + 1)) with (qz 2 * two_pow e).
      - replace (qz b * two_pow e - qz a * two_pow e) with (qz (b - a) * two_pow e) by (unfold Z.sub; rewrite qz_add; apply qr_inj; rewrite !qr_minus, !qr_mult, qr_plus, !qr_z, opp_IZR; ring). rewrite Qcmult_assoc, <- qz_mul. apply scaled_le. lia.
      - apply qr_inj. rewrite qr_mult, !qr_two_pow, qr_z, Flocq.Core.Raux.bpow_plus. change (Flocq.Core.Raux.bpow Flocq.Core.Zaux.radix2 1) with 2%R. ring. }
    apply Qcle_lt_trans with (qz (2 ^ 53) * two_pow 1); [|vm_compute; reflexivity]. rewrite <- (b64_dyadic (2 ^ 53) 1) by lia. apply M.
    assert (N : val (grStep g) k <> 0) by (intros C; rewrite C in S0; exact (Qclt_not_eq _ _ S0 eq_refl)).
    apply qr_le. rewrite qr_div by exact N. apply qr_le in A1. apply qr_lt in S0. rewrite qr_0 in S0. apply (Rmult_le_reg_r (qr (val (grStep g) k))); [exact S0|]. unfold Rdiv. rewrite Rmult_assoc, Rinv_l by lra. rewrite Rmult_1_r.
    eapply Rle_trans; [exact A1|]. rewrite E2, !qr_mult, !qr_two_pow, !qr_z, Flocq.Core.Raux.bpow_plus. set (p := Flocq.Core.Raux.bpow Flocq.Core.Zaux.radix2 e). assert (P0 : (0 < p)%R) by apply Flocq.Core.Raux.bpow_gt_0. change (Flocq.Core.Raux.bpow Flocq.Core.Zaux.radix2 1) with 2%R.
    assert (S3 : (1 <= IZR s)%R) by (apply IZR_le; lia). assert (X : (p <= IZR s * p)%R) by nra. set (t := IZR (2 ^ 53)). assert (T : (0 < t)%R) by (apply IZR_lt; reflexivity). nra.
Qed.
