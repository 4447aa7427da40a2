From Coq Require Import ZArith Permutation Lia.
From Verif Require Import Base.Res Base.Num Base.SMap Model.Axis Model.Event Model.Cut Model.Hist Model.Shrink Model.Data Model.Rand Model.Gen Spec.GenSpec.
From Coq Require Import Lia.
Local Open Scope Z_scope.

(** truncation *)
Lemma qz_le (q : Qc) : (0 <= q)%Qc <-> 0 <= Qnum (this q).
Proof. unfold Qcle, Qle. cbn. rewrite Z.mul_1_r. tauto. Qed.
Lemma qlt_z (q : Qc) z : (q < qz z)%Qc <-> Qnum (this q) < z * Zpos (Qden (this q)).
Proof.
  unfold Qclt, qz. cbn [this Q2Qc]. rewrite Qred_correct. unfold Qlt, inject_Z. cbn [Qnum Qden]. rewrite Z.mul_1_r. tauto.
Qed.
Lemma qtrunc_bounds q z : (0 <= q)%Qc -> (q < qz z)%Qc -> 0 <= qtrunc q < z.
Proof.
  intros A B. apply qz_le in A. apply qlt_z in B. unfold qtrunc. rewrite Z.quot_div_nonneg by lia. split; [apply Z.div_pos; lia|].
  apply Z.div_lt_upper_bound; lia.
Qed.
Lemma qmul_0 (q : Qc) : (qz 0 * q = 0)%Qc. Proof. change (qz 0) with (0%Qc). ring. Qed.
Lemma shoot_bounds m u : 0 <= m -> (0 <= u)%Qc -> (u < 1)%Qc -> 0 <= rShoot m u /\ (rShoot m u < m \/ m = 0 /\ rShoot m u = 0).
Proof.
  intros Hm H0 H1. unfold rShoot, rUniform. replace (1 * u)%Qc with u by ring. destruct (Z.eq_dec m 0) as [->|Hn].
  - rewrite qmul_0. change (qtrunc 0%Qc) with 0%Z. split; [lia|right; split; reflexivity].
  - assert (P : (0 < qz m)%Qc) by (apply qlt_z; change (0 < m * 1)%Z; lia).
    destruct (qtrunc_bounds (qz m * u) m) as [A B].
    + rewrite <- (qmul_0 u). apply Qcmult_le_compat_r; [|exact H0]. apply Qclt_le_weak. exact P.
    + rewrite <- (Qcmult_1_r (qz m)) at 2. rewrite (Qcmult_comm (qz m) u), (Qcmult_comm (qz m) 1). apply Qcmult_lt_compat_r; assumption.
    + split; [exact A|left; exact B].
Qed.
Lemma w64_id z : 0 <= z < 2 ^ 64 -> w64 z = z. Proof. intros H. apply Z.mod_small. exact H. Qed.
Lemma s32_id z : 0 <= z < 2 ^ 31 -> s32 z = z.
Proof. intros H. unfold s32. rewrite Z.mod_small by lia. lia. Qed.
Lemma w64_m1 : w64 (-1) = 2 ^ 64 - 1. Proof. reflexivity. Qed.
Lemma m999_val : m999 = 2 ^ 64 - 999. Proof. reflexivity. Qed.

(** list updates *)
Lemma upd_app_r {A} (l m : list A) i a : (List.length l <= i)%nat -> upd (l ++ m) i a = l ++ upd m (i - List.length l) a.
Proof.
  revert i. induction l as [|x l IH]; intros i H; cbn in *; [rewrite Nat.sub_0_r; reflexivity|]. destruct i; [lia|]. cbn. rewrite IH by lia. reflexivity.
Qed.
Lemma upd_mid {A} (l m : list A) x a : upd (l ++ x :: m) (List.length l) a = l ++ a :: m.
Proof. rewrite upd_app_r by lia. rewrite Nat.sub_diag. reflexivity. Qed.
Lemma vidx_mid {A} (l m : list A) x : vidx (l ++ x :: m) (List.length l) = Ok x.
Proof. unfold vidx. rewrite nth_error_app2 by lia. rewrite Nat.sub_diag. reflexivity. Qed.
Lemma split_at {A} (l : list A) i : (i < List.length l)%nat -> exists a x b, l = a ++ x :: b /\ List.length a = i.
Proof.
  intros H. destruct (nth_error l i) as [x|] eqn:E; [|apply nth_error_None in E; lia].
  destruct (nth_error_split _ _ E) as [a [b [H1 H2]]]. exists a, x, b. auto.
Qed.
Lemma last_split {A} (l : list A) n : List.length l = S n -> exists a x, l = a ++ [x] /\ List.length a = n.
Proof. intros H. destruct (split_at l n) as [a [x [b [-> E]]]]; [lia|]. rewrite app_length in H. cbn in H. destruct b; [eauto|cbn in H; lia]. Qed.
Lemma zidx_nat {A} (l : list A) n : zidx l (Z.of_nat n) = vidx l n.
Proof.
  unfold zidx. destruct (Z.ltb_spec (Z.of_nat n) 0); [lia|]. cbn [orb]. destruct (Z.leb_spec (Z.of_nat (List.length l)) (Z.of_nat n)); [|rewrite Nat2Z.id; reflexivity].
  unfold vidx. replace (nth_error l n) with (@None A); [reflexivity|]. symmetry. apply nth_error_None. lia.
Qed.

(** swapping a drawn entry to the end of the left part *)
Lemma swap_left (L G : list nat) n d : List.length L = S n -> (d < n \/ n = 0 /\ d = 0)%nat -> exists L1 e,
  g_swap (L ++ G) (Z.of_nat d) (Z.of_nat n) = Ok (L1 ++ e :: G) /\ List.length L1 = n /\ nth_error L d = Some e /\ Permutation (e :: L1) L.
Proof.
  intros HL [Hd|[-> ->]].
  - destruct (last_split L n HL) as [A [m [-> HA]]]. destruct (split_at A d) as [a [x [b [-> Ha]]]]; [lia|].
    exists (a ++ m :: b), x. unfold g_swap. rewrite !zidx_nat. rewrite <- !app_assoc. cbn [app].
    rewrite <- Ha at 1. rewrite (vidx_mid a (b ++ m :: G) x). cbn [bind].
    assert (HN : n = List.length (a ++ x :: b)) by congruence.
    replace (vidx (a ++ x :: b ++ m :: G) n) with (@Ok nat m).
    2:{ rewrite HN. change (a ++ x :: b ++ m :: G) with (a ++ (x :: b) ++ m :: G). rewrite app_assoc. symmetry. apply vidx_mid. }
    cbn [bind]. unfold zupd. rewrite !Nat2Z.id. rewrite <- Ha. rewrite upd_mid.
    split; [|split; [|split]].
    + f_equal. assert (HN2 : n = List.length (a ++ m :: b)) by (rewrite HN, !app_length; reflexivity). rewrite HN2.
      change (a ++ m :: b ++ m :: G) with (a ++ (m :: b) ++ m :: G). rewrite app_assoc. rewrite upd_mid. rewrite <- app_assoc. reflexivity.
    + rewrite HN, !app_length. reflexivity.
    + rewrite nth_error_app2 by lia. rewrite Nat.sub_diag. reflexivity.
    + change (x :: a ++ m :: b) with ([x] ++ a ++ m :: b). change (a ++ x :: b ++ [m]) with (a ++ [x] ++ b ++ [m]).
      rewrite (Permutation_app_comm [x]). rewrite <- app_assoc. apply Permutation_app_head.
      change (m :: b) with ([m] ++ b). rewrite <- app_assoc. rewrite (Permutation_app_comm [m]). rewrite <- app_assoc.
      rewrite (Permutation_app_comm b). rewrite <- app_assoc. apply Permutation_app_head. apply Permutation_app_comm.
  - destruct L as [|x [|y L]]; cbn in HL; try lia. exists [], x. cbn. auto.
Qed.

(** a slot in use: L are the indices left, G those given out *)
Definition used (N : nat) (sl : slot) (L G : list nat) : Prop :=
  fst sl = L ++ G /\ Permutation (L ++ G) (seq 0 N) /\ snd sl = w64 (Z.of_nat (List.length L) - 1).
Lemma used_len N sl L G : used N sl L G -> (List.length L + List.length G = N)%nat.
Proof. intros [_ [P _]]. apply Permutation_length in P. rewrite app_length, seq_length in P. exact P. Qed.
Lemma used_max N sl L G : Z.of_nat N <= 2 ^ 31 -> used N sl L G -> L <> [] -> g_max sl = Z.of_nat (List.length L) - 1.
Proof.
  intros B U Hn. pose proof (used_len _ _ _ _ U) as HL. unfold g_max. rewrite (proj2 (proj2 U)).
  assert (Hp : (0 < List.length L)%nat) by (destruct L; [congruence|cbn; lia]).
  rewrite w64_id by lia. rewrite m999_val. destruct (Z.eqb_spec (Z.of_nat (List.length L) - 1) (2 ^ 64 - 999)); [lia|reflexivity].
Qed.
Lemma used_in N sl L G e : used N sl L G -> In e (L ++ G) -> (e < N)%nat.
Proof. intros [_ [P _]] H. apply (Permutation_in _ P) in H. apply in_seq in H. lia. Qed.

Definition ev (s : src) (i : nat) : list Qc := nth i (sEvs s) [].
Definition passed (cs : list cut) (s : src) (e : list Qc) : bool :=
  match passesCuts cs (mkEvent e (Some (sNames s))) with Ok b => b | _ => false end.
Definition keeps (cs : list cut) (s : src) (l : list (list Qc)) : list (list Qc) := filter (passed cs s) l.

Lemma getDatum_named e ns n : (exists v, getDatum (mkEvent e (Some ns)) n = Ok v) \/ (exists x, getDatum (mkEvent e (Some ns)) n = Throw x).
Proof.
  unfold getDatum. cbn [evNames]. destruct (index_of n ns); [|right; eauto]. unfold getDatumIdx. destruct (nth_error _ _); eauto.
Qed.
Lemma passesCut_cases c e ns : (exists v, passesCut c (mkEvent e (Some ns)) = Ok v) \/ (exists x, passesCut c (mkEvent e (Some ns)) = Throw x).
Proof. destruct c; cbn [passesCut]; destruct (getDatum_named e ns obs) as [[v ->]|[x ->]]; cbn; eauto. Qed.
Lemma passesCuts_cases cs e ns : (exists v, passesCuts cs (mkEvent e (Some ns)) = Ok v) \/ (exists x, passesCuts cs (mkEvent e (Some ns)) = Throw x).
Proof.
  induction cs as [|c cs IH]; cbn; [eauto|]. destruct (passesCut_cases c e ns) as [[v ->]|[x ->]]; cbn; [|eauto]. destruct v; cbn; [exact IH|eauto].
Qed.
Lemma ds_add_cases a out e : (exists o, ds_add a out e = (o, Ok tt) /\ events_of o = events_of out ++ [e] /\ dNObs o = List.length e /\ dNames o = dNames out) \/
  (exists o x, ds_add a out e = (o, Throw x)).
Proof.
  unfold ds_add, events_of. destruct (Nat.eqb_spec (dNObs out) 0).
  - destruct (Nat.eqb_spec (List.length e) 0); [eauto|]. left. eexists. split; [reflexivity|]. cbn. rewrite map_app. auto.
  - destruct (Nat.eqb_spec (dNObs out) (List.length e)) as [H|]; cbn [negb]; [|eauto]. destruct (Nat.eqb (List.length e) 0); [eauto|].
    left. eexists. split; [reflexivity|]. cbn. rewrite map_app. auto.
Qed.
(** an output in the making fits events of m observables *)
Definition fits (m : nat) (out : dset) : Prop := dNObs out = 0%nat \/ dNObs out = m.
Lemma ds_add_fits a out e m : (0 < m)%nat -> List.length e = m -> fits m out -> exists o, ds_add a out e = (o, Ok tt) /\ events_of o = events_of out ++ [e] /\ fits m o.
Proof.
  intros Hm He F. unfold ds_add, events_of, fits in *. rewrite He. destruct (Nat.eqb_spec m 0); [lia|].
  destruct F as [-> | ->]; cbn [Nat.eqb].
  - eexists. split; [reflexivity|]. cbn. rewrite map_app. auto.
  - destruct (Nat.eqb_spec m 0); [lia|]. rewrite Nat.eqb_refl. cbn [negb]. eexists. split; [reflexivity|]. cbn. rewrite map_app. auto.
Qed.
Lemma keep_cases cs s out e : (e < List.length (sEvs s))%nat ->
  (exists o, g_keep cs s out e = Ok o /\ events_of o = events_of out ++ keeps cs s [ev s e]) \/ (exists x, g_keep cs s out e = Throw x).
Proof.
  intros H. unfold g_keep, s_get, ev. destruct (nth_error (sEvs s) e) as [x|] eqn:E; [|apply nth_error_None in E; lia].
  rewrite (nth_error_nth _ _ [] E). cbn [bind]. unfold keeps, passed. cbn [filter]. destruct (passesCuts_cases cs x (sNames s)) as [[b ->]|[y ->]]; cbn [bind]; [|eauto].
  destruct b; [|left; eexists; split; [reflexivity|rewrite app_nil_r; reflexivity]].
  destruct (ds_add_cases 0 out x) as [[o [-> [E1 _]]]|[o [y ->]]]; [left; eexists; split; [reflexivity|exact E1]|right; eauto].
Qed.
Lemma keep_clean s out e m : (e < List.length (sEvs s))%nat -> (0 < m)%nat -> Forall (fun x => List.length x = m) (sEvs s) -> fits m out ->
  exists o, g_keep [] s out e = Ok o /\ fits m o.
Proof.
  intros H Hm Fm F. unfold g_keep, s_get. destruct (nth_error (sEvs s) e) as [x|] eqn:E; [|apply nth_error_None in E; lia].
  cbn [bind passesCuts]. rewrite Forall_forall in Fm. destruct (ds_add_fits 0 out x m Hm (Fm x (nth_error_In _ _ E)) F) as [o [-> [_ F2]]]. eauto.
Qed.

(** one random draw without replacement *)
Lemma norep_one cs s u sl out N L G : N = List.length (sEvs s) -> Z.of_nat N <= 2 ^ 31 -> (0 <= u)%Qc -> (u < 1)%Qc -> used N sl L G -> L <> [] ->
  exists L1 e sl', Permutation (e :: L1) L /\ (e < N)%nat /\
   ((exists o, norep_step cs s u sl out = (sl', Ok o) /\ g_keep cs s out e = Ok o /\ used N sl' L1 (e :: G)) \/
    (exists x, norep_step cs s u sl out = (sl', Throw x) /\ g_keep cs s out e = Throw x /\ used N sl' (L1 ++ [e]) G)).
Proof.
  intros HN B H0 H1 U Hn. pose proof (used_max _ _ _ _ B U Hn) as M. pose proof (used_len _ _ _ _ U) as Hlen.
  destruct (List.length L) as [|n] eqn:EL; [destruct L; [congruence|discriminate]|].
  assert (M' : g_max sl = Z.of_nat n) by lia. clear M.
  destruct (shoot_bounds (Z.of_nat n) u ltac:(lia) H0 H1) as [SA SB].
  set (d := Z.to_nat (rShoot (Z.of_nat n) u)).
  assert (Hd : (d < n \/ n = 0 /\ d = 0)%nat) by (unfold d; lia).
  assert (Ed : w64 (rShoot (s32 (Z.of_nat n)) u) = Z.of_nat d).
  { rewrite s32_id by lia. rewrite w64_id by lia. unfold d. lia. }
  destruct (swap_left L G n d EL Hd) as [L1 [e [SW [H1n [_ P]]]]].
  pose proof U as [Ui [Up Um]].
  assert (Hin : (e < N)%nat).
  { apply (used_in _ _ _ _ e U). apply in_or_app. left. apply (Permutation_in _ P). cbn. auto. }
  assert (P2 : Permutation (L1 ++ e :: G) (seq 0 N)).
  { rewrite <- Up. rewrite <- P. cbn. symmetry. apply Permutation_middle. }
  unfold norep_step. rewrite M', Ed, Ui, SW. rewrite zidx_nat.
  replace (vidx (L1 ++ e :: G) n) with (@Ok nat e) by (rewrite <- H1n; symmetry; apply vidx_mid). cbn [bind].
  assert (Hlt : (e < List.length (sEvs s))%nat) by lia.
  destruct (keep_cases cs s out e Hlt) as [[o [E _]]|[x E]]; rewrite E.
  - exists L1, e, (L1 ++ e :: G, w64 (Z.of_nat n - 1)). split; [exact P|]. split; [exact Hin|]. left. exists o. split; [reflexivity|]. split; [exact E|].
    split; [reflexivity|]. split; [exact P2|]. cbn [snd]. rewrite H1n. reflexivity.
  - exists L1, e, (L1 ++ e :: G, Z.of_nat n). split; [exact P|]. split; [exact Hin|]. right. exists x. split; [reflexivity|]. split; [exact E|].
    split; [cbn [fst]; rewrite <- app_assoc; reflexivity|]. split; [rewrite <- app_assoc; exact P2|]. cbn [snd]. rewrite app_length, H1n. cbn [List.length].
    rewrite w64_id by lia. lia.
Qed.

Lemma rounds_norep cs s (u : nat -> Qc) N : N = List.length (sEvs s) -> Z.of_nat N <= 2 ^ 31 -> (forall j, (0 <= u j)%Qc /\ (u j < 1)%Qc) ->
  forall n j sl out L G, used N sl L G -> (n <= List.length L)%nat ->
  exists L' G' es sl' r, g_rounds (fun j => norep_step cs s (u j)) n j sl out = (sl', r) /\ used N sl' L' G' /\
    Permutation (es ++ L') L /\ (List.length es <= n)%nat /\ Forall (fun e => (e < N)%nat) es /\
    ((exists o, r = Ok o /\ List.length es = n /\ events_of o = events_of out ++ keeps cs s (map (ev s) es)) \/
     (exists x, r = Throw x)) /\
    (cs = [] -> forall m, (0 < m)%nat -> Forall (fun x => List.length x = m) (sEvs s) -> fits m out -> exists o, r = Ok o /\ fits m o).
Proof.
  intros HN B Hu. induction n as [|n IH]; intros j sl out L G U Hn; cbn [g_rounds].
  - exists L, G, [], sl, (Ok out). split; [reflexivity|]. split; [exact U|]. split; [reflexivity|]. split; [auto|]. split; [constructor|].
    split; [left; exists out; split; [reflexivity|]; split; [reflexivity|]; cbn; rewrite app_nil_r; reflexivity|]. eauto.
  - assert (HL : L <> []) by (destruct L; [cbn in Hn; lia|discriminate]).
    destruct (Hu j) as [H0 H1]. destruct (norep_one cs s (u j) sl out N L G HN B H0 H1 U HL) as [L1 [e [sl1 [P [He [[o [E [K U1]]]|[x [E [K U1]]]]]]]]]; rewrite E.
    + assert (Hn1 : (n <= List.length L1)%nat) by (apply Permutation_length in P; cbn in P; lia).
      destruct (IH (S j) sl1 o L1 (e :: G) U1 Hn1) as [L' [G' [es [sl' [r [E2 [U2 [P2 [Hl [Fe [R Cl]]]]]]]]]]].
      exists L', G', (e :: es), sl', r. split; [exact E2|]. split; [exact U2|].
      split; [cbn [app]; rewrite P2; exact P|]. split; [cbn; lia|]. split; [constructor; assumption|]. split.
      * destruct R as [[o' [-> [Hl' Ho]]]|[x ->]]; [left|right; eauto]. exists o'. split; [reflexivity|]. split; [cbn; lia|].
        assert (HK : events_of o = events_of out ++ keeps cs s [ev s e]).
        { destruct (keep_cases cs s out e) as [[o2 [K2 Q]]|[x K2]]; [lia| |congruence]. rewrite K in K2. injection K2 as <-. exact Q. }
        rewrite Ho, HK, <- app_assoc. f_equal. unfold keeps. cbn [map]. rewrite <- filter_app. reflexivity.
      * intros -> m Hm Fm F. destruct (keep_clean s out e m ltac:(lia) Hm Fm F) as [o2 [K2 F2]]. rewrite K in K2. injection K2 as <-. eauto.
    + exists (L1 ++ [e]), G, [], sl1, (Throw x). split; [reflexivity|]. split; [exact U1|]. split; [cbn; rewrite <- P; symmetry; apply Permutation_cons_append|].
      split; [cbn; lia|]. split; [constructor|]. split; [right; eauto|]. intros -> m Hm Fm F.
      destruct (keep_clean s out e m ltac:(lia) Hm Fm F) as [o2 [K2 F2]]. congruence.
Qed.
