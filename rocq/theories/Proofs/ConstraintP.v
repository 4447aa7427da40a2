From Coq Require Import Permutation.
From Verif Require Import Base.Res Base.Num Base.SMap Model.Axis Model.Hist Model.Constraint Spec.AxisSpec Spec.HistSpec Spec.ConstraintSpec.
Local Open Scope Qc_scope.

Lemma pair_eqb_spec a b : Bool.reflect (a = b) (pair_eqb a b).
Proof.
  unfold pair_eqb. destruct a as [a1 a2], b as [b1 b2]; cbn. destruct (String.eqb_spec a1 b1), (String.eqb_spec a2 b2); cbn; constructor; congruence.
Qed.
Section A.
Context {K V : Type} (eqb : K -> K -> bool) (eqb_spec : forall a b, Bool.reflect (a = b) (eqb a b)).
Lemma afind_in k (l : list (K * V)) : NoDup (map fst l) -> forall v, afind eqb k l = Some v <-> In (k, v) l.
Proof.
  induction l as [|[k' w] l IH]; cbn; intros ND v; [split; [discriminate|tauto]|]. inversion_clear ND as [|? ? Hn ND'].
  destruct (eqb_spec k k') as [->|Hk].
  - split; [intros [= ->]; now left|]. intros [[= ->]|H]; [reflexivity|]. exfalso. apply Hn. apply (in_map fst) in H. exact H.
  - rewrite IH by exact ND'. split; [tauto|]. intros [[= E _]|H]; [congruence|exact H].
Qed.
Lemma afind_none k (l : list (K * V)) : afind eqb k l = None <-> ~ In k (map fst l).
Proof.
  induction l as [|[k' w] l IH]; cbn; [tauto|]. destruct (eqb_spec k k') as [->|Hk]; [split; [discriminate|tauto]|].
  rewrite IH. split; [intros H [E|E]; [congruence|tauto]|tauto].
Qed.
Lemma aset_keys k v (l : list (K * V)) x : In x (map fst (aset eqb k v l)) <-> x = k \/ In x (map fst l).
Proof.
  induction l as [|[k' w] l IH]; cbn; [intuition|]. destruct (eqb_spec k k') as [->|Hk]; cbn; [intuition|]. rewrite IH. intuition.
Qed.
Lemma aset_nodup k v (l : list (K * V)) : NoDup (map fst l) -> NoDup (map fst (aset eqb k v l)).
Proof.
  induction l as [|[k' w] l IH]; cbn; intros ND; [repeat constructor; tauto|]. inversion_clear ND as [|? ? Hn ND'].
  destruct (eqb_spec k k') as [->|Hk]; cbn; [constructor; assumption|]. constructor; [|now apply IH]. rewrite aset_keys. intuition.
Qed.
Lemma aset_in k v (l : list (K * V)) : NoDup (map fst l) -> forall k' v', In (k', v') (aset eqb k v l) <-> (k' = k /\ v' = v) \/ (k' <> k /\ In (k', v') l).
Proof.
  intros ND k' v'. rewrite <- (afind_in k' _ (aset_nodup k v l ND)).
  assert (E : forall l, afind eqb k' (aset eqb k v l) = if eqb k' k then Some v else afind eqb k' l).
  { clear ND l. induction l as [|[k0 w] l IH]; cbn.
    - destruct (eqb_spec k' k); reflexivity.
    - destruct (eqb_spec k k0) as [->|Hk]; cbn.
      + destruct (eqb_spec k' k0); reflexivity.
      + rewrite IH. destruct (eqb_spec k' k0) as [->|]; [|reflexivity]. destruct (eqb_spec k0 k); congruence. }
  rewrite E. destruct (eqb_spec k' k) as [->|Hn].
  - split; [intros [= ->]; now left|]. intros [[_ ->]|[C _]]; [reflexivity|congruence].
  - rewrite (afind_in k' l ND). tauto.
Qed.
End A.

(** ** C33 *)
Record cok (s : cman) : Prop := mkCok {
  ck_ind : forall n, has_single s n <-> sfind n (cUse s) = Some true;
  ck_pair : forall n, in_pair s n <-> sfind n (cUse s) = Some false;
  ck_nodup : NoDup (map fst (cPair s));
  ck_excl : forall p q n, has_pair s p -> has_pair s q -> (fst p = n \/ snd p = n) -> (fst q = n \/ snd q = n) -> p = q;
  ck_wf : swf (cInd s) }.
Lemma cok_new : cok cman_new.
Proof.
  split; cbn.
  - intros n. split; [intros [q H]; discriminate|discriminate].
  - intros n. split; [intros [p [[b []] _]]|discriminate].
  - constructor.
  - intros p q n [b []].
  - constructor.
Qed.
Lemma set_single_ok s n q : cok s -> cok (fst (set_single s n q)).
Proof.
  intros K. unfold set_single. destruct (sfind n (cUse s)) as [[|]|] eqn:U; [|exact K|].
  - split; cbn; try apply K.
    + intros m. unfold has_single; cbn. rewrite <- (ck_ind s K m). unfold has_single. destruct (String.eqb_spec m n) as [->|Hn].
      * rewrite sfind_sset_eq. pose proof (proj2 (ck_ind s K n) U). split; [intros _; exact H|eauto].
      * rewrite sfind_sset_neq by exact Hn. tauto.
    + apply sset_wf, K.
  - split; cbn; try apply K.
    + intros m. unfold has_single; cbn. destruct (String.eqb_spec m n) as [->|Hn].
      * rewrite !sfind_sset_eq. split; [reflexivity|eauto].
      * rewrite !sfind_sset_neq by exact Hn. apply (ck_ind s K).
    + intros m. destruct (String.eqb_spec m n) as [->|Hn].
      * rewrite sfind_sset_eq. split; [|discriminate]. intros H. apply (ck_pair s K) in H. congruence.
      * rewrite sfind_sset_neq by exact Hn. apply (ck_pair s K).
    + apply sset_wf, K.
Qed.
Lemma has_pair_key s p : has_pair s p <-> In p (map fst (cPair s)).
Proof. rewrite in_map_iff. split; [intros [b H]; exists (p, b); auto|intros [[p' b] [<- H]]; exists b; exact H]. Qed.
Lemma set_pair_ok s n1 m1 s1 n2 m2 s2 c : cok s -> cok (fst (set_pair s n1 m1 s1 n2 m2 s2 c)).
Proof.
  intros K. unfold set_pair, mk_biv. destruct (shas n1 (cUse s) || shas n2 (cUse s))%bool eqn:H.
  - destruct (afind pair_eqb (n1, n2) (cPair s)) as [b|] eqn:F; [|exact K].
    destruct (qeqb c 1); [exact K|]. cbn.
    assert (HP : forall bb p, In p (map fst (aset pair_eqb (n1, n2) bb (cPair s))) <-> In p (map fst (cPair s))).
    { intros bb p. rewrite aset_keys by apply pair_eqb_spec. split; [|auto]. intros [->|H']; [|exact H'].
      destruct (in_dec (fun a b => Bool.reflect_dec _ _ (pair_eqb_spec a b)) (n1, n2) (map fst (cPair s))) as [I|I]; [exact I|].
      apply (afind_none pair_eqb pair_eqb_spec) in I. congruence. }
    split; cbn; try apply K.
    + intros n. rewrite <- (ck_pair s K n). unfold in_pair. setoid_rewrite has_pair_key. cbn. setoid_rewrite HP. tauto.
    + apply aset_nodup; [apply pair_eqb_spec|apply K].
    + intros p q n. rewrite !has_pair_key. cbn. rewrite !HP, <- !has_pair_key. apply (ck_excl s K).
  - destruct (qeqb c 1); [exact K|]. cbn. apply Bool.orb_false_iff in H as [H1 H2].
    assert (N1 : sfind n1 (cUse s) = None) by (unfold shas in H1; destruct (sfind n1 (cUse s)); [discriminate|reflexivity]).
    assert (N2 : sfind n2 (cUse s) = None) by (unfold shas in H2; destruct (sfind n2 (cUse s)); [discriminate|reflexivity]).
    assert (NP : forall p, has_pair s p -> fst p <> n1 /\ snd p <> n1 /\ fst p <> n2 /\ snd p <> n2).
    { intros p Hp. assert (A : forall m, sfind m (cUse s) = None -> fst p <> m /\ snd p <> m).
      { intros m Hm. split; intros E; assert (in_pair s m) by (exists p; auto); apply (ck_pair s K) in H; congruence. }
      destruct (A n1 N1), (A n2 N2). auto. }
    set (U := sset n2 false (sset n1 false (cUse s))).
    assert (FU : forall m, sfind m U = if (String.eqb m n1 || String.eqb m n2)%bool then Some false else sfind m (cUse s)).
    { intros m. unfold U. rewrite !sfind_sset. destruct (String.eqb m n1), (String.eqb m n2); reflexivity. }
    split; cbn; try apply K.
    + intros m. rewrite FU. unfold has_single; cbn. destruct (String.eqb_spec m n1) as [->|]; cbn.
      * split; [|discriminate]. intros [q Hq]. assert (has_single s n1) by (exists q; exact Hq). apply (ck_ind s K) in H. congruence.
      * destruct (String.eqb_spec m n2) as [->|]; cbn; [|apply (ck_ind s K)].
        split; [|discriminate]. intros [q Hq]. assert (has_single s n2) by (exists q; exact Hq). apply (ck_ind s K) in H. congruence.
    + intros m. rewrite FU. unfold in_pair. setoid_rewrite has_pair_key. cbn. setoid_rewrite (fun p => aset_keys pair_eqb pair_eqb_spec (n1, n2) (mkBiv m1 s1 m2 s2 c) (cPair s) p).
      destruct (String.eqb_spec m n1) as [->|A]; cbn; [split; [reflexivity|intros _; exists (n1, n2); cbn; auto]|].
      destruct (String.eqb_spec m n2) as [->|B]; cbn; [split; [reflexivity|intros _; exists (n1, n2); cbn; auto]|].
      rewrite <- (ck_pair s K m). unfold in_pair. split; intros [p [Hp Hq]]; exists p.
      * rewrite has_pair_key. destruct Hp as [->|Hp]; [cbn in Hq; destruct Hq; congruence|auto].
      * rewrite <- has_pair_key. auto.
    + apply aset_nodup; [apply pair_eqb_spec|apply K].
    + intros p q n. rewrite !has_pair_key. cbn. rewrite !(aset_keys pair_eqb pair_eqb_spec), <- !has_pair_key.
      intros [->|Hp] [->|Hq] A B; [reflexivity| | |now apply (ck_excl s K p q n)].
      * apply NP in Hq. cbn in A. destruct A, B; subst; tauto.
      * apply NP in Hp. cbn in B. destruct A, B; subst; tauto.
Qed.
Lemma ccall_ok s o : cok s -> cok (fst (ccall s o)).
Proof.
  intros K. destruct o; cbn [ccall fst]; try (apply set_single_ok; exact K); try (apply set_pair_ok; exact K);
  (split; cbn; try apply K).
Qed.
Lemma crun_ok l : cok (crun l).
Proof.
  unfold crun. rewrite <- fold_left_rev_right. induction (rev l) as [|o t IH]; [apply cok_new|]. cbn. now apply ccall_ok.
Qed.

Lemma exclusive_pkg ops : let s := crun ops in
  (forall n, ~ (has_single s n /\ in_pair s n)) /\
  (forall p q n, has_pair s p -> has_pair s q -> (fst p = n \/ snd p = n) -> (fst q = n \/ snd q = n) -> p = q) /\
  (forall p b b', pair_is s p b -> pair_is s p b' -> b = b').
Proof.
  cbv zeta. pose proof (crun_ok ops) as K. split; [|split].
  - intros n [A B]. apply (ck_ind _ K) in A. apply (ck_pair _ K) in B. congruence.
  - apply (ck_excl _ K).
  - intros p b b' A B. apply (afind_in pair_eqb pair_eqb_spec p _ (ck_nodup _ K)) in A. apply (afind_in pair_eqb pair_eqb_spec p _ (ck_nodup _ K)) in B. congruence.
Qed.

(** what each call does *)
Lemma rejected_pkg ops o : let s := crun ops in let (s', r) := ccall s o in r <> Ok tt -> s' = s.
Proof.
  cbv zeta. destruct o; cbn [ccall]; try congruence.
  - unfold set_single. destruct (sfind n _) as [[|]|]; congruence.
  - unfold set_single. destruct (sfind n _) as [[|]|]; congruence.
  - unfold set_pair, mk_biv. destruct (_ || _)%bool; [destruct (afind _ _ _)|]; try destruct (qeqb corr 1); congruence.
Qed.
Lemma single_pkg ops o n q : let s := crun ops in
  (exists m w, o = CSym n m w /\ q = mk_quad m w) \/ (exists m hi lo, o = CAsym n m hi lo /\ q = mk_quad_asym m hi lo) ->
  let (s', r) := ccall s o in
  (in_pair s n -> r = Throw LogicError) /\
  (~ in_pair s n -> r = Ok tt /\ single_is s' n q /\ (forall m, m <> n -> forall q', single_is s' m q' <-> single_is s m q') /\
      (forall p b, pair_is s' p b <-> pair_is s p b)).
Proof.
  intros s Ho. pose proof (crun_ok ops) as K. fold s in K.
  assert (E : ccall s o = set_single s n q) by (destruct Ho as [[m [w [-> ->]]]|[m [hi [lo [-> ->]]]]]; reflexivity).
  rewrite E. clear E Ho. unfold set_single, single_is, pair_is. destruct (sfind n (cUse s)) as [[|]|] eqn:U; cbn.
  - split; [intros A; apply (ck_pair s K) in A; congruence|]. intros _. split; [reflexivity|]. rewrite sfind_sset_eq. split; [reflexivity|]. split; [|tauto].
    intros m Hm q'. rewrite sfind_sset_neq by exact Hm. tauto.
  - split; [reflexivity|]. intros A. exfalso. apply A. now apply (ck_pair s K).
  - split; [intros A; apply (ck_pair s K) in A; congruence|]. intros _. split; [reflexivity|]. rewrite sfind_sset_eq. split; [reflexivity|]. split; [|tauto].
    intros m Hm q'. rewrite sfind_sset_neq by exact Hm. tauto.
Qed.
Lemma constrained_use s n : cok s -> shas n (cUse s) = true <-> (has_single s n \/ in_pair s n).
Proof.
  intros K. rewrite (ck_ind s K), (ck_pair s K). unfold shas. destruct (sfind n (cUse s)) as [[|]|]; split; try tauto; try discriminate; auto.
  intros [|]; discriminate.
Qed.
Lemma pair_pkg ops n1 m1 s1 n2 m2 s2 c : let s := crun ops in
  let busy := has_single s n1 \/ in_pair s n1 \/ has_single s n2 \/ in_pair s n2 in
  let (s', r) := set_pair s n1 m1 s1 n2 m2 s2 c in
  (busy -> ~ has_pair s (n1, n2) -> r = Throw LogicError) /\
  (c = 1 -> ~ busy \/ has_pair s (n1, n2) -> r = Throw ValueError) /\
  (c <> 1 -> ~ busy \/ has_pair s (n1, n2) -> r = Ok tt /\ pair_is s' (n1, n2) (mkBiv m1 s1 m2 s2 c) /\
     (forall p b, p <> (n1, n2) -> (pair_is s' p b <-> pair_is s p b)) /\ forall n q, single_is s' n q <-> single_is s n q).
Proof.
  intros s busy. pose proof (crun_ok ops) as K. fold s in K. unfold set_pair.
  assert (B : (shas n1 (cUse s) || shas n2 (cUse s))%bool = true <-> busy).
  { unfold busy. rewrite Bool.orb_true_iff, !(constrained_use s _ K). tauto. }
  assert (P : afind pair_eqb (n1, n2) (cPair s) = None <-> ~ has_pair s (n1, n2)).
  { rewrite (afind_none pair_eqb pair_eqb_spec), has_pair_key. tauto. }
  assert (IN : forall use, let s' := mkCman (cInd s) (aset pair_eqb (n1, n2) (mkBiv m1 s1 m2 s2 c) (cPair s)) use (cRatio s) (cFrac s) (cInterp s) (cShape s) in
     pair_is s' (n1, n2) (mkBiv m1 s1 m2 s2 c) /\
     (forall p b, p <> (n1, n2) -> (pair_is s' p b <-> pair_is s p b)) /\ forall n q, single_is s' n q <-> single_is s n q).
  { intros use. cbv zeta. unfold pair_is, single_is. cbn. split; [apply (aset_in pair_eqb pair_eqb_spec); [apply K|left; auto]|]. split; [|tauto].
    intros p b Hp. rewrite (aset_in pair_eqb pair_eqb_spec) by apply K. tauto. }
  unfold mk_biv. destruct (_ || _)%bool.
  - destruct (afind _ _ _).
    + assert (HP : has_pair s (n1, n2)). { destruct (in_dec (fun a b => Bool.reflect_dec _ _ (pair_eqb_spec a b)) (n1, n2) (map fst (cPair s))) as [I|I]; [now apply has_pair_key|].
        rewrite <- has_pair_key in I. apply P in I. discriminate. }
      destruct (qeqb c 1) eqn:C; [apply qeqb_eq in C|apply qeqb_neq in C]; (split; [tauto|]); (split; [try tauto; congruence|]); try congruence.
      intros _ _. split; [reflexivity|]. apply IN.
    + split; [tauto|]. assert (~ has_pair s (n1, n2)) by now apply P. assert busy by now apply B. split; tauto.
  - assert (NB : ~ busy) by (intros C; apply B in C; discriminate).
    destruct (qeqb c 1) eqn:C; [apply qeqb_eq in C|apply qeqb_neq in C]; (split; [tauto|]); (split; [try tauto; congruence|]); try congruence.
    intros _ _. split; [reflexivity|]. apply IN.
Qed.

(** the sum *)
Lemma sum_terms_ok l vs a : Forall2 (fun t v => t = Ok v) l vs -> sum_terms (Ok a) l = Ok (a + qsum vs).
Proof.
  intros H. revert a. induction H as [|t v l vs -> H IH]; intros a; cbn; [f_equal; ring|]. rewrite IH. f_equal. ring.
Qed.
Lemma qsum_app l m : qsum (l ++ m) = qsum l + qsum m.
Proof. induction l; cbn; [ring|]. rewrite IHl. ring. Qed.
Lemma Forall2_map_l {A B C} (f : A -> B) (P : B -> C -> Prop) l m : Forall2 (fun a c => P (f a) c) l m -> Forall2 P (map f l) m.
Proof. induction 1; constructor; auto. Qed.
Lemma Forall2_imp {A B} (P Q : A -> B -> Prop) l m : (forall a b, P a b -> Q a b) -> Forall2 P l m -> Forall2 Q l m.
Proof. intros H. induction 1; constructor; auto. Qed.
Lemma eval_sum_pkg s d v1 v2 v3 v4 v5 v6 :
  Forall2 (single_value d) (cInd s) v1 -> Forall2 (pair_value biv_eval d) (cPair s) v2 ->
  Forall2 (pair_value (fun c => ratio_eval (fst c) (snd c)) d) (cRatio s) v3 ->
  Forall2 (pair_value (fun c => frac_eval (fst c) (snd c)) d) (cFrac s) v4 ->
  Forall2 (fun kc v => interp_eval (snd kc) d = Ok v) (cInterp s) v5 ->
  Forall2 (fun kc v => shape_eval (fst (fst (snd kc))) (snd (fst (snd kc))) (snd (snd kc)) d = Ok v) (cShape s) v6 ->
  cman_eval s d = Ok (qsum v1 + qsum v2 + qsum v3 + qsum v4 + qsum v5 + qsum v6).
Proof.
  intros H1 H2 H3 H4 H5 H6. unfold cman_eval. rewrite (sum_terms_ok _ (v1 ++ v2 ++ v3 ++ v4 ++ v5 ++ v6)).
  - rewrite !qsum_app. f_equal. ring.
  - unfold cman_terms. repeat apply Forall2_app; apply Forall2_map_l.
    + eapply Forall2_imp; [|exact H1]. intros kc v [x [Hx E]]. unfold at_. rewrite Hx. exact E.
    + eapply Forall2_imp; [|exact H2]. intros kc v [x [y [Hx [Hy E]]]]. unfold at_. rewrite Hx, Hy. exact E.
    + eapply Forall2_imp; [|exact H3]. intros kc v [x [y [Hx [Hy E]]]]. unfold at_. rewrite Hx, Hy. exact E.
    + eapply Forall2_imp; [|exact H4]. intros kc v [x [y [Hx [Hy E]]]]. unfold at_. rewrite Hx, Hy. exact E.
    + exact H5.
    + eapply Forall2_imp; [|exact H6]. intros kc v E. cbn beta in E |- *. destruct kc as [k [[f m] sg]]. exact E.
Qed.
(** a constrained parameter missing from the dictionary *)
Lemma sum_terms_throw e l a : In (Throw e) l -> (forall t, In t l -> (exists v, t = Ok v) \/ t = NonFinite \/ t = Throw e) -> sum_terms a l = Throw e.
Proof.
  revert a. induction l as [|t l IH]; intros a; [intros []|]. intros H A. destruct (A t (or_introl eq_refl)) as [[v ->]|[->| ->]]; cbn; [| |reflexivity];
  (apply IH; [destruct H as [H|H]; [discriminate|exact H]|intros; apply A; now right]).
Qed.
Lemma penalty_shape x m w : (exists v, penalty x m w = Ok v) \/ penalty x m w = NonFinite.
Proof. unfold penalty, qdiv. destruct (qeqb _ _); eauto. Qed.
Lemma missing_pkg s d n : cInterp s = [] -> cShape s = [] -> sfind n d = None ->
  In n (skeys (cInd s)) \/ In n (map (fun kc => fst (fst kc)) (cPair s)) \/ In n (map (fun kc => snd (fst kc)) (cPair s)) \/
  In n (map (fun kc => fst (fst kc)) (cRatio s)) \/ In n (map (fun kc => snd (fst kc)) (cRatio s)) \/
  In n (map (fun kc => fst (fst kc)) (cFrac s)) \/ In n (map (fun kc => snd (fst kc)) (cFrac s)) ->
  cman_eval s d = Throw std_out_of_range.
Proof.
  intros E1 E2 Hn H. unfold cman_eval, cman_terms. rewrite E1, E2. cbn [map]. rewrite !app_nil_r.
  assert (D : forall x y, (exists v, qdiv x y = Ok v) \/ qdiv x y = NonFinite) by (intros; unfold qdiv; destruct (qeqb _ _); eauto).
  apply sum_terms_throw.
  - rewrite !in_app_iff, !in_map_iff. unfold skeys in H. rewrite !in_map_iff in H.
    assert (G : forall C (l : list ((string * string) * C)) (f : C -> Qc -> Qc -> res Qc),
       (exists x, fst (fst x) = n /\ In x l) \/ (exists x, snd (fst x) = n /\ In x l) ->
       exists x, bind (at_ d (fst (fst x))) (fun v => bind (at_ d (snd (fst x))) (fun w => f (snd x) v w)) = Throw std_out_of_range /\ In x l).
    { intros C l f [[x [<- Hx]]|[x [<- Hx]]]; exists x; (split; [|exact Hx]); unfold at_ in *.
      - rewrite Hn. reflexivity.
      - destruct (sfind (fst (fst x)) d); [cbn; rewrite Hn|]; reflexivity. }
    destruct H as [[x [<- Hx]]|H].
    + left. exists x. split; [|exact Hx]. unfold at_. rewrite Hn. reflexivity.
    + destruct H as [H|[H|[H|[H|[H|H]]]]].
      * right. left. apply (G _ _ biv_eval). auto.
      * right. left. apply (G _ _ biv_eval). auto.
      * right. right. left. apply (G _ _ (fun c => ratio_eval (fst c) (snd c))). auto.
      * right. right. left. apply (G _ _ (fun c => ratio_eval (fst c) (snd c))). auto.
      * right. right. right. apply (G _ _ (fun c => frac_eval (fst c) (snd c))). auto.
      * right. right. right. apply (G _ _ (fun c => frac_eval (fst c) (snd c))). auto.
  - assert (G : forall C (l : list ((string * string) * C)) (f : C -> Qc -> Qc -> res Qc) t,
       (forall c x y, (exists v, f c x y = Ok v) \/ f c x y = NonFinite) ->
       In t (map (fun x => bind (at_ d (fst (fst x))) (fun v => bind (at_ d (snd (fst x))) (fun w => f (snd x) v w))) l) ->
       (exists v, t = Ok v) \/ t = NonFinite \/ t = Throw std_out_of_range).
    { intros C l f t Hf. rewrite in_map_iff. intros [x [<- _]]. unfold at_. destruct (sfind (fst (fst x)) d) as [v|]; cbn; [|auto].
      destruct (sfind (snd (fst x)) d) as [w|]; cbn; [|auto]. destruct (Hf (snd x) v w); auto. }
    intros t. rewrite !in_app_iff. intros [T|[T|[T|T]]].
    + apply in_map_iff in T as [x [<- _]]. unfold at_. destruct (sfind (fst x) d) as [v|]; cbn; [|auto]. unfold quad_eval.
      destruct (penalty_shape v (qMean (snd x)) (if qAsym (snd x) then if qleb (qMean (snd x)) v then qWidth (snd x) else qWidthLo (snd x) else qWidth (snd x))) as [A|A]; auto.
    + apply (G _ _ biv_eval) in T; [exact T|]. intros c x y. unfold biv_eval. destruct (penalty_shape x (bM1 c) (bS1 c)) as [[v ->]| ->]; cbn; [|auto].
      destruct (penalty_shape y (bM2 c) (bS2 c)) as [[w ->]| ->]; cbn; [|auto]. destruct (D (bCorr c * (x - bM1 c) * (y - bM2 c)) (bS1 c * bS2 c)) as [[u ->]| ->]; cbn; auto.
    + apply (G _ _ (fun c => ratio_eval (fst c) (snd c))) in T; [exact T|]. intros c x y. unfold ratio_eval.
      match goal with |- context [qdiv ?a ?b] => destruct (D a b) as [[u ->]| ->]; cbn; auto end. apply penalty_shape.
    + apply (G _ _ (fun c => frac_eval (fst c) (snd c))) in T; [exact T|]. intros c x y. unfold frac_eval.
      match goal with |- context [qdiv ?a ?b] => destruct (D a b) as [[u ->]| ->]; cbn; auto end. apply penalty_shape.
Qed.

(** ** C34 *)
Lemma sq_nonneg (x : Qc) : 0 <= x * x.
Proof. qnra. Qed.
Lemma sq_pos (x : Qc) : x <> 0 -> 0 < x * x.
Proof.
  intros H. destruct (Qclt_le_dec 0 x); [qnra|]. assert (x < 0) by (apply Qcle_lt_or_eq in q as [|]; [assumption|contradiction]). qnra.
Qed.
Lemma two_ss w : w <> 0 -> 0 < qz 2 * (w * w).
Proof. intros H. pose proof (sq_pos w H). assert (0 < qz 2) by reflexivity. qnra. Qed.
Lemma Qcinv_pos (y : Qc) : 0 < y -> 0 < / y.
Proof. intros H. unfold Qclt in *. rewrite this_inv. apply Qinv_lt_0_compat. exact H. Qed.
Lemma qdiv_nonneg x y : 0 <= x -> 0 < y -> 0 <= x / y.
Proof.
  intros Hx Hy. unfold Qcdiv. assert (0 < / y) by now apply Qcinv_pos. qnra.
Qed.
Lemma qdiv_zero x y : 0 < y -> x / y = 0 -> x = 0.
Proof.
  intros Hy E. assert (A : x = x / y * y) by (field; intros C; subst; discriminate). rewrite A, E. ring.
Qed.
Lemma penalty_ok x m w : w <> 0 -> penalty x m w = Ok (gauss_penalty x m w).
Proof.
  intros H. unfold penalty, qdiv, gauss_penalty. replace (qz 2 * w * w) with (qz 2 * (w * w)) by ring.
  destruct (qeqb _ 0) eqn:E; [|reflexivity]. apply qeqb_eq in E. pose proof (two_ss w H). rewrite E in *. discriminate.
Qed.
Lemma gauss_nonneg x m w : w <> 0 -> 0 <= gauss_penalty x m w /\ (gauss_penalty x m w = 0 <-> x = m).
Proof.
  intros H. pose proof (two_ss w H). unfold gauss_penalty. split; [apply qdiv_nonneg; [apply sq_nonneg|assumption]|]. split.
  - intros E. apply qdiv_zero in E; [|assumption]. apply Qcmult_integral in E. assert (x - m = 0) by tauto. replace x with (x - m + m) by ring. rewrite H1. ring.
  - intros ->. unfold Qcdiv. ring.
Qed.
Lemma penalty_zero x m w : w = 0 -> penalty x m w = NonFinite.
Proof. intros ->. unfold penalty, qdiv. replace (qz 2 * 0 * 0) with 0 by ring. reflexivity. Qed.

Lemma quad_pkg m w x : w <> 0 ->
  quad_eval (mk_quad m w) x = Ok (gauss_penalty x m w) /\ 0 <= gauss_penalty x m w /\ (gauss_penalty x m w = 0 <-> x = m).
Proof. intros H. unfold quad_eval; cbn. split; [now apply penalty_ok|now apply gauss_nonneg]. Qed.
Lemma asym_pkg m hi lo x : hi <> 0 -> lo <> 0 ->
  (m <= x -> quad_eval (mk_quad_asym m hi lo) x = Ok (gauss_penalty x m hi)) /\
  (x < m -> quad_eval (mk_quad_asym m hi lo) x = Ok (gauss_penalty x m lo)) /\
  (exists v, quad_eval (mk_quad_asym m hi lo) x = Ok v /\ 0 <= v /\ (v = 0 <-> x = m)).
Proof.
  intros Hh Hl. unfold quad_eval; cbn. destruct (qleb_spec m x) as [A|A].
  - rewrite penalty_ok by exact Hh. split; [reflexivity|]. split; [intros C; exfalso; exact (Qcle_not_lt _ _ A C)|]. eexists. split; [reflexivity|]. now apply gauss_nonneg.
  - rewrite penalty_ok by exact Hl. split; [intros C; exfalso; exact (Qcle_not_lt _ _ C A)|]. split; [reflexivity|]. eexists. split; [reflexivity|]. now apply gauss_nonneg.
Qed.
Lemma ratio_pkg m w x y : w <> 0 ->
  (ratio_eps <= qabs y -> exists v, ratio_eval m w x y = Ok v /\ v = gauss_penalty (x / y) m w /\ 0 <= v /\ (v = 0 <-> x = m * y)) /\
  (qabs y < ratio_eps -> exists v, ratio_eval m w x y = Ok v /\ v = gauss_penalty (x / ratio_eps) m w /\ 0 <= v).
Proof.
  intros H. unfold ratio_eval. destruct (qltb_spec (qabs y) ratio_eps) as [A|A].
  - split; [intros C; exfalso; exact (Qcle_not_lt _ _ C A)|]. intros _. unfold qdiv. change (qeqb ratio_eps 0) with false. cbn.
    rewrite penalty_ok by exact H. eexists. split; [reflexivity|]. split; [reflexivity|]. now apply gauss_nonneg.
  - split; [|intros C; exfalso; exact (Qcle_not_lt _ _ A C)]. intros _. assert (Hy : y <> 0) by (intros ->; vm_compute in A; apply A; reflexivity).
    unfold qdiv. destruct (qeqb y 0) eqn:E; [apply qeqb_eq in E; contradiction|]. cbn. rewrite penalty_ok by exact H.
    eexists. split; [reflexivity|]. split; [reflexivity|]. destruct (gauss_nonneg (x / y) m w H) as [N Z]. split; [exact N|]. rewrite Z. split.
    + intros <-. field. exact Hy.
    + intros ->. field. exact Hy.
Qed.
Lemma frac_pkg m w x y : w <> 0 -> x + y <> 0 ->
  exists v, frac_eval m w x y = Ok v /\ v = gauss_penalty ((x - y) / (x + y)) m w /\ 0 <= v /\ (v = 0 <-> (x - y) / (x + y) = m).
Proof.
  intros H Hs. unfold frac_eval, qdiv. destruct (qeqb (x + y) 0) eqn:E; [apply qeqb_eq in E; contradiction|]. cbn. rewrite penalty_ok by exact H.
  eexists. split; [reflexivity|]. split; [reflexivity|]. now apply gauss_nonneg.
Qed.
Lemma shape_pkg f m w d : w <> 0 ->
  (forall x, f d = Ok x -> shape_eval f m w d = Ok (gauss_penalty x m w)) /\ (forall e, f d = Throw e -> shape_eval f m w d = Throw e).
Proof. intros H. unfold shape_eval. split; [intros x ->; cbn; now apply penalty_ok|intros e ->; reflexivity]. Qed.

(** correlated pair: with unit-free deviations a, b the value is (a^2 - 2 c a b + b^2) / (2 (1 - c^2)) *)
Lemma biv_value m1 s1 m2 s2 c x y : s1 <> 0 -> s2 <> 0 -> 1 - c * c <> 0 ->
  let a := (x - m1) / s1 in let b := (y - m2) / s2 in
  biv_eval (mkBiv m1 s1 m2 s2 c) x y = Ok ((a * a - qz 2 * c * a * b + b * b) / (qz 2 * (1 - c * c))).
Proof.
  intros H1 H2 Hc a b. unfold biv_eval; cbn. rewrite !penalty_ok by assumption. cbn. unfold qdiv.
  destruct (qeqb (s1 * s2) 0) eqn:E; [apply qeqb_eq in E; apply Qcmult_integral in E; tauto|]. cbn.
  destruct (qeqb (1 - c * c) 0) eqn:E'; [apply qeqb_eq in E'; contradiction|]. f_equal. unfold gauss_penalty, a, b.
  assert (Q2 : qz 2 <> 0) by discriminate. field. repeat split; assumption.
Qed.
Lemma biv_pkg m1 s1 m2 s2 c x y : s1 <> 0 -> s2 <> 0 -> -(1) < c -> c < 1 ->
  let a := (x - m1) / s1 in let b := (y - m2) / s2 in
  exists p v, mk_biv m1 s1 m2 s2 c = Ok p /\ biv_eval p x y = Ok v /\
    v = (a * a - qz 2 * c * a * b + b * b) / (qz 2 * (1 - c * c)) /\ 0 <= v /\ (v = 0 <-> x = m1 /\ y = m2).
Proof.
  intros H1 H2 L U a b. exists (mkBiv m1 s1 m2 s2 c).
  assert (P : 0 < 1 - c * c) by qnra. assert (NZ : 1 - c * c <> 0) by (intros E; rewrite E in P; discriminate).
  eexists. split; [unfold mk_biv; destruct (qeqb c 1) eqn:E; [apply qeqb_eq in E; subst; discriminate|reflexivity]|].
  split; [apply biv_value; assumption|]. fold a b. split; [reflexivity|].
  assert (Q2 : qz 2 <> 0) by discriminate.
  assert (D : 0 < qz 2 * (1 - c * c)). { assert (0 < qz 2) by reflexivity. qnra. }
  assert (SQ : a * a - qz 2 * c * a * b + b * b = (a - c * b) * (a - c * b) + (1 - c * c) * (b * b)).
  { change (qz 2) with (1 + 1). ring. }
  assert (N : 0 <= (a - c * b) * (a - c * b)) by apply sq_nonneg. assert (Nb : 0 <= b * b) by apply sq_nonneg.
  split.
  - apply qdiv_nonneg; [|exact D]. rewrite SQ. qnra.
  - split.
    + intros E. apply qdiv_zero in E; [|exact D]. rewrite SQ in E.
      assert (B0 : b = 0). { destruct (Qc_eq_dec b 0) as [|B]; [assumption|]. exfalso. pose proof (sq_pos b B). qnra. }
      assert (A0 : a = 0). { rewrite B0 in E. destruct (Qc_eq_dec a 0) as [|A]; [assumption|]. exfalso. pose proof (sq_pos a A).
        replace ((a - c * 0) * (a - c * 0) + (1 - c * c) * (0 * 0)) with (a * a) in E by ring. rewrite E in H. discriminate. }
      split.
      * replace x with (a * s1 + m1) by (unfold a; field; assumption). rewrite A0. ring.
      * replace y with (b * s2 + m2) by (unfold b; field; assumption). rewrite B0. ring.
    + intros [-> ->]. assert (a = 0) by (unfold a, Qcdiv; ring). assert (b = 0) by (unfold b, Qcdiv; ring). rewrite H, H0. unfold Qcdiv. ring.
Qed.
Lemma biv_zero_corr_pkg m1 s1 m2 s2 x y : s1 <> 0 -> s2 <> 0 ->
  biv_eval (mkBiv m1 s1 m2 s2 0) x y = Ok (gauss_penalty x m1 s1 + gauss_penalty y m2 s2).
Proof.
  intros H1 H2. rewrite biv_value by (try assumption; discriminate). f_equal. unfold gauss_penalty. assert (qz 2 <> 0) by discriminate. field. repeat split; try assumption; discriminate.
Qed.
(** not rejected: |corr| >= 1 other than 1, zero widths *)
Lemma invalid_accepted_witness :
  (exists m1 s1 m2 s2 c b x y v, mk_biv m1 s1 m2 s2 c = Ok b /\ biv_eval b x y = Ok v /\ v < 0) /\
  (exists m1 s1 m2 s2 c b, mk_biv m1 s1 m2 s2 c = Ok b /\ c = -(1) /\ forall x y, biv_eval b x y = NonFinite) /\
  (forall m x, quad_eval (mk_quad m 0) x = NonFinite) /\
  (exists m w x y v, w <> 0 /\ x = m * y /\ y <> 0 /\ ratio_eval m w x y = Ok v /\ 0 < v).
Proof.
  split; [|split; [|split]].
  - exists 0, 1, 0, 1, (qz 2). eexists. exists 1, (-(1)). eexists. split; [reflexivity|]. split; [reflexivity|]. reflexivity.
  - exists 0, 1, 0, 1, (-(1)). eexists. split; [reflexivity|]. split; [reflexivity|]. intros x y. unfold biv_eval. cbn [bM1 bS1 bM2 bS2 bCorr].
    rewrite !penalty_ok by discriminate. cbn [bind]. unfold qdiv. replace (qeqb (1 * 1) 0) with false by reflexivity. cbn [bind].
    replace (qeqb (1 - - (1) * - (1)) 0) with true by reflexivity. reflexivity.
  - intros m x. unfold quad_eval; cbn. reflexivity.
  - exists 1, 1, (qq 1 1000000000), (qq 1 1000000000). eexists. split; [discriminate|]. split; [apply Qc_is_canon; reflexivity|]. split; [discriminate|].
    split; [reflexivity|]. reflexivity.
Qed.
