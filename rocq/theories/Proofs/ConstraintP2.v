(** C33: the value after a history, from the calls alone. *)
From Coq Require Import Permutation Bool.
From Verif Require Import Base.Res Base.Num Base.SMap Model.Axis Model.Hist Model.Constraint Spec.AxisSpec Spec.HistSpec Spec.ConstraintSpec Proofs.ConstraintP.
Local Open Scope Qc_scope.

Inductive sterm := TOne (n : string) (q : quad) | TPair (p : string * string) (b : biv) | TRat (p : string * string) (c : Qc * Qc) | TFrac (p : string * string) (c : Qc * Qc)
| TInt (l : string) (h : hist) | TShp (d : smap Qc) (c : shape_fun * Qc * Qc).
Definition stored (s : cman) : list sterm :=
  map (fun kc => TOne (fst kc) (snd kc)) (cInd s) ++ map (fun kc => TPair (fst kc) (snd kc)) (cPair s) ++ map (fun kc => TRat (fst kc) (snd kc)) (cRatio s) ++
  map (fun kc => TFrac (fst kc) (snd kc)) (cFrac s) ++ map (fun kc => TInt (fst kc) (snd kc)) (cInterp s) ++ map (fun kc => TShp (fst kc) (snd kc)) (cShape s).
Definition tslot (t : sterm) : slot :=
  match t with TOne n _ => OfOne n | TPair p _ => OfPair (fst p) (snd p) | TRat p _ => OfRatio (fst p) (snd p) | TFrac p _ => OfFrac (fst p) (snd p) | TInt l _ => OfLabel l | TShp d _ => OfDict d end.
Definition term_of (o : cop) : sterm :=
  match o with
  | CSym n m w => TOne n (mk_quad m w) | CAsym n m hi lo => TOne n (mk_quad_asym m hi lo)
  | CCorr n1 m1 s1 n2 m2 s2 c => TPair (n1, n2) (mkBiv m1 s1 m2 s2 c)
  | CRat a b m w => TRat (a, b) (m, w) | CFrac a b m w => TFrac (a, b) (m, w) | CInt l h => TInt l h | CShp d f m w => TShp d (f, m, w)
  end.
Definition teval (d : smap Qc) (t : sterm) : res Qc :=
  match t with
  | TOne n q => bind (at_ d n) (fun v => quad_eval q v)
  | TPair p b => bind (at_ d (fst p)) (fun v => bind (at_ d (snd p)) (fun w => biv_eval b v w))
  | TRat p c => bind (at_ d (fst p)) (fun v => bind (at_ d (snd p)) (fun w => ratio_eval (fst c) (snd c) v w))
  | TFrac p c => bind (at_ d (fst p)) (fun v => bind (at_ d (snd p)) (fun w => frac_eval (fst c) (snd c) v w))
  | TInt _ h => interp_eval h d
  | TShp _ c => let '(f, m, sg) := c in shape_eval f m sg d
  end.
Lemma terms_stored s d : cman_terms s d = map (teval d) (stored s).
Proof. unfold cman_terms, stored. rewrite !map_app, !map_map. reflexivity. Qed.
Lemma tslot_of o : tslot (term_of o) = slot_of o.
Proof. destruct o; reflexivity. Qed.
Definition other (x : slot) (t : sterm) : bool := if slot_dec (tslot t) x then false else true.

(** a store replaces what had the same slot *)
Lemma aset_perm {K V} (eqb : K -> K -> bool) (sp : forall a b, Bool.reflect (a = b) (eqb a b)) k v (l : list (K * V)) (c : K -> V -> sterm) (g : K -> slot) :
  (forall k v, tslot (c k v) = g k) -> (forall a b, g a = g b -> a = b) -> NoDup (map fst l) ->
  Permutation (map (fun kc => c (fst kc) (snd kc)) (aset eqb k v l)) (c k v :: filter (other (g k)) (map (fun kc => c (fst kc) (snd kc)) l)).
Proof.
  intros Hc Hg. induction l as [|[k' w] l IH]; cbn; intros ND; [reflexivity|]. inversion_clear ND as [|? ? Hn ND'].
  unfold other at 1. rewrite Hc. destruct (sp k k') as [->|Hk]; cbn.
  - destruct (slot_dec (g k') (g k')) as [_|C]; [|congruence]. apply perm_skip.
    replace (filter (other (g k')) (map (fun kc => c (fst kc) (snd kc)) l)) with (map (fun kc => c (fst kc) (snd kc)) l); [reflexivity|].
    symmetry. clear IH ND'. induction l as [|[a b] l IH]; cbn; [reflexivity|]. unfold other at 1. rewrite Hc. cbn in Hn.
    destruct (slot_dec (g a) (g k')) as [E|_]; [apply Hg in E; tauto|]. f_equal. apply IH. tauto.
  - destruct (slot_dec (g k') (g k)) as [E|_]; [apply Hg in E; congruence|]. rewrite (IH ND'). apply perm_swap.
Qed.
Lemma sset_perm {V} k v (l : smap V) (c : string -> V -> sterm) (g : string -> slot) :
  (forall k v, tslot (c k v) = g k) -> (forall a b, g a = g b -> a = b) -> swf l ->
  Permutation (map (fun kc => c (fst kc) (snd kc)) (sset k v l)) (c k v :: filter (other (g k)) (map (fun kc => c (fst kc) (snd kc)) l)).
Proof.
  intros Hc Hg W.
  assert (U : forall l', ~ In k (map fst l') -> filter (other (g k)) (map (fun kc => c (fst kc) (snd kc)) l') = map (fun kc => c (fst kc) (snd kc)) l').
  { induction l' as [|[a b] l' IH]; cbn; [reflexivity|]. intros Hn. unfold other at 1. rewrite Hc.
    destruct (slot_dec (g a) (g k)) as [E|_]; [apply Hg in E; tauto|]. f_equal. apply IH. tauto. }
  induction l as [|[k' w] l IH]; [reflexivity|]. unfold swf, skeys in W. cbn [map fst] in W. inversion_clear W as [|? ? W' Hn].
  assert (Hx : ~ In k' (map fst l)) by (intros H; rewrite Forall_forall in Hn; apply (slt_irrefl k'), Hn, H).
  cbn [sset]. destruct (String.compare k k') eqn:E.
  - apply compare_eq in E. subst k'. cbn [map fst snd filter]. unfold other at 1. rewrite Hc. destruct (slot_dec (g k) (g k)) as [_|C]; [|congruence]. rewrite U by exact Hx. reflexivity.
  - rewrite U; [reflexivity|]. cbn [map fst]. intros [->|H]; [apply (slt_irrefl k); exact E|].
    rewrite Forall_forall in Hn. apply (slt_irrefl k). transitivity k'; [exact E|apply Hn, H].
  - cbn [map fst snd filter]. unfold other at 1. rewrite Hc.
    destruct (slot_dec (g k') (g k)) as [Q|_]; [apply Hg in Q; subst; exfalso; assert (String.compare k k = Eq) by (apply compare_eq; reflexivity); congruence|].
    rewrite (IH W'). apply perm_swap.
Qed.
Lemma dict_eqb_spec a b : Bool.reflect (a = b) (dict_eqb a b).
Proof. unfold dict_eqb. destruct (list_eq_dec kv_dec a b); constructor; assumption. Qed.
Record wfc (s : cman) : Prop := mkWfc {
  wCok : cok s; wRat : NoDup (map fst (cRatio s)); wFra : NoDup (map fst (cFrac s)); wInt : swf (cInterp s); wShp : NoDup (map fst (cShape s)) }.
Lemma wfc_new : wfc cman_new.
Proof. constructor; try apply cok_new; constructor. Qed.
Lemma cok_ext s s' : cInd s' = cInd s -> cPair s' = cPair s -> cUse s' = cUse s -> cok s -> cok s'.
Proof.
  intros E1 E2 E3 K. destruct K. unfold has_single, in_pair, has_pair in *. constructor; unfold has_single, in_pair, has_pair; rewrite ?E1, ?E2, ?E3; assumption.
Qed.
Lemma wfc_call s o : wfc s -> wfc (fst (ccall s o)).
Proof.
  intros [K R F I P]. destruct o; cbn [ccall fst].
  - pose proof (set_single_ok s n (mk_quad m w) K). unfold set_single in *. destruct (sfind n (cUse s)) as [[|]|]; constructor; assumption.
  - pose proof (set_single_ok s n (mk_quad_asym m hi lo) K). unfold set_single in *. destruct (sfind n (cUse s)) as [[|]|]; constructor; assumption.
  - pose proof (set_pair_ok s n1 m1 s1 n2 m2 s2 corr K). unfold set_pair, mk_biv in *.
    destruct (shas n1 (cUse s) || shas n2 (cUse s))%bool; [destruct (afind pair_eqb (n1, n2) (cPair s)); [|constructor; assumption]|]; destruct (qeqb corr 1); constructor; assumption.
  - constructor; cbn; try assumption; [eapply cok_ext; [..|exact K]; reflexivity|apply aset_nodup; [apply pair_eqb_spec|assumption]].
  - constructor; cbn; try assumption; [eapply cok_ext; [..|exact K]; reflexivity|apply aset_nodup; [apply pair_eqb_spec|assumption]].
  - constructor; cbn; try assumption; [eapply cok_ext; [..|exact K]; reflexivity|apply sset_wf; assumption].
  - constructor; cbn; try assumption; [eapply cok_ext; [..|exact K]; reflexivity|apply aset_nodup; [apply dict_eqb_spec|assumption]].
Qed.
Lemma others {A} (f : A -> sterm) x l : (forall a, tslot (f a) <> x) -> filter (other x) (map f l) = map f l.
Proof. intros H. induction l as [|a l IH]; cbn; [reflexivity|]. unfold other at 1. destruct (slot_dec (tslot (f a)) x) as [E|_]; [apply H in E; tauto|]. now rewrite IH. Qed.
Lemma mid {A} (a b b' c : list A) x : Permutation b' (x :: b) -> Permutation (a ++ b' ++ c) (x :: a ++ b ++ c).
Proof. intros ->. cbn. symmetry. apply Permutation_middle. Qed.
Lemma head {A} (b b' c : list A) x : Permutation b' (x :: b) -> Permutation (b' ++ c) (x :: b ++ c).
Proof. intros ->. reflexivity. Qed.
Lemma last_ {A} (a b b' : list A) x : Permutation b' (x :: b) -> Permutation (a ++ b') (x :: a ++ b).
Proof. intros ->. symmetry. apply Permutation_middle. Qed.
Lemma store_step s o : wfc s -> snd (ccall s o) = Ok tt -> Permutation (stored (fst (ccall s o))) (term_of o :: filter (other (slot_of o)) (stored s)).
Proof.
  intros [K R F I P] H. pose proof (ck_nodup _ K) as NP. pose proof (ck_wf _ K) as WI.
  assert (G1 : forall n q use, Permutation (stored (mkCman (sset n q (cInd s)) (cPair s) use (cRatio s) (cFrac s) (cInterp s) (cShape s))) (TOne n q :: filter (other (OfOne n)) (stored s))).
  { intros n q use. unfold stored. cbn [cInd cPair cRatio cFrac cInterp cShape]. rewrite !filter_app.
    rewrite (others (fun kc => TPair (fst kc) (snd kc))), (others (fun kc => TRat (fst kc) (snd kc))), (others (fun kc => TFrac (fst kc) (snd kc))), (others (fun kc => TInt (fst kc) (snd kc))), (others (fun kc => TShp (fst kc) (snd kc))) by (intros ?; cbn; discriminate).
    apply head. apply (sset_perm n q (cInd s) TOne OfOne); [reflexivity|congruence|exact WI]. }
  assert (G2 : forall n1 n2 b use, Permutation (stored (mkCman (cInd s) (aset pair_eqb (n1, n2) b (cPair s)) use (cRatio s) (cFrac s) (cInterp s) (cShape s))) (TPair (n1, n2) b :: filter (other (OfPair n1 n2)) (stored s))).
  { intros n1 n2 b use. unfold stored. cbn [cInd cPair cRatio cFrac cInterp cShape]. rewrite !filter_app.
    rewrite (others (fun kc => TOne (fst kc) (snd kc))), (others (fun kc => TRat (fst kc) (snd kc))), (others (fun kc => TFrac (fst kc) (snd kc))), (others (fun kc => TInt (fst kc) (snd kc))), (others (fun kc => TShp (fst kc) (snd kc))) by (intros ?; cbn; discriminate).
    apply mid. apply (aset_perm pair_eqb pair_eqb_spec (n1, n2) b (cPair s) TPair (fun p => OfPair (fst p) (snd p))); [reflexivity|intros [] []; cbn; congruence|exact NP]. }
  destruct o; cbn [ccall fst snd term_of slot_of] in *.
  - unfold set_single in *. destruct (sfind n (cUse s)) as [[|]|]; [apply G1|discriminate|apply G1].
  - unfold set_single in *. destruct (sfind n (cUse s)) as [[|]|]; [apply G1|discriminate|apply G1].
  - unfold set_pair, mk_biv in *.
    destruct (shas n1 (cUse s) || shas n2 (cUse s))%bool; [destruct (afind pair_eqb (n1, n2) (cPair s)); [|discriminate]|]; (destruct (qeqb corr 1); [discriminate|]); apply G2.
  - unfold stored, set_ratio. cbn [cInd cPair cRatio cFrac cInterp cShape]. rewrite !filter_app.
    rewrite (others (fun kc => TOne (fst kc) (snd kc))), (others (fun kc => TPair (fst kc) (snd kc))), (others (fun kc => TFrac (fst kc) (snd kc))), (others (fun kc => TInt (fst kc) (snd kc))), (others (fun kc => TShp (fst kc) (snd kc))) by (intros ?; cbn; discriminate).
    rewrite !(app_assoc (map (fun kc => TOne (fst kc) (snd kc)) (cInd s))). apply mid. apply (aset_perm pair_eqb pair_eqb_spec (n1, n2) (m, w) (cRatio s) TRat (fun p => OfRatio (fst p) (snd p))); [reflexivity|intros [] []; cbn; congruence|exact R].
  - unfold stored, set_frac. cbn [cInd cPair cRatio cFrac cInterp cShape]. rewrite !filter_app.
    rewrite (others (fun kc => TOne (fst kc) (snd kc))), (others (fun kc => TPair (fst kc) (snd kc))), (others (fun kc => TRat (fst kc) (snd kc))), (others (fun kc => TInt (fst kc) (snd kc))), (others (fun kc => TShp (fst kc) (snd kc))) by (intros ?; cbn; discriminate).
    rewrite !(app_assoc (map (fun kc => TOne (fst kc) (snd kc)) (cInd s))), !(app_assoc (map (fun kc => TOne (fst kc) (snd kc)) (cInd s) ++ map (fun kc => TPair (fst kc) (snd kc)) (cPair s))).
    apply mid. apply (aset_perm pair_eqb pair_eqb_spec (n1, n2) (m, w) (cFrac s) TFrac (fun p => OfFrac (fst p) (snd p))); [reflexivity|intros [] []; cbn; congruence|exact F].
  - unfold stored, set_interp. cbn [cInd cPair cRatio cFrac cInterp cShape]. rewrite !filter_app.
    rewrite (others (fun kc => TOne (fst kc) (snd kc))), (others (fun kc => TPair (fst kc) (snd kc))), (others (fun kc => TRat (fst kc) (snd kc))), (others (fun kc => TFrac (fst kc) (snd kc))), (others (fun kc => TShp (fst kc) (snd kc))) by (intros ?; cbn; discriminate).
    do 4 apply last_. apply head. apply (sset_perm label h (cInterp s) TInt OfLabel); [reflexivity|congruence|exact I].
  - unfold stored, set_shape. cbn [cInd cPair cRatio cFrac cInterp cShape]. rewrite !filter_app.
    rewrite (others (fun kc => TOne (fst kc) (snd kc))), (others (fun kc => TPair (fst kc) (snd kc))), (others (fun kc => TRat (fst kc) (snd kc))), (others (fun kc => TFrac (fst kc) (snd kc))), (others (fun kc => TInt (fst kc) (snd kc))) by (intros ?; cbn; discriminate).
    do 5 apply last_. apply (aset_perm dict_eqb dict_eqb_spec d (f, m, w) (cShape s) TShp OfDict); [reflexivity|congruence|exact P].
Qed.

Lemma force_slots l x : In x (map slot_of (in_force l)) <-> In x (map slot_of l).
Proof.
  induction l as [|o l IH]; cbn; [tauto|]. destruct (in_dec slot_dec (slot_of o) (map slot_of l)) as [H|H]; cbn; rewrite IH; [|tauto].
  split; [tauto|]. intros [<-|X]; [exact H|exact X].
Qed.
Lemma force_snoc l o : map term_of (in_force (l ++ [o])) = filter (other (slot_of o)) (map term_of (in_force l)) ++ [term_of o].
Proof.
  induction l as [|p l IH]; cbn; [reflexivity|]. rewrite map_app. cbn [map].
  destruct (in_dec slot_dec (slot_of p) (map slot_of l ++ [slot_of o])) as [H|H], (in_dec slot_dec (slot_of p) (map slot_of l)) as [G|G]; cbn.
  - exact IH.
  - apply in_app_or in H as [H|[H|[]]]; [tauto|]. unfold other at 1. rewrite tslot_of. destruct (slot_dec (slot_of p) (slot_of o)); [exact IH|congruence].
  - exfalso. apply H, in_or_app. now left.
  - unfold other at 1. rewrite tslot_of. destruct (slot_dec (slot_of p) (slot_of o)) as [E|_]; [exfalso; apply H, in_or_app; right; left; congruence|]. cbn. now rewrite IH.
Qed.
Lemma slots_stored s l : Permutation (stored s) (map term_of (in_force l)) -> forall x, In x (map tslot (stored s)) <-> In x (map slot_of l).
Proof.
  intros P x. rewrite <- force_slots. pose proof (Permutation_map tslot P) as Q. rewrite map_map in Q.
  rewrite (map_ext _ _ tslot_of) in Q. split; intros H; [eapply Permutation_in; [exact Q|exact H]|eapply Permutation_in; [symmetry; exact Q|exact H]].
Qed.
Lemma has_one s n : swf (cInd s) -> (has_single s n <-> In (OfOne n) (map tslot (stored s))).
Proof.
  intros W. unfold has_single, stored. rewrite !map_app, !map_map, !in_app_iff, !in_map_iff. split.
  - intros [q H]. left. exists (n, q). split; [reflexivity|]. apply sfind_In in H; assumption.
  - intros [[[k q] [E H]]|[[x [E _]]|[[x [E _]]|[[x [E _]]|[[x [E _]]|[x [E _]]]]]]]; try discriminate E. injection E as E. cbn in E. subst k. exists q. apply sfind_In; assumption.
Qed.
Lemma has_two s p : has_pair s p <-> In (OfPair (fst p) (snd p)) (map tslot (stored s)).
Proof.
  unfold has_pair, stored. rewrite !map_app, !map_map, !in_app_iff, !in_map_iff. split.
  - intros [b H]. right. left. exists (p, b). auto.
  - intros [[x [E _]]|[[[k q] [E H]]|[[x [E _]]|[[x [E _]]|[[x [E _]]|[x [E _]]]]]]]; try discriminate E. injection E as E1 E2. exists q. destruct p, k; cbn in *; subst; exact H.
Qed.
Lemma pair_seen s l n : Permutation (stored s) (map term_of (in_force l)) -> (in_pair s n <-> exists p, In p l /\ match slot_of p with OfPair a b => n = a \/ n = b | _ => False end).
Proof.
  intros P. unfold in_pair. split.
  - intros [p [H E]]. apply has_two in H. apply (slots_stored s l P) in H. apply in_map_iff in H as [o [E' H]]. exists o. split; [exact H|]. rewrite E'. intuition congruence.
  - intros [o [H E]]. destruct (slot_of o) as [|a b| | | |] eqn:E'; try contradiction. exists (a, b). split; [|cbn; intuition congruence]. apply has_two, (slots_stored s l P). cbn. rewrite <- E'. now apply in_map.
Qed.
Lemma single_seen s l n : swf (cInd s) -> Permutation (stored s) (map term_of (in_force l)) -> (has_single s n <-> exists p, In p l /\ slot_of p = OfOne n).
Proof. intros W P. rewrite (has_one s n W), (slots_stored s l P), in_map_iff. split; intros [o [A B]]; exists o; auto. Qed.
Lemma use_seen s l n : wfc s -> Permutation (stored s) (map term_of (in_force l)) -> (shas n (cUse s) = true <-> exists p, In p l /\ touches n (slot_of p) = true).
Proof.
  intros W P. pose proof (wCok _ W) as K. assert (A : shas n (cUse s) = true <-> has_single s n \/ in_pair s n).
  { rewrite (ck_ind _ K), (ck_pair _ K). unfold shas. destruct (sfind n (cUse s)) as [[|]|]; intuition congruence. }
  rewrite A, (single_seen s l n (ck_wf _ K) P), (pair_seen s l n P). split.
  - intros [[p [H E]]|[p [H E]]]; exists p; (split; [exact H|]).
    + rewrite E. cbn. apply String.eqb_refl.
    + destruct (slot_of p); try contradiction. cbn. destruct E as [->| ->]; rewrite String.eqb_refl; [reflexivity|apply orb_true_r].
  - intros [p [H E]]. destruct (slot_of p) as [m|a b| | | |] eqn:E'; cbn in E; try discriminate.
    + apply String.eqb_eq in E. subst m. left. exists p. auto.
    + right. exists p. split; [exact H|]. rewrite E'. apply orb_true_iff in E as [E|E]; apply String.eqb_eq in E; auto.
Qed.
Lemma allowed_step s l o : wfc s -> Permutation (stored s) (map term_of (in_force l)) ->
  if allowed l o then snd (ccall s o) = Ok tt else fst (ccall s o) = s /\ snd (ccall s o) <> Ok tt.
Proof.
  intros W P. pose proof (wCok _ W) as K.
  assert (G : forall n q, if forallb (fun p => match slot_of p with OfPair a b => negb (String.eqb n a || String.eqb n b) | _ => true end) l
                          then snd (set_single s n q) = Ok tt else fst (set_single s n q) = s /\ snd (set_single s n q) <> Ok tt).
  { intros n q. destruct (forallb _ l) eqn:E.
    - rewrite forallb_forall in E. unfold set_single. destruct (sfind n (cUse s)) as [[|]|] eqn:U; try reflexivity. exfalso.
      apply (ck_pair _ K) in U. apply (pair_seen s l n P) in U as [p [H M]]. apply E in H. destruct (slot_of p); try contradiction.
      apply negb_true_iff, orb_false_iff in H as [H1 H2]. destruct M as [->| ->]; rewrite String.eqb_refl in *; discriminate.
    - assert (I : in_pair s n).
      { apply (pair_seen s l n P). assert (X : existsb (fun p => negb (match slot_of p with OfPair a b => negb (String.eqb n a || String.eqb n b) | _ => true end)) l = true).
        { clear - E. induction l as [|p l IH]; cbn in *; [discriminate|]. destruct (match slot_of p with OfPair a b => _ | _ => true end); cbn in *; [apply IH, E|reflexivity]. }
        apply existsb_exists in X as [p [H M]]. exists p. split; [exact H|]. destruct (slot_of p) as [|a b| | | |]; try discriminate. rewrite negb_involutive in M.
        apply orb_true_iff in M as [M|M]; apply String.eqb_eq in M; auto. }
      apply (ck_pair _ K) in I. unfold set_single. rewrite I. split; [reflexivity|discriminate]. }
  destruct o; cbn [ccall allowed]; try reflexivity; [apply G|apply G|]. clear G.
  unfold set_pair, mk_biv. destruct (qeqb corr 1) eqn:C; cbn [negb andb].
  { destruct (shas n1 (cUse s) || shas n2 (cUse s)); [destruct (afind pair_eqb (n1, n2) (cPair s))|]; (split; [reflexivity|discriminate]). }
  assert (E1 : existsb (fun p => if slot_dec (slot_of p) (OfPair n1 n2) then true else false) l = match afind pair_eqb (n1, n2) (cPair s) with Some _ => true | None => false end).
  { destruct (afind pair_eqb (n1, n2) (cPair s)) as [b|] eqn:A.
    - apply (afind_in pair_eqb pair_eqb_spec) in A; [|apply K]. assert (H : has_pair s (n1, n2)) by (exists b; exact A). apply has_two, (slots_stored s l P) in H. cbn in H.
      apply in_map_iff in H as [p [E H]]. apply existsb_exists. exists p. split; [exact H|]. destruct (slot_dec _ _); [reflexivity|congruence].
    - apply (afind_none pair_eqb pair_eqb_spec) in A. destruct (existsb _ l) eqn:X; [|reflexivity]. exfalso. apply A, has_pair_key, has_two, (slots_stored s l P).
      apply existsb_exists in X as [p [H E]]. destruct (slot_dec (slot_of p) (OfPair n1 n2)) as [E'|]; [|discriminate]. cbn. rewrite <- E'. now apply in_map. }
  assert (E2 : forallb (fun p => negb (touches n1 (slot_of p) || touches n2 (slot_of p))) l = negb (shas n1 (cUse s) || shas n2 (cUse s))).
  { destruct (shas n1 (cUse s) || shas n2 (cUse s)) eqn:X; cbn [negb].
    - assert (Y : exists p, In p l /\ (touches n1 (slot_of p) || touches n2 (slot_of p)) = true).
      { apply orb_true_iff in X as [X|X]; apply (use_seen s l _ W P) in X as [p [H E]]; exists p; (split; [exact H|]); rewrite E; [reflexivity|apply orb_true_r]. }
      destruct Y as [p [H E]]. destruct (forallb _ l) eqn:F; [|reflexivity]. rewrite forallb_forall in F. apply F in H. rewrite E in H. discriminate.
    - apply forallb_forall. intros p H. apply orb_false_iff in X as [X1 X2]. apply negb_true_iff, orb_false_iff.
      split; [destruct (touches n1 (slot_of p)) eqn:T; [|reflexivity]; rewrite <- X1; symmetry|destruct (touches n2 (slot_of p)) eqn:T; [|reflexivity]; rewrite <- X2; symmetry]; apply (use_seen s l _ W P); exists p; auto. }
  rewrite E1, E2. destruct (shas n1 (cUse s) || shas n2 (cUse s)); destruct (afind pair_eqb (n1, n2) (cPair s)); first [reflexivity|split; [reflexivity|discriminate]].
Qed.
Lemma hist_inv ops : wfc (crun ops) /\ Permutation (stored (crun ops)) (map term_of (in_force (accepted_calls ops))).
Proof.
  induction ops as [|o ops [W P]] using rev_ind; [split; [apply wfc_new|reflexivity]|]. unfold crun, accepted_calls in *. rewrite !fold_left_app. cbn [fold_left].
  set (s := fold_left (fun s o => fst (ccall s o)) ops cman_new) in *. set (l := fold_left _ ops []) in *. split; [apply wfc_call, W|].
  pose proof (allowed_step s l o W P) as A. destruct (allowed l o) eqn:E; [|destruct A as [A _]; rewrite A; exact P].
  rewrite (store_step s o W A), force_snoc. rewrite <- Permutation_cons_append. apply perm_skip.
  clear - P. induction P as [|x a b P IH|x y a|a b c P1 IH1 P2 IH2]; cbn; [reflexivity| | |etransitivity; eassumption].
  - destruct (other _ x); [apply perm_skip|]; exact IH.
  - destruct (other _ x), (other _ y); try reflexivity. apply perm_swap.
Qed.
Lemma asks_ok d o v : asks_for d o v -> teval d (term_of o) = Ok v.
Proof.
  destruct o; cbn [asks_for term_of teval].
  - intros [Hw [x [E ->]]]. unfold at_. rewrite E. apply quad_pkg, Hw.
  - intros [Hh [Hl [x [E ->]]]]. unfold at_. rewrite E. cbn [bind]. destruct (asym_pkg m hi lo x Hh Hl) as [A [B _]]. destruct (Qclt_le_dec x m); auto.
  - intros [H1 [H2 [H3 [x [y [E1 [E2 ->]]]]]]]. unfold at_. cbn [fst snd]. rewrite E1, E2. cbn [bind]. apply biv_value; assumption.
  - intros [Hw [x [y [E1 [E2 ->]]]]]. unfold at_. cbn [fst snd]. rewrite E1, E2. cbn [bind]. destruct (ratio_pkg m w x y Hw) as [A B].
    destruct (Qclt_le_dec (qabs y) ratio_eps) as [L|L]; [destruct (B L) as [v [E [-> _]]]|destruct (A L) as [v [E [-> _]]]]; exact E.
  - intros [Hw [x [y [E1 [E2 [N ->]]]]]]. unfold at_. cbn [fst snd]. rewrite E1, E2. cbn [bind]. destruct (frac_pkg m w x y Hw N) as [v [E [-> _]]]. exact E.
  - auto.
  - intros [Hw [x [E ->]]]. apply (shape_pkg f m w d Hw), E.
Qed.
Lemma perm_values d l l' : Permutation l l' -> forall vs, Forall2 (fun t v => teval d t = Ok v) l' vs -> exists ws, Forall2 (fun t v => teval d t = Ok v) l ws /\ qsum ws = qsum vs.
Proof.
  induction 1 as [|x a b P IH|x y a|a b c P1 IH1 P2 IH2]; intros vs F.
  - exists vs. auto.
  - inversion F as [|? v ? vs' E F']; subst. destruct (IH _ F') as [ws [G S]]. exists (v :: ws). split; [constructor; assumption|]. cbn. now rewrite S.
  - inversion F as [|? v ? vs' E F']; subst. inversion F' as [|? u ? us E' F'']; subst. exists (u :: v :: us). split; [repeat constructor; assumption|]. cbn. ring.
  - destruct (IH2 _ F) as [us [G S]]. destruct (IH1 _ G) as [ws [G' S']]. exists ws. split; [exact G'|congruence].
Qed.
Lemma history_pkg ops d vs : Forall2 (asks_for d) (in_force (accepted_calls ops)) vs -> cman_eval (crun ops) d = Ok (qsum vs).
Proof.
  intros F. destruct (hist_inv ops) as [_ P]. destruct (perm_values d _ _ P vs) as [ws [G E]].
  { clear - F. induction F; cbn; constructor; [apply asks_ok; assumption|assumption]. }
  unfold cman_eval. rewrite terms_stored, (sum_terms_ok _ ws). - f_equal. rewrite E. ring. - apply Forall2_map_l. exact G.
Qed.
Lemma accepted_pkg ops o : snd (ccall (crun ops) o) = Ok tt <-> allowed (accepted_calls ops) o = true.
Proof.
  destruct (hist_inv ops) as [W P]. pose proof (allowed_step _ _ o W P) as A. destruct (allowed (accepted_calls ops) o); [tauto|]. split; [tauto|discriminate].
Qed.
