(** Convolution: the matrix (C26). *)
From Coq Require Import Permutation Sorted.
From Verif Require Import Base.Res Base.Num Base.SMap Model.Axis Model.Event Model.Hist Model.Matrix Model.Syst
  Spec.AxisSpec Spec.HistSpec Spec.SystSpec Proofs.AxisP Proofs.HistP Proofs.HistP2 Proofs.CutP Proofs.ParamP3
  Proofs.SystP Proofs.SystP2 Proofs.SystP3 Proofs.SystP4 Proofs.SystP5 Proofs.SystP6 Proofs.SystP7.
Local Open Scope Qc_scope.

(** * coordinate lists *)
Lemma combine_maps {A B C} (f : A -> B) (g : A -> C) l : combine (map f l) (map g l) = map (fun x => (f x, g x)) l.
Proof. induction l as [|x l IH]; [reflexivity|]. cbn. now rewrite IH. Qed.
Lemma coo_none {A} (key : A -> nat * nat) (val : A -> Qc) l i j : (forall x, In x l -> key x <> (i, j)) ->
  coo_find (map key l) (map val l) i j = 0.
Proof.
  induction l as [|x l IH]; intros H; [reflexivity|]. cbn [map coo_find]. destruct (key x) as [r c] eqn:E.
  destruct (Nat.eqb_spec r i), (Nat.eqb_spec c j); cbn [andb]; try (apply IH; intros y Hy; apply H; now right).
  subst. exfalso. apply (H x); [now left|exact E].
Qed.
Lemma coo_some {A} (key : A -> nat * nat) (val : A -> Qc) l i j v :
  (exists x, In x l /\ key x = (i, j)) -> (forall x, In x l -> key x = (i, j) -> val x = v) ->
  coo_find (map key l) (map val l) i j = v.
Proof.
  induction l as [|x l IH]; intros [y [Hy E]] Hv; [destruct Hy|]. cbn [map coo_find]. destruct (key x) as [r c] eqn:Ex.
  assert (G : key x <> (i, j) -> coo_find (map key l) (map val l) i j = v).
  { intros Hn. apply IH.
    - exists y. split; [|exact E]. destruct Hy as [->|Hy]; [contradiction|exact Hy].
    - intros z Hz. apply Hv. now right. }
  destruct (Nat.eqb_spec r i), (Nat.eqb_spec c j); cbn [andb]; try (apply G; congruence).
  subst. apply Hv; [now left|exact Ex].
Qed.
Lemma has_dup_NoDup l : NoDup l -> has_dup l = false.
Proof.
  induction l as [|x l IH]; intros H; [reflexivity|]. apply NoDup_cons_iff in H as [Hn H]. cbn [has_dup].
  destruct (in_dec pair_eq_dec x l); [contradiction|]. now apply IH.
Qed.
Lemma NoDup_map_on {A B} (f : A -> B) l : NoDup l -> (forall x y, In x l -> In y l -> f x = f y -> x = y) -> NoDup (map f l).
Proof.
  induction l as [|x l IH]; intros Hn Hi; cbn [map]; constructor.
  - apply NoDup_cons_iff in Hn as [Hn _]. intros C. apply in_map_iff in C as [y [E Hy]].
    apply Hn. rewrite (Hi x y); [exact Hy|now left|now right|congruence].
  - apply IH; [now apply NoDup_cons_iff in Hn|]. intros; apply Hi; auto; now right.
Qed.
Lemma NoDup_app_intro {A} (l m : list A) : NoDup l -> NoDup m -> (forall x, In x l -> ~ In x m) -> NoDup (l ++ m).
Proof.
  induction l as [|x l IH]; intros Hl Hm Hd; [exact Hm|]. cbn [app]. apply NoDup_cons_iff in Hl as [Hx Hl]. constructor.
  - rewrite in_app_iff. intros [C|C]; [contradiction|]. apply (Hd x); [now left|exact C].
  - apply IH; [exact Hl|exact Hm|]. intros y Hy. apply Hd. now right.
Qed.
Lemma NoDup_list_prod {A B} (l : list A) (m : list B) : NoDup l -> NoDup m -> NoDup (list_prod l m).
Proof.
  intros Hl Hm. induction l as [|x l IH]; [constructor|]. apply NoDup_cons_iff in Hl as [Hx Hl]. cbn [list_prod].
  apply NoDup_app_intro; [| |intros p].
  - apply NoDup_map_on; [exact Hm|]. intros; congruence.
  - now apply IH.
  - rewrite in_map_iff. intros [y [<- _]] C. apply in_prod_iff in C as [C _]. contradiction.
Qed.
Lemma concat_filter_map {A B C} (p : C -> bool) (g : A -> B -> C) (l : list A) (l' : list B) :
  List.concat (map (fun a => filter p (map (g a) l')) l) = filter p (map (fun q => g (fst q) (snd q)) (list_prod l l')).
Proof.
  induction l as [|a l IH]; [reflexivity|]. cbn [map List.concat list_prod]. rewrite map_app, filter_app, map_map, IH.
  reflexivity.
Qed.

Lemma qsum_blocks n nb (f : nat -> Qc) : qsum (map f (seq 0 (n * nb))) =
  qsum (map (fun b => qsum (map (fun a => f (a + b * n)%nat) (seq 0 n))) (seq 0 nb)).
Proof.
  induction nb as [|m IH].
  - rewrite Nat.mul_0_r. reflexivity.
  - rewrite Nat.mul_succ_r, seq_app, map_app, qsum_app, IH.
    rewrite seq_S, map_app, qsum_app. f_equal. cbn [map qsum]. rewrite !Nat.add_0_l, Qcplus_0_r.
    assert (G : forall k s, seq s k = map (fun a => (a + s)%nat) (seq 0 k)).
    { induction k as [|k IHk]; intros s; [reflexivity|]. cbn [seq map]. f_equal. rewrite (IHk (S s)), <- (seq_shift k 0), map_map.
      apply map_ext. intros; lia. }
    rewrite (G n (n * m)%nat), map_map. apply qsum_map_ext. intros a _. f_equal. lia.
Qed.

(** * the full matrix in blocked coordinates *)
Section Full.
Variables (n nb N : nat) (P : nat -> nat) (K : nat -> nat -> Qc).   (* K dest orig *)
Hypothesis Hn : (0 < n)%nat.
Hypothesis HN : N = (n * nb)%nat.
Hypothesis HP1 : forall q, (q < N)%nat -> (P q < N)%nat.
Hypothesis HP2 : forall p q, (p < N)%nat -> (q < N)%nat -> P p = P q -> p = q.

Definition trs : list (nat * nat * Qc) :=
  filter (fun t => qltb 0 (snd t)) (map (fun q => (fst q, snd q, K (snd q) (fst q))) (list_prod (seq 0 n) (seq 0 n))).
Lemma trs_in c r v : In (c, r, v) trs <-> (c < n)%nat /\ (r < n)%nat /\ v = K r c /\ 0 < v.
Proof.
  unfold trs. rewrite filter_In, in_map_iff. cbn [snd]. rewrite qltb_lt. split.
  - intros [[[o d] [E Hp]] Hv]. apply in_prod_iff in Hp as [H1 H2]. apply in_seq in H1. apply in_seq in H2.
    cbn [fst snd] in E. injection E as <- <- <-. repeat split; try lia. exact Hv.
  - intros [H1 [H2 [-> Hv]]]. split; [|exact Hv]. exists (c, r). split; [reflexivity|]. apply in_prod; apply in_seq; lia.
Qed.
Lemma trs_NoDup : NoDup trs.
Proof.
  apply NoDup_filter, NoDup_map_on.
  - apply NoDup_list_prod; apply seq_NoDup.
  - intros [a b] [c d] _ _ E. cbn in E. congruence.
Qed.
Definition ent (bt : nat * (nat * nat * Qc)) : nat * nat * Qc :=
  let '(b, (c, r, v)) := bt in (P (r + b * n)%nat, P (c + b * n)%nat, v).
Definition ents := map ent (list_prod (seq 0 nb) trs).
Lemma blk_bound a b : (a < n)%nat -> (b < nb)%nat -> (a + b * n < N)%nat.
Proof. intros Ha Hb. subst N. nia. Qed.

Definition entF : nat -> nat -> Qc :=
  coo_find (combine (map (fun t => fst (fst t)) ents) (map (fun t => snd (fst t)) ents)) (map snd ents).
Definition ekey (bt : nat * (nat * nat * Qc)) : nat * nat := (fst (fst (ent bt)), snd (fst (ent bt))).
Lemma entF_eq i j : entF i j = coo_find (map ekey (list_prod (seq 0 nb) trs)) (map (fun bt => snd (ent bt)) (list_prod (seq 0 nb) trs)) i j.
Proof. unfold entF, ents. rewrite combine_maps, !map_map. reflexivity. Qed.
Lemma ekey_inj x y : In x (list_prod (seq 0 nb) trs) -> In y (list_prod (seq 0 nb) trs) -> ekey x = ekey y -> x = y.
Proof.
  destruct x as [b [[c r] v]], y as [b' [[c' r'] v']]. intros Hx Hy E.
  apply in_prod_iff in Hx as [Hb Ht]. apply in_prod_iff in Hy as [Hb' Ht']. apply in_seq in Hb. apply in_seq in Hb'.
  apply trs_in in Ht as [H1 [H2 [-> _]]]. apply trs_in in Ht' as [H1' [H2' [-> _]]].
  unfold ekey, ent in E. cbn [fst snd] in E. injection E as E1 E2.
  apply HP2 in E1; [|apply blk_bound; lia|apply blk_bound; lia]. apply HP2 in E2; [|apply blk_bound; lia|apply blk_bound; lia].
  apply pair_index_inj in E1 as [-> ->]; [|lia|lia]. apply pair_index_inj in E2 as [-> _]; [reflexivity|lia|lia].
Qed.
Lemma ents_nodup : has_dup (combine (map (fun t => fst (fst t)) ents) (map (fun t => snd (fst t)) ents)) = false.
Proof.
  apply has_dup_NoDup. unfold ents. rewrite !map_map, combine_maps. apply (NoDup_map_on ekey).
  - apply NoDup_list_prod; [apply seq_NoDup|apply trs_NoDup].
  - exact ekey_inj.
Qed.
Lemma entF_block a b c b' : (a < n)%nat -> (c < n)%nat -> (b < nb)%nat -> (b' < nb)%nat ->
  entF (P (a + b * n)%nat) (P (c + b' * n)%nat) = if Nat.eqb b b' then qmax 0 (K a c) else 0.
Proof.
  intros Ha Hc Hb Hb'. rewrite entF_eq.
  assert (Hkey : forall b0 c0 r0 v0, In (b0, (c0, r0, v0)) (list_prod (seq 0 nb) trs) ->
            ekey (b0, (c0, r0, v0)) = (P (a + b * n)%nat, P (c + b' * n)%nat) ->
            b0 = b /\ b0 = b' /\ c0 = c /\ r0 = a /\ v0 = K a c).
  { intros b0 c0 r0 v0 Hin E. apply in_prod_iff in Hin as [H0 H1]. apply in_seq in H0. apply trs_in in H1 as [H1 [H2 [-> H3]]].
    unfold ekey, ent in E. cbn [fst snd] in E. injection E as E1 E2.
    apply HP2 in E1; [|apply blk_bound; lia|apply blk_bound; lia]. apply HP2 in E2; [|apply blk_bound; lia|apply blk_bound; lia].
    apply pair_index_inj in E1 as [-> ->]; [|lia|lia]. apply pair_index_inj in E2 as [-> ->]; [|lia|lia]. auto. }
  destruct (Nat.eqb_spec b b') as [->|Hne].
  - unfold qmax. destruct (qleb 0 (K a c)) eqn:E0.
    + apply qleb_le in E0. destruct (Qc_eq_dec (K a c) 0) as [Ez|Ez].
      * rewrite Ez. apply coo_none. intros [b0 [[c0 r0] v0]] Hin E. pose proof (Hkey _ _ _ _ Hin E) as [_ [_ [_ [_ Ev]]]].
        apply in_prod_iff in Hin as [_ Hin]. apply trs_in in Hin. destruct Hin as [_ [_ [_ Hp]]]. qlra.
      * apply coo_some.
        -- exists (b', (c, a, K a c)). split; [|reflexivity]. apply in_prod; [apply in_seq; lia|].
           apply trs_in. repeat split; try assumption.
           apply Qcnot_le_lt. intros C. apply Ez. now apply Qcle_antisym.
        -- intros [b0 [[c0 r0] v0]] Hin E. pose proof (Hkey _ _ _ _ Hin E) as [_ [_ [_ [_ Ev]]]]. exact Ev.
    + apply coo_none. intros [b0 [[c0 r0] v0]] Hin E. pose proof (Hkey _ _ _ _ Hin E) as [_ [_ [_ [_ Ev]]]].
      apply in_prod_iff in Hin as [_ Hin]. apply trs_in in Hin as [_ [_ [_ Hp]]].
      apply qleb_gt in E0. rewrite Ev in Hp. qlra.
  - apply coo_none. intros [b0 [[c0 r0] v0]] Hin E. pose proof (Hkey _ _ _ _ Hin E) as [E1 [E2 _]]. congruence.
Qed.

Lemma entF_column c b : (c < n)%nat -> (b < nb)%nat ->
  qsum (map (fun i => entF i (P (c + b * n)%nat)) (seq 0 N)) = qsum (map (fun a => qmax 0 (K a c)) (seq 0 n)).
Proof.
  intros Hc Hb.
  assert (HPm : Permutation (map P (seq 0 N)) (seq 0 N)).
  { apply NoDup_Permutation_bis.
    - apply NoDup_map_on; [apply seq_NoDup|]. intros x y Hx Hy. apply in_seq in Hx. apply in_seq in Hy. apply HP2; lia.
    - rewrite map_length. lia.
    - intros x Hx. apply in_map_iff in Hx as [q [<- Hq]]. apply in_seq in Hq. apply in_seq. split; [lia|]. apply HP1. lia. }
  etransitivity; [apply qsum_perm, Permutation_map, Permutation_sym, HPm|]. rewrite map_map, HN, qsum_blocks.
  etransitivity; [|apply (qsum_seq_single (fun _ => qsum (map (fun a => qmax 0 (K a c)) (seq 0 n))) b nb 0); lia].
  apply qsum_map_ext. intros b' Hb'. apply in_seq in Hb'.
  destruct (Nat.eqb_spec b' b) as [->|Hne].
  - apply qsum_map_ext. intros a Ha. apply in_seq in Ha. rewrite entF_block by lia. now rewrite Nat.eqb_refl.
  - apply qsum_map_0. intros a Ha. apply in_seq in Ha. rewrite entF_block by lia.
    destruct (Nat.eqb_spec b' b); [contradiction|reflexivity].
Qed.
End Full.

(** * Construct *)
Lemma lo_ok a i : built a -> (i < aNBins a)%nat -> binLow a i = Ok (lo_of a i).
Proof. intros Hb Hi. unfold binLow, lo_of. apply vat_nth. destruct (built_facts _ Hb) as [_ [-> _]]. exact Hi. Qed.
Lemma hi_ok a i : built a -> (i < aNBins a)%nat -> binHigh a i = Ok (hi_of a i).
Proof. intros Hb Hi. unfold binHigh, hi_of. apply vat_nth. destruct (built_facts _ Hb) as [_ [_ [-> _]]]. exact Hi. Qed.

Lemma agree_outside_rest ac rel I J : in_shape (ac_nb ac) I -> in_shape (ac_nb ac) J ->
  agree_outside rel I J <-> at_pos (rest_of ac rel) I = at_pos (rest_of ac rel) J.
Proof.
  intros HI HJ. split.
  - intros H. apply at_pos_ext. intros p Hp. apply H. pose proof (rest_lt _ _ _ Hp) as Hl. now apply rest_in in Hp.
  - intros E p Hp. destruct (Nat.lt_ge_cases p (List.length (acAxes ac))) as [Hl|Hg].
    + apply (at_pos_inj _ _ _ E). now apply rest_in.
    + rewrite !nth_overflow; [reflexivity| |].
      * rewrite (in_shape_length _ _ HJ). unfold ac_nb. rewrite map_length. exact Hg.
      * rewrite (in_shape_length _ _ HI). unfold ac_nb. rewrite map_length. exact Hg.
Qed.

Lemma conv_pkg k Kf ac dn tns rel axs : selects ac dn tns rel axs -> List.length dn = List.length (acAxes ac) -> ascending rel ->
  (forall t u, in_shape (map aNBins axs) t -> in_shape (map aNBins axs) u ->
     k (lows axs t) (highs axs t) (centres axs u) = Ok (Kf t u)) ->
  exists c', cv_construct (cv_cfg k ac dn tns) = (c', Ok tt) /\ square (sbResp (cvB c')) (acNBins ac) /\
    (forall I J, in_shape (nshape ac) I -> in_shape (nshape ac) J ->
       let e := resp (cvB c') (rowmajor (nshape ac) I) (rowmajor (nshape ac) J) in
       (agree_outside rel I J -> e = qmax 0 (Kf (at_pos rel I) (at_pos rel J))) /\
       (~ agree_outside rel I J -> e = 0)) /\
    (forall J, in_shape (nshape ac) J ->
       qsum (map (fun i => resp (cvB c') i (rowmajor (nshape ac) J)) (seq 0 (acNBins ac))) =
       qsum (map (fun t => qmax 0 (Kf t (at_pos rel J))) (tuples (map aNBins axs)))).
Proof.
  intros Hsel Hdn Hasc HK. destruct (conv_cache ac dn tns rel axs Hsel Hdn Hasc) as [sub [nsub [perm [Ec [Hsub [Eax [ENs [Enb [Lp [P1 P2]]]]]]]]]].
  assert (Hl : forall p, In p rel -> (p < List.length (acAxes ac))%nat) by (intros p Hp; eapply selects_lt; eassumption).
  pose proof Hsel as [Hr [_ [_ [Htn [HF1 HF]]]]]. pose proof (ac_reach_ok _ Hr) as Hok.
  assert (Hne : acAxes ac <> []).
  { destruct HF1 as [|t r ts rs H HF1]; [congruence|]. specialize (Hl r (or_introl eq_refl)). intro C. rewrite C in Hl. cbn in Hl. lia. }
  assert (Haxs : acAxes sub <> []). { rewrite Eax. destruct HF1; [congruence|]. inversion HF. congruence. }
  assert (Enb' : ac_nb sub = map aNBins axs) by (unfold ac_nb; now rewrite Eax).
  set (n := acNBins sub) in *. set (N := acNBins ac) in *.
  set (nb := prod (nbs ac (rest_of ac rel))).
  assert (HN : N = (n * nb)%nat). { unfold N, nb. rewrite ENs, (split_prod ac rel Hasc Hl). now apply ac_nb_prod. }
  set (dg := fun i => digits (ac_nb sub) i).
  set (K := fun d o => Kf (dg d) (dg o)).
  assert (Hdg : forall i, (i < n)%nat -> in_shape (ac_nb sub) (dg i) /\ rowmajor (ac_nb sub) (dg i) = i).
  { intros i Hi. apply ac_tuple; assumption. }
  assert (HNpos : (0 < N)%nat).
  { unfold N. rewrite ac_nb_prod by assumption. apply prod_pos_all. unfold ac_nb. rewrite Forall_map.
    pose proof Hok as [_ [_ [_ [_ [_ H6]]]]]. revert H6. apply Forall_impl. intros b Hb. apply (built_facts _ Hb). }
  assert (Hnpos : (0 < n)%nat) by nia.
  assert (Hnb : (0 < nb)%nat) by nia.
  set (P := fun q => nth q perm 0%nat).
  assert (HP1 : forall q, (q < N)%nat -> (P q < N)%nat) by (intros q Hq; apply P2; exact Hq).
  assert (HP2 : forall p q, (p < N)%nat -> (q < N)%nat -> P p = P q -> p = q).
  { intros p q Hp Hq E. destruct (P2 p Hp) as [_ <-]. destruct (P2 q Hq) as [_ <-]. unfold P in E. now rewrite E. }
  assert (Esubm : cv_submatrix sub k = Ok (trs n K)).
  { unfold cv_submatrix. rewrite (seqM_ok _ (fun o => filter (fun t => qltb 0 (snd t)) (map (fun d => (o, d, K d o)) (seq 0 n)))).
    - cbn [bind]. rewrite (concat_filter_map (fun t : nat * nat * Qc => qltb 0 (snd t)) (fun o d => (o, d, K d o))). reflexivity.
    - intros o Ho. apply in_seq in Ho. destruct (Hdg o ltac:(unfold n in *; lia)) as [O1 O2].
      unfold binCentres. rewrite <- O2 at 1. rewrite (binVec_tuple binCentre ctr_of sub (dg o) Hsub Haxs O1 binCentre_ok). cbn [bind].
      rewrite (seqM_ok _ (fun d => (o, d, K d o))); [reflexivity|].
      intros d Hd. apply in_seq in Hd. destruct (Hdg d ltac:(unfold n in *; lia)) as [D1 D2].
      unfold binLowEdges, binHighEdges. rewrite <- D2 at 1. rewrite (binVec_tuple binLow lo_of sub (dg d) Hsub Haxs D1 lo_ok). cbn [bind].
      rewrite <- D2 at 1. rewrite (binVec_tuple binHigh hi_of sub (dg d) Hsub Haxs D1 hi_ok). cbn [bind].
      rewrite Eax. change (map _ (combine axs (dg d))) with (lows axs (dg d)) at 1.
      change (map _ (combine axs (dg d))) with (highs axs (dg d)). change (map _ (combine axs (dg o))) with (centres axs (dg o)).
      rewrite HK by (rewrite <- Enb'; assumption). reflexivity. }
  set (M := mkMat N N N N (entF n nb P K)).
  assert (Efull : cv_full N sub perm (trs n K) (mat_zeros N N) = (M, Ok tt)).
  { unfold cv_full. fold n. destruct (Nat.eqb_spec n 0); [lia|].
    assert (Ed : (N / n)%nat = nb) by (rewrite HN, Nat.mul_comm; apply Nat.div_mul; lia). rewrite Ed.
    rewrite (seqM_ok _ (ent n P)).
    - cbn [obind]. fold (ents n nb P K). unfold m_setComponents. rewrite !map_length, !Nat.eqb_refl. cbn [negb orb].
      rewrite (ents_nodup n nb N P K Hnpos HN HP1 HP2). reflexivity.
    - intros [b [[c r] v]] Hin. apply in_prod_iff in Hin as [H0 H1]. apply in_seq in H0. apply (trs_in n nb N K Hnpos HN) in H1 as [H1 [H2 _]].
      rewrite !(vat_nth _ _ 0%nat) by (rewrite Lp; fold N; rewrite HN; nia). reflexivity. }
  exists (mkConv (sb_setResp (base_cfg ac dn tns) M) (Some k) true sub nsub perm). split; [|split; [|split]].
  - change (cv_cfg k ac dn tns) with (mkConv (base_cfg ac dn tns) (Some k) false ac_empty ac_empty []). unfold cv_construct. cbn [cvDist cvB cvCached]. change (sbAxes (base_cfg ac dn tns)) with ac. fold N.
    destruct (Nat.eqb_spec N 0); [lia|]. rewrite Ec. cbn [obind]. rewrite Esubm. cbn [obind]. rewrite Efull. reflexivity.
  - cbn. repeat split.
  - intros I J HI HJ e. change (nshape ac) with (ac_nb ac) in *.
    assert (Ee : e = entF n nb P K (P (blk_of ac rel I)) (P (blk_of ac rel J))).
    { unfold e, resp, P. cbn [cvB sbResp sb_setResp sF M]. now rewrite !P1. }
    pose proof (at_pos_nbs ac rel I HI Hl) as I1. pose proof (at_pos_nbs ac rel J HJ Hl) as J1.
    pose proof (at_pos_nbs ac (rest_of ac rel) I HI (rest_lt ac rel)) as I2.
    pose proof (at_pos_nbs ac (rest_of ac rel) J HJ (rest_lt ac rel)) as J2.
    pose proof (rowmajor_lt _ _ I1) as LI1. pose proof (rowmajor_lt _ _ J1) as LJ1.
    pose proof (rowmajor_lt _ _ I2) as LI2. pose proof (rowmajor_lt _ _ J2) as LJ2.
    rewrite Ee. unfold blk_of. rewrite <- ENs in *.
    rewrite (entF_block n nb N P K Hnpos HN HP1 HP2) by assumption.
    rewrite agree_outside_rest by eassumption. split; intros Hag.
    + rewrite Hag, Nat.eqb_refl. unfold K. rewrite <- Enb in *.
      destruct (Hdg _ LI1) as [X1 X2]. destruct (Hdg _ LJ1) as [Y1 Y2].
      rewrite (rowmajor_inj _ _ _ X1 I1 X2), (rowmajor_inj _ _ _ Y1 J1 Y2). reflexivity.
    + destruct (Nat.eqb_spec (rowmajor (nbs ac (rest_of ac rel)) (at_pos (rest_of ac rel) I))
                             (rowmajor (nbs ac (rest_of ac rel)) (at_pos (rest_of ac rel) J))) as [C|]; [|reflexivity].
      exfalso. apply Hag. now apply (rowmajor_inj _ _ _ I2 J2).
  - intros J HJ. change (nshape ac) with (ac_nb ac) in *.
    pose proof (at_pos_nbs ac rel J HJ Hl) as J1.
    pose proof (at_pos_nbs ac (rest_of ac rel) J HJ (rest_lt ac rel)) as J2.
    pose proof (rowmajor_lt _ _ J1) as LJ1. pose proof (rowmajor_lt _ _ J2) as LJ2.
    etransitivity; [apply qsum_map_ext; intros i _; unfold resp; cbn [cvB sbResp sb_setResp sF M]; rewrite <- (P1 J HJ); reflexivity|].
    change (nth (blk_of ac rel J) perm 0%nat) with (P (blk_of ac rel J)). unfold blk_of. rewrite <- ENs in *.
    rewrite (entF_column n nb N P K Hnpos HN HP1 HP2) by assumption.
    unfold n at 1. rewrite (ac_nb_prod sub Hsub Haxs), qsum_bins_tuples, <- Enb'. apply qsum_map_ext. intros t Ht. apply in_tuples in Ht.
    unfold K. rewrite <- Enb in *. destruct (Hdg _ LJ1) as [Y1 Y2]. rewrite (rowmajor_inj _ _ _ Y1 J1 Y2).
    pose proof (rowmajor_lt _ _ Ht) as Lt. rewrite <- ac_nb_prod in Lt by assumption.
    destruct (Hdg _ Lt) as [X1 X2]. now rewrite (rowmajor_inj _ _ _ X1 Ht X2).
Qed.
