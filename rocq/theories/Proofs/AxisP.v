From Coq Require Import Permutation.
From Verif Require Import Base.Res Base.Num Model.Axis Spec.AxisSpec.
Local Open Scope Qc_scope.

(** * lower_bound *)
Lemma div2_lt n : (0 < n)%nat -> (Nat.div2 n < n)%nat.
Proof. intros; apply Nat.lt_div2; lia. Qed.

Definition sortedQ (l : list Qc) : Prop :=
  forall i j, (i <= j < List.length l)%nat -> nth i l 0 <= nth j l 0.

Lemma lower_bound_go_range l v : forall fuel first len,
  (first <= lower_bound_go fuel l v first len <= first + len)%nat.
Proof.
  induction fuel as [|fuel IH]; intros first len; cbn [lower_bound_go]; [lia|].
  destruct len as [|len']; [lia|].
  pose proof (div2_lt (S len') ltac:(lia)) as Hd.
  set (half := Nat.div2 (S len')) in *. cbv zeta.
  destruct (qleb _ v).
  - pose proof (IH (first + half + 1)%nat (S len' - half - 1)%nat). lia.
  - pose proof (IH first half). lia.
Qed.

Lemma lower_bound_go_spec l v : sortedQ l -> forall fuel first len,
  (len <= fuel)%nat -> (first + len <= List.length l)%nat ->
  (forall i, (i < first)%nat -> nth i l 0 <= v) ->
  (forall i, (first + len <= i < List.length l)%nat -> v < nth i l 0) ->
  let k := lower_bound_go fuel l v first len in
  (forall i, (i < k)%nat -> nth i l 0 <= v) /\ (forall i, (k <= i < List.length l)%nat -> v < nth i l 0).
Proof.
  intros Hs. induction fuel as [|fuel IH]; intros first len Hf Hl H1 H2; cbn [lower_bound_go].
  - assert (len = 0)%nat by lia; subst. rewrite Nat.add_0_r in H2. split; assumption.
  - destruct len as [|len']; [rewrite Nat.add_0_r in H2; split; assumption|].
    pose proof (div2_lt (S len') ltac:(lia)) as Hd.
    set (half := Nat.div2 (S len')) in *. cbv zeta.
    destruct (qleb_spec (nth (first + half) l 0) v) as [Hle|Hgt].
    + apply IH; [lia|lia| |].
      * intros i Hi. apply Qcle_trans with (nth (first + half) l 0); [apply Hs; lia|exact Hle].
      * intros i Hi. apply H2. lia.
    + apply IH; [lia|lia|exact H1|].
      intros i Hi. apply Qclt_le_trans with (nth (first + half) l 0); [exact Hgt|apply Hs; lia].
Qed.

Lemma lower_bound_le_range l v : (lower_bound_le l v <= List.length l)%nat.
Proof. pose proof (lower_bound_go_range l v (List.length l) 0 (List.length l)). unfold lower_bound_le. lia. Qed.

Lemma lower_bound_le_spec l v : sortedQ l ->
  (forall i, (i < lower_bound_le l v)%nat -> nth i l 0 <= v) /\
  (forall i, (lower_bound_le l v <= i < List.length l)%nat -> v < nth i l 0).
Proof.
  intros Hs. apply lower_bound_go_spec; try assumption; try lia.
Qed.

(** * constructors *)
Lemma nth_map_seq (f : nat -> Qc) n i d : (i < n)%nat -> nth i (map f (seq 0 n)) d = f i.
Proof.
  intros H. rewrite nth_indep with (d' := f 0%nat) by (rewrite map_length, seq_length; exact H).
  rewrite map_nth, seq_nth by exact H. reflexivity.
Qed.

Lemma edges_ok_spec : forall lo hi prev, List.length lo = List.length hi ->
  edges_ok prev lo hi = true <->
  (match prev, lo with Some p, l :: _ => p <= l | _, _ => True end) /\
  (forall i, (S i < List.length lo)%nat -> nth i lo 0 <= nth (S i) lo 0) /\
  (forall i, (i < List.length lo)%nat -> nth i lo 0 <= nth i hi 0).
Proof.
  induction lo as [|l lo IH]; intros [|h hi] prev Hlen; cbn [List.length] in Hlen; try discriminate.
  - cbn [edges_ok]. split; [intros _|reflexivity].
    split; [destruct prev; exact I|]. split; intros i Hi; cbn in Hi; lia.
  - cbn [edges_ok]. rewrite !andb_true_iff, !negb_true_iff. rewrite IH by lia.
    split.
    + intros [[Hp Hlh] [Hn [Ho He]]].
      split; [destruct prev; [qlra|exact I]|]. split.
      * intros [|i] Hi; cbn [List.length] in Hi.
        -- destruct lo as [|l2 lo]; [cbn in Hi; lia|]. exact Hn.
        -- cbn [nth]. apply (Ho i). lia.
      * intros [|i] Hi; cbn [List.length nth] in *; [qlra|apply (He i); lia].
    + intros [Hp [Ho He]]. repeat split.
      * destruct prev; [apply qltb_ge; exact Hp|reflexivity].
      * apply qltb_ge. apply (He 0%nat). cbn; lia.
      * destruct lo as [|l2 lo]; [exact I|]. apply (Ho 0%nat). cbn; lia.
      * intros i Hi. apply (Ho (S i)). cbn; lia.
      * intros i Hi. apply (He (S i)). cbn; lia.
Qed.

Lemma mk_equal_ok name mn mx n latex a : mk_equal name mn mx n latex = Ok a ->
  mn < mx /\ (0 < n)%nat /\
  a = {| aNBins := n; aMin := mn; aMax := mx; aName := name;
          aLatex := if String.eqb latex "" then name else latex;
          aLow := map (fun i => mn + qn i * ((mx - mn) / qn n)) (seq 0 n);
          aHigh := map (fun i => mn + (qn i + 1) * ((mx - mn) / qn n)) (seq 0 n);
          aCentre := map (fun i => mn + (qn i + qhalf) * ((mx - mn) / qn n)) (seq 0 n);
          aWidth := repeat ((mx - mn) / qn n) n |}.
Proof.
  unfold mk_equal. destruct (qleb_spec mx mn); [discriminate|].
  destruct (Nat.eqb_spec n 0); [discriminate|]. cbn [orb]. intros E; injection E as <-.
  split; [assumption|]. split; [lia|reflexivity].
Qed.

Lemma mk_var_ok name lo hi latex a : mk_var name lo hi latex = Ok a ->
  List.length hi = List.length lo /\ (0 < List.length lo)%nat /\ edges_ok None lo hi = true /\
  a = {| aNBins := List.length lo; aMin := List.hd 0 lo; aMax := List.last hi 0; aName := name;
          aLatex := if String.eqb latex "" then name else latex;
          aLow := lo; aHigh := hi;
          aCentre := map (fun p => qhalf * (fst p + snd p)) (combine lo hi);
          aWidth := map (fun p => snd p - fst p) (combine lo hi) |}.
Proof.
  unfold mk_var. destruct (Nat.eqb_spec (List.length hi) (List.length lo)); [|discriminate].
  destruct (Nat.eqb_spec (List.length lo) 0); [discriminate|]. cbn [negb orb].
  destruct (edges_ok None lo hi); [|discriminate]. cbn [negb]. intros E; injection E as <-.
  repeat split; auto; lia.
Qed.

Lemma qn_S_nz n : (0 < n)%nat -> qn n <> 0.
Proof. intros H E. apply qn_pos in H. qlra. Qed.

Lemma width_pos mn mx n : mn < mx -> (0 < n)%nat -> 0 < (mx - mn) / qn n.
Proof.
  intros H Hn. apply qn_pos in Hn.
  assert (E : (mx - mn) / qn n * qn n = mx - mn).
  { field. intros C. rewrite C in Hn. qlra. }
  set (w := (mx - mn) / qn n) in *.
  destruct (qltb_spec 0 w) as [|C]; [assumption|]. exfalso. qnra.
Qed.

(** shape facts common to both constructors *)
Lemma built_facts a : built a ->
  (0 < aNBins a)%nat /\ List.length (aLow a) = aNBins a /\ List.length (aHigh a) = aNBins a /\
  List.length (aCentre a) = aNBins a /\ List.length (aWidth a) = aNBins a /\
  (forall i, (S i < aNBins a)%nat -> lo_of a i <= lo_of a (S i)) /\
  (forall i, (i < aNBins a)%nat -> lo_of a i <= hi_of a i) /\
  aMin a = lo_of a 0 /\ aMax a = hi_of a (aNBins a - 1).
Proof.
  intros [name mn mx n latex E | name lo hi latex E].
  - apply mk_equal_ok in E as [Hm [Hn ->]]. cbn.
    pose proof (width_pos _ _ _ Hm Hn) as Hw. unfold lo_of, hi_of; cbn.
    split; [exact Hn|]. rewrite !map_length, !seq_length, repeat_length.
    split; [reflexivity|]. split; [reflexivity|]. split; [reflexivity|]. split; [reflexivity|].
    split; [|split; [|split]].
    + intros i Hi. rewrite !nth_map_seq by lia. rewrite qn_S.
      set (w := (mx - mn) / qn n) in *. qnra.
    + intros i Hi. rewrite !nth_map_seq by lia. set (w := (mx - mn) / qn n) in *. qnra.
    + rewrite nth_map_seq by lia. rewrite qn_0. ring.
    + rewrite nth_map_seq by lia. rewrite <- qn_1, <- qn_add. replace (n - 1 + 1)%nat with n by lia.
      field. apply qn_S_nz; exact Hn.
  - apply mk_var_ok in E as [Hl [Hn [He ->]]]. cbn. unfold lo_of, hi_of; cbn.
    apply edges_ok_spec in He as [_ [Ho He]]; [|symmetry; exact Hl].
    rewrite !map_length, !combine_length, Hl, Nat.min_id.
    split; [exact Hn|]. split; [reflexivity|]. split; [reflexivity|]. split; [reflexivity|].
    split; [reflexivity|]. split; [exact Ho|]. split; [exact He|]. split.
    + destruct lo; [cbn in Hn; lia|reflexivity].
    + destruct hi as [|h hi] using rev_ind; [cbn in Hl; lia|].
      rewrite last_last. rewrite <- Hl, app_length. cbn [List.length].
      rewrite app_nth2 by lia. replace (_ - _)%nat with 0%nat by lia. reflexivity.
Qed.

Lemma sorted_step (l : list Qc) :
  (forall i, (S i < List.length l)%nat -> nth i l 0 <= nth (S i) l 0) -> sortedQ l.
Proof.
  intros H i j [Hij Hj]. induction Hij as [|j Hij IH]; [qlra|].
  apply Qcle_trans with (nth j l 0); [apply IH; lia|apply H; exact Hj].
Qed.

Lemma contiguous_sorted a : built a -> contiguous a -> sortedQ (aHigh a).
Proof.
  intros Hb Hc. destruct (built_facts _ Hb) as [_ [_ [Hh [_ [_ [_ [Hle _]]]]]]].
  apply sorted_step. rewrite Hh. intros i Hi. change (hi_of a i <= hi_of a (S i)).
  rewrite (Hc i Hi). apply Hle. exact Hi.
Qed.

Lemma findBin_lt a x : built a -> (findBin a x < aNBins a)%nat.
Proof.
  intros Hb. destruct (built_facts _ Hb) as [Hn [_ [Hh _]]]. unfold findBin.
  pose proof (lower_bound_le_range (aHigh a) x) as Hr. rewrite Hh in Hr.
  destruct (Nat.eqb_spec (lower_bound_le (aHigh a) x) (aNBins a)); lia.
Qed.

(** the three regions, for contiguous axes *)
Lemma findBin_regions a x : built a -> contiguous a ->
  (x < aMin a -> findBin a x = 0%nat) /\
  (aMax a <= x -> findBin a x = (aNBins a - 1)%nat) /\
  (aMin a <= x -> x < aMax a -> in_bin a (findBin a x) x).
Proof.
  intros Hb Hc. pose proof (contiguous_sorted a Hb Hc) as Hs.
  destruct (built_facts _ Hb) as [Hn [Hl [Hh [_ [_ [Hll [Hle [Hmin Hmax]]]]]]]].
  destruct (lower_bound_le_spec _ x Hs) as [H1 H2]. rewrite Hh in H2.
  pose proof (lower_bound_le_range (aHigh a) x) as Hr. rewrite Hh in Hr.
  unfold findBin, in_bin. set (k := lower_bound_le (aHigh a) x) in *.
  change (forall i, (i < k)%nat -> hi_of a i <= x) in H1.
  change (forall i, (k <= i < aNBins a)%nat -> x < hi_of a i) in H2.
  split; [|split].
  - intros Hx. destruct (Nat.eqb_spec k (aNBins a)) as [E|E].
    + exfalso. assert (hi_of a 0 <= x) by (apply H1; lia).
      assert (lo_of a 0 <= hi_of a 0) by (apply Hle; lia). rewrite Hmin in Hx. qlra.
    + destruct k as [|k']; [reflexivity|]. exfalso.
      assert (hi_of a 0 <= x) by (apply H1; lia).
      assert (lo_of a 0 <= hi_of a 0) by (apply Hle; lia). rewrite Hmin in Hx. qlra.
  - intros Hx. rewrite Hmax in Hx. destruct (Nat.eqb_spec k (aNBins a)) as [E|E]; [lia|].
    exfalso. assert (x < hi_of a (aNBins a - 1)) by (apply H2; lia). qlra.
  - intros Hlo Hhi. rewrite Hmax in Hhi. destruct (Nat.eqb_spec k (aNBins a)) as [E|E].
    + exfalso. assert (hi_of a (aNBins a - 1) <= x) by (apply H1; lia). qlra.
    + split; [lia|]. split; [|apply H2; lia].
      destruct k as [|k']; [rewrite <- Hmin; exact Hlo|].
      rewrite <- Hc by lia. apply H1. lia.
Qed.

Lemma in_bin_unique a i j x : built a -> contiguous a -> in_bin a i x -> in_bin a j x -> i = j.
Proof.
  intros Hb Hc [Hi [Hi1 Hi2]] [Hj [Hj1 Hj2]].
  pose proof (contiguous_sorted a Hb Hc) as Hs.
  destruct (built_facts _ Hb) as [Hn [Hl [Hh _]]].
  assert (W : forall p q, (p < q)%nat -> (q < aNBins a)%nat -> hi_of a p <= lo_of a q).
  { intros p q Hpq Hq. destruct q as [|q]; [lia|]. rewrite <- Hc by exact Hq.
    apply Hs. rewrite Hh. lia. }
  destruct (Nat.lt_trichotomy i j) as [L|[E|G]]; [|exact E|]; exfalso.
  - specialize (W i j L Hj). qlra.
  - specialize (W j i G Hi). qlra.
Qed.

Lemma lower_bound_mono l x y : sortedQ l -> x <= y -> (lower_bound_le l x <= lower_bound_le l y)%nat.
Proof.
  intros Hs Hxy. destruct (lower_bound_le_spec l x Hs) as [H1 _], (lower_bound_le_spec l y Hs) as [_ H2].
  pose proof (lower_bound_le_range l x) as Hr. pose proof (lower_bound_le_range l y) as Hr2.
  destruct (Nat.le_gt_cases (lower_bound_le l x) (lower_bound_le l y)) as [|C]; [assumption|exfalso].
  specialize (H1 (lower_bound_le l y) C). specialize (H2 (lower_bound_le l y) ltac:(lia)). qlra.
Qed.

Lemma findBin_mono a x y : built a -> contiguous a -> x <= y -> (findBin a x <= findBin a y)%nat.
Proof.
  intros Hb Hc Hxy. pose proof (lower_bound_mono _ x y (contiguous_sorted a Hb Hc) Hxy) as Hm.
  destruct (built_facts _ Hb) as [Hn [_ [Hh _]]].
  pose proof (lower_bound_le_range (aHigh a) x) as Hr. rewrite Hh in Hr.
  pose proof (lower_bound_le_range (aHigh a) y) as Hr2. rewrite Hh in Hr2.
  unfold findBin.
  destruct (Nat.eqb_spec (lower_bound_le (aHigh a) x) (aNBins a)),
           (Nat.eqb_spec (lower_bound_le (aHigh a) y) (aNBins a)); lia.
Qed.

Lemma mk_equal_contiguous name mn mx n latex a :
  mk_equal name mn mx n latex = Ok a -> contiguous a.
Proof.
  intros E. apply mk_equal_ok in E as [Hm [Hn ->]]. intros i Hi. cbn in Hi.
  unfold lo_of, hi_of; cbn. rewrite !nth_map_seq by lia. rewrite qn_S. reflexivity.
Qed.

(** * vat/nth_error *)
Lemma vat_nth {A} (l : list A) i d : (i < List.length l)%nat -> vat l i = Ok (nth i l d).
Proof. intros H. unfold vat. rewrite (nth_error_nth' l d H). reflexivity. Qed.
Lemma vat_oob {A} (l : list A) i : (List.length l <= i)%nat -> vat l i = Throw std_out_of_range.
Proof. intros H. unfold vat. apply nth_error_None in H. rewrite H. reflexivity. Qed.
Lemma vidx_nth {A} (l : list A) i d : (i < List.length l)%nat -> vidx l i = Ok (nth i l d).
Proof. intros H. unfold vidx. rewrite (nth_error_nth' l d H). reflexivity. Qed.

Lemma seqM_ok {A B} (f : A -> res B) (g : A -> B) l :
  (forall x, In x l -> f x = Ok (g x)) -> mapM f l = Ok (map g l).
Proof.
  unfold mapM. induction l as [|x l IH]; cbn [map seqM]; intros H; [reflexivity|].
  rewrite (H x) by (now left). cbn [bind]. rewrite IH; [reflexivity|]. intros y Hy; apply H; now right.
Qed.

(** * axis collections *)
Lemma fold_left_mul l : forall x, fold_left Nat.mul l x = (x * prod l)%nat.
Proof. induction l as [|y l IH]; cbn [fold_left prod]; intros x; [lia|]. rewrite IH. lia. Qed.

Lemma prod_app a b : prod (a ++ b) = (prod a * prod b)%nat.
Proof. induction a as [|x a IH]; cbn [prod app]; [lia|]. rewrite IH. lia. Qed.

Lemma hasAxis_in ac n : hasAxis ac n = true <-> In n (map aName (acAxes ac)).
Proof.
  unfold hasAxis. rewrite existsb_exists. rewrite in_map_iff. split.
  - intros [a [Hi E]]. apply String.eqb_eq in E. eauto.
  - intros [a [E Hi]]. exists a. split; [exact Hi|]. now apply String.eqb_eq.
Qed.

Lemma ac_empty_ok : ac_ok ac_empty.
Proof. repeat split; try reflexivity; constructor. Qed.

Lemma NoDup_snoc {A} (l : list A) x : NoDup l -> ~ In x l -> NoDup (l ++ [x]).
Proof.
  intros Hl Hx. apply Permutation_NoDup with (x :: l).
  - apply Permutation_cons_append.
  - constructor; assumption.
Qed.

Lemma addAxis_ok ac a ac' : ac_ok ac -> built a -> addAxis ac a = Ok ac' ->
  ac_ok ac' /\ acAxes ac' = acAxes ac ++ [a] /\ ~ In (aName a) (map aName (acAxes ac)).
Proof.
  intros [H1 [H2 [H3 [H4 [H5 H6]]]]] Hb. unfold addAxis.
  destruct (hasAxis ac (aName a)) eqn:Hh; [discriminate|]. intros E; injection E as <-.
  assert (Hni : ~ In (aName a) (map aName (acAxes ac))).
  { intros C. apply hasAxis_in in C. congruence. }
  split; [|split; [reflexivity|exact Hni]]. unfold ac_ok; cbn [acNames acAxes acNbins acNDims acNBins].
  rewrite !map_app, !app_length, H1, H2, H3. cbn [map List.length].
  repeat split.
  - lia.
  - unfold countBins. cbn [Nat.eqb].
    rewrite firstn_all2 by (rewrite app_length, map_length; cbn; lia).
    rewrite fold_left_mul. destruct (acAxes ac); cbn; lia.
  - apply NoDup_snoc; assumption.
  - apply Forall_app; split; [exact H6|]. constructor; [exact Hb|constructor].
Qed.

Lemma addAxis_dup ac a : In (aName a) (map aName (acAxes ac)) -> addAxis ac a = Throw ValueError.
Proof. intros H. unfold addAxis. apply hasAxis_in in H. rewrite H. reflexivity. Qed.
Lemma addAxis_new ac a : ~ In (aName a) (map aName (acAxes ac)) -> exists ac', addAxis ac a = Ok ac'.
Proof.
  intros H. unfold addAxis. destruct (hasAxis ac (aName a)) eqn:E; [|eauto].
  apply hasAxis_in in E. contradiction.
Qed.

Lemma addAxes_ok l : forall ac, ac_ok ac -> Forall built l -> ac_ok (fst (addAxes ac l)).
Proof.
  induction l as [|a l IH]; intros ac Hok Hb; cbn [addAxes]; [exact Hok|].
  inversion Hb as [|? ? Ha Hl]; subst.
  destruct (addAxis ac a) as [ac'| | | |] eqn:E; cbn [fst]; try exact Hok.
  apply IH; [|exact Hl]. apply (addAxis_ok _ _ _ Hok Ha E).
Qed.

Lemma ac_reach_ok ac : ac_reach ac -> ac_ok ac.
Proof.
  induction 1 as [|ac a ac' _ IH Hb E|ac l _ IH Hb].
  - apply ac_empty_ok.
  - apply (addAxis_ok _ _ _ IH Hb E).
  - apply addAxes_ok; assumption.
Qed.

(** AddAxes keeps exactly the longest prefix without a name clash *)
Lemma addAxes_prefix l : forall ac, ac_ok ac -> Forall built l ->
  exists p s, l = p ++ s /\ acAxes (fst (addAxes ac l)) = acAxes ac ++ p /\
   (match s with
    | [] => snd (addAxes ac l) = Ok tt
    | a :: _ => snd (addAxes ac l) = Throw ValueError /\ In (aName a) (map aName (acAxes ac ++ p))
    end).
Proof.
  induction l as [|a l IH]; intros ac Hok Hb; cbn [addAxes].
  - exists [], []. cbn. rewrite app_nil_r. split; [reflexivity|]. split; reflexivity.
  - inversion Hb as [|? ? Ha Hl]; subst.
    destruct (in_dec string_dec (aName a) (map aName (acAxes ac))) as [Hi|Hn].
    + rewrite (addAxis_dup _ _ Hi). exists [], (a :: l). cbn [fst snd]. rewrite !app_nil_r.
      repeat split. exact Hi.
    + destruct (addAxis_new _ _ Hn) as [ac' E]. rewrite E.
      destruct (addAxis_ok _ _ _ Hok Ha E) as [Hok' [Hax _]].
      destruct (IH ac' Hok' Hl) as [p [s [Hps [Hp Hs]]]].
      exists (a :: p), s. rewrite Hps. split; [reflexivity|]. rewrite <- Hps.
      rewrite Hax, <- app_assoc in Hp. cbn [app] in Hp. split; [exact Hp|].
      rewrite Hax, <- app_assoc in Hs. exact Hs.
Qed.

Lemma index_of_spec n l : match index_of n l with
  | Some i => nth_error l i = Some n /\ (forall j, (j < i)%nat -> nth_error l j <> Some n)
  | None => ~ In n l end.
Proof.
  induction l as [|x l IH]; cbn [index_of].
  - intros [].
  - destruct (String.eqb_spec x n) as [->|Hne].
    + split; [reflexivity|]. intros j Hj; lia.
    + destruct (index_of n l) as [i|]; cbn [option_map].
      * destruct IH as [H1 H2]. split; [exact H1|]. intros [|j] Hj; cbn; [congruence|]. apply H2. lia.
      * intros [C|C]; [congruence|contradiction].
Qed.

Lemma getAxisIndex_spec ac n : ac_ok ac ->
  match getAxisIndex ac n with
  | Ok i => exists a, nth_error (acAxes ac) i = Some a /\ aName a = n
  | Throw NotFoundError => ~ In n (map aName (acAxes ac))
  | _ => False end.
Proof.
  intros [H1 _]. unfold getAxisIndex. rewrite H1. pose proof (index_of_spec n (map aName (acAxes ac))) as H.
  destruct (index_of n _) as [i|]; [|exact H].
  destruct H as [H _]. rewrite nth_error_map in H.
  destruct (nth_error (acAxes ac) i) as [a|]; [|discriminate]. injection H as H. eauto.
Qed.

(** * flatten / unflatten *)
Definition ac_nb (ac : axcol) := map aNBins (acAxes ac).


Lemma fold_left_add_sum (g : nat -> nat) l : forall acc,
  fold_left (fun index i => (index + g i)%nat) l acc = (acc + list_sum (map g l))%nat.
Proof.
  unfold list_sum. induction l as [|x l IH]; cbn [fold_left map fold_right]; intros acc; [lia|].
  rewrite IH. lia.
Qed.

Lemma rowmajor_sum nb : forall idx, List.length idx = List.length nb -> nb <> [] ->
  (last idx 0 + list_sum (map (fun i => nth i idx 0 * prod (skipn (i + 1) nb)) (seq 0 (List.length nb - 1))))%nat
  = rowmajor nb idx.
Proof.
  unfold list_sum. induction nb as [|n nb IH]; intros idx Hl Hne; [congruence|].
  destruct idx as [|i idx]; [discriminate|]. cbn [List.length] in Hl. injection Hl as Hl.
  destruct nb as [|n2 nb].
  - destruct idx; [|discriminate]. cbn. lia.
  - destruct idx as [|i2 idx]; [discriminate|].
    transitivity (i * prod (n2 :: nb) + rowmajor (n2 :: nb) (i2 :: idx))%nat; [|reflexivity].
    rewrite <- (IH (i2 :: idx)) by (auto; congruence).
    replace (List.length (n :: n2 :: nb) - 1)%nat with (S (List.length (n2 :: nb) - 1)) by (cbn; lia).
    set (m := (List.length (n2 :: nb) - 1)%nat).
    cbn [seq map fold_right]. rewrite <- seq_shift, map_map.
    change (last (i :: i2 :: idx) 0%nat) with (last (i2 :: idx) 0%nat).
    rewrite (map_ext _ (fun j => nth j (i2 :: idx) 0 * prod (skipn (j + 1) (n2 :: nb)))%nat).
    2:{ intros j. reflexivity. }
    change (nth 0 (i :: i2 :: idx) 0%nat) with i.
    change (skipn (0 + 1) (n :: n2 :: nb)) with (n2 :: nb). lia.
Qed.

Lemma flatten_rowmajor ac idx : ac_ok ac -> acAxes ac <> [] ->
  List.length idx = List.length (acAxes ac) -> flatten ac idx = Ok (rowmajor (ac_nb ac) idx).
Proof.
  intros [_ [H2 [H3 _]]] Hne Hl. unfold flatten. rewrite H2, H3, Hl, Nat.eqb_refl. cbn [negb].
  fold (ac_nb ac). assert (Hnl : List.length (ac_nb ac) = List.length (acAxes ac)) by apply map_length.
  destruct (Nat.eqb_spec (List.length (acAxes ac)) 1) as [E1|E1].
  - rewrite (vat_nth idx 0 0%nat) by lia.
    destruct idx as [|i [|]]; cbn in Hl; try lia.
    destruct (ac_nb ac) as [|n [|]]; cbn in Hnl; try lia. cbn. f_equal. lia.
  - destruct (Nat.eqb_spec (List.length (acAxes ac)) 0) as [E0|E0].
    + destruct (acAxes ac); [congruence|discriminate].
    + f_equal. rewrite firstn_all2 by lia.
      rewrite <- rowmajor_sum.
      2:{ lia. } 2:{ intros C. rewrite C in Hnl. cbn in Hnl. lia. }
      rewrite fold_left_add_sum. rewrite Hnl. f_equal. f_equal. apply map_ext. intros i.
      rewrite fold_left_mul. reflexivity.
Qed.

Lemma flatten_dim ac idx : ac_ok ac -> List.length idx <> List.length (acAxes ac) ->
  flatten ac idx = Throw DimensionError.
Proof.
  intros [_ [_ [H3 _]]] Hl. unfold flatten. rewrite H3.
  destruct (Nat.eqb_spec (List.length idx) (List.length (acAxes ac))); [contradiction|reflexivity].
Qed.

Lemma in_shape_length nb idx : in_shape nb idx -> List.length idx = List.length nb.
Proof. unfold in_shape. induction 1; cbn; congruence. Qed.

Lemma rowmajor_lt nb idx : in_shape nb idx -> (rowmajor nb idx < prod nb)%nat.
Proof.
  unfold in_shape. induction 1 as [|i n idx nb Hi H IH]; cbn [rowmajor prod]; [lia|].
  nia.
Qed.

Lemma prod_pos_all nb : (0 < prod nb)%nat <-> Forall (fun n => (0 < n)%nat) nb.
Proof.
  induction nb as [|n nb IH]; cbn [prod].
  - split; [constructor|lia].
  - split.
    + intros H. constructor; [nia|]. apply IH. nia.
    + intros H; inversion H; subst. apply Nat.mul_pos_pos; [assumption|apply IH; assumption].
Qed.

Lemma skipn_add {A} n m (l : list A) : skipn (m + n) l = skipn m (skipn n l).
Proof.
  revert l; induction n as [|n IH]; intros l; [now rewrite Nat.add_0_r|].
  rewrite Nat.add_succ_r. destruct l; [now rewrite !skipn_nil|]. cbn [skipn]. apply IH.
Qed.

Lemma rowmajor_digit nb : forall idx d, in_shape nb idx -> (d < List.length nb)%nat ->
  ((rowmajor nb idx / prod (skipn (d + 1) nb)) mod (nth d nb 0) = nth d idx 0)%nat.
Proof.
  intros idx d H. revert d. induction H as [|i n idx nb Hi H IH]; intros d Hd; [cbn in Hd; lia|].
  cbn [List.length] in Hd. pose proof (rowmajor_lt _ _ H) as Hlt.
  destruct d as [|d].
  - cbn [plus skipn nth rowmajor].
    rewrite Nat.div_add_l by lia. rewrite Nat.div_small by exact Hlt. rewrite Nat.add_0_r.
    apply Nat.mod_small. exact Hi.
  - cbn [plus skipn nth rowmajor]. change (skipn (S (d + 1)) (n :: nb)) with (skipn (d + 1) nb).
    rewrite <- IH by lia.
    assert (E : exists q, (i * prod nb)%nat = (q * nth d nb 0 * prod (skipn (d + 1) nb))%nat).
    { exists (i * prod (firstn d nb))%nat.
      rewrite <- (firstn_skipn d nb) at 1. rewrite prod_app.
      destruct (skipn d nb) as [|x r] eqn:Es.
      { apply (f_equal (@List.length nat)) in Es. rewrite skipn_length in Es. cbn in Es. lia. }
      assert (nth d nb 0 = x)%nat as ->.
      { rewrite <- (firstn_skipn d nb), Es. rewrite app_nth2 by (rewrite firstn_length; lia).
        rewrite firstn_length. replace (d - _)%nat with 0%nat by lia. reflexivity. }
      assert (skipn (d + 1) nb = r) as ->.
      { replace (d + 1)%nat with (1 + d)%nat by lia. rewrite skipn_add, Es. reflexivity. }
      cbn [prod]. lia. }
    destruct E as [q ->].
    assert (P : (0 < prod (skipn (d + 1) nb))%nat).
    { assert (Q : (0 < prod nb)%nat) by lia. apply prod_pos_all in Q. apply prod_pos_all.
      rewrite <- (firstn_skipn (d + 1) nb) in Q. apply Forall_app in Q. apply Q. }
    rewrite Nat.div_add_l by lia.
    destruct (Nat.eq_dec (nth d nb 0%nat) 0%nat) as [Z|NZ]; [rewrite Z; cbn; lia|].
    rewrite Nat.add_comm, Nat.mod_add by exact NZ. reflexivity.
Qed.

(** every flat index below the product comes from a tuple *)
Fixpoint digits (nb : list nat) (k : nat) : list nat :=
  match nb with [] => [] | _ :: nb' => (k / prod nb')%nat :: digits nb' (k mod prod nb')%nat end.
Lemma digits_spec nb : forall k, (k < prod nb)%nat ->
  in_shape nb (digits nb k) /\ rowmajor nb (digits nb k) = k.
Proof.
  unfold in_shape. induction nb as [|n nb IH]; cbn [digits prod rowmajor]; intros k Hk.
  - split; [constructor|lia].
  - assert (P : (prod nb <> 0)%nat) by nia.
    destruct (IH (k mod prod nb)%nat) as [H1 H2]; [apply Nat.mod_upper_bound; exact P|].
    split.
    + constructor; [|exact H1]. apply Nat.div_lt_upper_bound; [exact P|]. lia.
    + rewrite H2. rewrite Nat.mul_comm. symmetry. apply Nat.div_mod. exact P.
Qed.

Lemma rowmajor_inj nb i1 i2 : in_shape nb i1 -> in_shape nb i2 ->
  rowmajor nb i1 = rowmajor nb i2 -> i1 = i2.
Proof.
  intros H1 H2 E. pose proof (in_shape_length _ _ H1) as L1. pose proof (in_shape_length _ _ H2) as L2.
  apply (nth_ext i1 i2 0%nat 0%nat); [lia|]. intros d Hd.
  rewrite <- (rowmajor_digit nb i1 d H1) by lia. rewrite <- (rowmajor_digit nb i2 d H2) by lia.
  now rewrite E.
Qed.

Lemma ac_nb_prod ac : ac_ok ac -> acAxes ac <> [] -> acNBins ac = prod (ac_nb ac).
Proof.
  intros [_ [_ [_ [H4 _]]]] Hne. rewrite H4. unfold ac_nb. destruct (acAxes ac); [congruence|reflexivity].
Qed.

Lemma unflatten_digit ac idx d : ac_ok ac -> in_shape (ac_nb ac) idx -> (d < List.length (acAxes ac))%nat ->
  unflatten ac (rowmajor (ac_nb ac) idx) d = Ok (nth d idx 0%nat).
Proof.
  intros Hok Hi Hd. pose proof Hok as [_ [H2 [H3 _]]].
  assert (Hne : acAxes ac <> []) by (intros C; rewrite C in Hd; cbn in Hd; lia).
  pose proof (ac_nb_prod ac Hok Hne) as Hp. unfold unflatten. rewrite H3, Hp, H2.
  fold (ac_nb ac). assert (Hnl : List.length (ac_nb ac) = List.length (acAxes ac)) by apply map_length.
  pose proof (in_shape_length _ _ Hi) as Hil.
  pose proof (rowmajor_lt _ _ Hi) as Hlt.
  destruct (Nat.eqb_spec (List.length (acAxes ac)) 1) as [E1|E1].
  - assert (d = 0)%nat by lia. subst d. f_equal.
    destruct idx as [|i [|]]; cbn in Hil; try lia.
    destruct (ac_nb ac) as [|n [|]]; cbn in Hnl; try lia. cbn. lia.
  - destruct (Nat.leb_spec (prod (ac_nb ac)) (rowmajor (ac_nb ac) idx)); [lia|].
    rewrite firstn_all2 by lia. rewrite fold_left_mul, Nat.mul_1_l.
    rewrite (nth_error_nth' (ac_nb ac) 0%nat) by lia.
    assert (Q : (0 < prod (ac_nb ac))%nat) by lia. pose proof Q as Q'. apply prod_pos_all in Q.
    assert (0 < nth d (ac_nb ac) 0)%nat.
    { rewrite Forall_forall in Q. apply Q. apply nth_In. lia. }
    assert (P : (0 < prod (skipn (d + 1) (ac_nb ac)))%nat).
    { apply prod_pos_all. rewrite <- (firstn_skipn (d + 1) (ac_nb ac)) in Q. apply Forall_app in Q. apply Q. }
    destruct (Nat.eqb_spec (nth d (ac_nb ac) 0%nat) 0); [lia|].
    destruct (Nat.eqb_spec (prod (skipn (d + 1) (ac_nb ac))) 0); [lia|]. cbn [orb].
    f_equal. apply rowmajor_digit; [exact Hi|lia].
Qed.

Lemma unpack_rowmajor ac idx : ac_ok ac -> in_shape (ac_nb ac) idx ->
  unpack ac (rowmajor (ac_nb ac) idx) = Ok idx.
Proof.
  intros Hok Hi. pose proof (in_shape_length _ _ Hi) as Hil.
  assert (Hnl : List.length (ac_nb ac) = List.length (acAxes ac)) by apply map_length.
  pose proof Hok as [_ [_ [H3 _]]]. unfold unpack. rewrite H3.
  rewrite (seqM_ok _ (fun d => nth d idx 0%nat)).
  - f_equal. apply (nth_ext _ _ 0%nat 0%nat); [rewrite map_length, seq_length; lia|].
    intros d Hd. rewrite map_length, seq_length in Hd.
    rewrite nth_indep with (d' := (fun d => nth d idx 0%nat) 0%nat) by (rewrite map_length, seq_length; lia).
    rewrite (map_nth (fun d => nth d idx 0%nat)), seq_nth by lia. reflexivity.
  - intros d Hd. apply in_seq in Hd. apply unflatten_digit; [exact Hok|exact Hi|lia].
Qed.

Lemma unpack_flatten_id ac k : ac_ok ac -> (k < acNBins ac)%nat ->
  exists idx, unpack ac k = Ok idx /\ in_shape (ac_nb ac) idx /\ flatten ac idx = Ok k.
Proof.
  intros Hok Hk. assert (Hne : acAxes ac <> []).
  { intros C. destruct Hok as [_ [_ [_ [H4 _]]]]. rewrite C in H4. lia. }
  rewrite (ac_nb_prod ac Hok Hne) in Hk. destruct (digits_spec _ _ Hk) as [H1 H2].
  exists (digits (ac_nb ac) k). rewrite <- H2 at 1. split; [apply unpack_rowmajor; assumption|].
  split; [exact H1|]. rewrite flatten_rowmajor; [rewrite H2; reflexivity|exact Hok|exact Hne|].
  rewrite (in_shape_length _ _ H1). apply map_length.
Qed.

(** * multi-dimensional FindBin *)
Lemma nth_map2 {A B} (f : A -> B) l i d d' : (i < List.length l)%nat -> nth i (map f l) d' = f (nth i l d).
Proof. intros H. rewrite nth_indep with (d' := f d) by (rewrite map_length; exact H). apply map_nth. Qed.

Definition axis0 : axis := mkAxis 0 0 0 "" "" [] [] [] [].
Definition axes_bins (axs : list axis) (vals : list Qc) : list nat :=
  map (fun p => findBin (fst p) (snd p)) (combine axs vals).

Lemma axes_bins_nth axs vals d : List.length vals = List.length axs -> (d < List.length axs)%nat ->
  nth d (axes_bins axs vals) 0%nat = findBin (nth d axs axis0) (nth d vals 0).
Proof.
  intros Hl Hd. unfold axes_bins.
  rewrite (nth_map2 _ _ _ (axis0, 0)) by (rewrite combine_length; lia).
  rewrite combine_nth by (symmetry; exact Hl). reflexivity.
Qed.

Lemma axes_bins_shape axs vals : Forall built axs -> List.length vals = List.length axs ->
  in_shape (map aNBins axs) (axes_bins axs vals).
Proof.
  unfold in_shape, axes_bins. revert vals. induction axs as [|a axs IH]; intros [|v vals] Hb Hl; cbn in Hl; try discriminate.
  - constructor.
  - inversion Hb; subst. cbn. constructor; [apply findBin_lt; assumption|]. apply IH; [assumption|lia].
Qed.

Lemma ac_findBin_eq ac vals : ac_ok ac -> acAxes ac <> [] -> List.length vals = List.length (acAxes ac) ->
  ac_findBin ac vals = Ok (rowmajor (ac_nb ac) (axes_bins (acAxes ac) vals)).
Proof.
  intros Hok Hne Hl. pose proof Hok as [_ [_ [H3 _]]]. unfold ac_findBin. rewrite H3, Hl, Nat.eqb_refl.
  cbn [negb].
  rewrite (seqM_ok _ (fun d => nth d (axes_bins (acAxes ac) vals) 0%nat)).
  - cbn [bind].
    assert (E : map (fun d => nth d (axes_bins (acAxes ac) vals) 0%nat) (seq 0 (List.length (acAxes ac))) = axes_bins (acAxes ac) vals).
    { assert (La : List.length (axes_bins (acAxes ac) vals) = List.length (acAxes ac)).
      { unfold axes_bins. rewrite map_length, combine_length. lia. }
      apply (nth_ext _ _ 0%nat 0%nat); [rewrite map_length, seq_length; lia|].
      intros d Hd. rewrite map_length, seq_length in Hd.
      rewrite (nth_map2 _ _ _ 0%nat) by (rewrite seq_length; exact Hd). rewrite seq_nth by exact Hd. reflexivity. }
    rewrite E. apply flatten_rowmajor; [exact Hok|exact Hne|].
    unfold axes_bins. rewrite map_length, combine_length. lia.
  - intros d Hd. apply in_seq in Hd. rewrite (vat_nth _ d axis0) by lia. cbn [bind].
    rewrite axes_bins_nth by lia. reflexivity.
Qed.

Lemma ac_findBin_dim ac vals : ac_ok ac -> List.length vals <> List.length (acAxes ac) ->
  ac_findBin ac vals = Throw DimensionError.
Proof.
  intros [_ [_ [H3 _]]] Hl. unfold ac_findBin. rewrite H3.
  destruct (Nat.eqb_spec (List.length vals) (List.length (acAxes ac))); [contradiction|reflexivity].
Qed.

Lemma ac_findBin_spec ac vals : ac_ok ac -> acAxes ac <> [] -> List.length vals = List.length (acAxes ac) ->
  exists k, ac_findBin ac vals = Ok k /\ (k < acNBins ac)%nat /\
    forall d, (d < List.length (acAxes ac))%nat ->
      unflatten ac k d = Ok (findBin (nth d (acAxes ac) axis0) (nth d vals 0)).
Proof.
  intros Hok Hne Hl. exists (rowmajor (ac_nb ac) (axes_bins (acAxes ac) vals)).
  split; [apply ac_findBin_eq; assumption|].
  assert (Hs : in_shape (ac_nb ac) (axes_bins (acAxes ac) vals)).
  { apply axes_bins_shape; [apply Hok|exact Hl]. }
  split; [rewrite ac_nb_prod by assumption; apply rowmajor_lt; exact Hs|].
  intros d Hd. rewrite unflatten_digit by assumption. rewrite axes_bins_nth by assumption. reflexivity.
Qed.

(** the per-axis accessors, for in-range bins *)
Lemma binVec_ok get f ac k :
  ac_ok ac -> (k < acNBins ac)%nat ->
  (forall a i, built a -> (i < aNBins a)%nat -> get a i = Ok (f a i)) ->
  exists idx, unpack ac k = Ok idx /\
    binVec get ac k = Ok (map (fun d => f (nth d (acAxes ac) axis0) (nth d idx 0%nat)) (seq 0 (List.length (acAxes ac)))).
Proof.
  intros Hok Hk Hget. destruct (unpack_flatten_id ac k Hok Hk) as [idx [Hu [Hs Hf]]].
  exists idx. split; [exact Hu|]. pose proof Hok as [_ [_ [H3 [_ [_ H6]]]]].
  assert (Hne : acAxes ac <> []).
  { intros C. destruct Hok as [_ [_ [_ [H4 _]]]]. rewrite C in H4. lia. }
  assert (Hnl : List.length (ac_nb ac) = List.length (acAxes ac)) by apply map_length.
  pose proof (in_shape_length _ _ Hs) as Hil.
  assert (Ek : k = rowmajor (ac_nb ac) idx).
  { rewrite flatten_rowmajor in Hf by (auto; lia). injection Hf as <-. reflexivity. }
  unfold binVec. destruct (Nat.ltb_spec (acNBins ac) k); [lia|]. rewrite H3.
  apply seqM_ok. intros d Hd. apply in_seq in Hd.
  rewrite (vidx_nth _ d axis0) by lia. cbn [bind]. rewrite Ek, unflatten_digit by (auto; lia). cbn [bind].
  apply Hget.
  - rewrite Forall_forall in H6. apply H6. apply nth_In. lia.
  - assert (G : forall axs ix, Forall2 (fun i n => (i < n)%nat) ix (map aNBins axs) ->
       forall d, (d < List.length axs)%nat -> (nth d ix 0 < aNBins (nth d axs axis0))%nat).
    { clear. intros axs. induction axs as [|a axs IH]; intros ix H d Hd; [cbn in Hd; lia|].
      cbn in H. inversion H; subst. destruct d; cbn; [assumption|]. apply IH; [assumption|cbn in Hd; lia]. }
    apply (G _ _ Hs). lia.
Qed.

Lemma binLow_ok a i : built a -> (i < aNBins a)%nat -> binLow a i = Ok (lo_of a i).
Proof. intros Hb Hi. unfold binLow, lo_of. apply vat_nth. destruct (built_facts _ Hb) as [_ [-> _]]. exact Hi. Qed.
Lemma binHigh_ok a i : built a -> (i < aNBins a)%nat -> binHigh a i = Ok (hi_of a i).
Proof. intros Hb Hi. unfold binHigh, hi_of. apply vat_nth. destruct (built_facts _ Hb) as [_ [_ [-> _]]]. exact Hi. Qed.

Lemma findBin_box ac vals : ac_ok ac -> acAxes ac <> [] -> List.length vals = List.length (acAxes ac) ->
  (forall d, (d < List.length vals)%nat ->
     let a := nth d (acAxes ac) axis0 in contiguous a /\ aMin a <= nth d vals 0 /\ nth d vals 0 < aMax a) ->
  exists k los his, ac_findBin ac vals = Ok k /\ binLowEdges ac k = Ok los /\ binHighEdges ac k = Ok his /\
    List.length los = List.length vals /\ List.length his = List.length vals /\
    forall d, (d < List.length vals)%nat -> nth d los 0 <= nth d vals 0 /\ nth d vals 0 < nth d his 0.
Proof.
  intros Hok Hne Hl Hin. destruct (ac_findBin_spec ac vals Hok Hne Hl) as [k [Hk [Hkn Hd]]].
  destruct (binVec_ok _ _ ac k Hok Hkn binLow_ok) as [idx [Hu Hlo]].
  destruct (binVec_ok _ _ ac k Hok Hkn binHigh_ok) as [idx2 [Hu2 Hhi]].
  rewrite Hu in Hu2. injection Hu2 as <-.
  assert (Hidx : forall d, (d < List.length (acAxes ac))%nat ->
     nth d idx 0%nat = findBin (nth d (acAxes ac) axis0) (nth d vals 0)).
  { intros d Hdl. destruct (unpack_flatten_id ac k Hok Hkn) as [idx2 [Hu2 [Hs Hf]]].
    rewrite Hu in Hu2. injection Hu2 as <-.
    assert (Hnl : List.length (ac_nb ac) = List.length (acAxes ac)) by apply map_length.
    pose proof (in_shape_length _ _ Hs) as Hil.
    rewrite flatten_rowmajor in Hf by (auto; lia). injection Hf as Hf.
    pose proof (unflatten_digit ac idx d Hok Hs Hdl) as H1. rewrite Hf, (Hd d Hdl) in H1.
    injection H1 as ->. reflexivity. }
  eexists k, _, _. split; [exact Hk|]. split; [exact Hlo|]. split; [exact Hhi|].
  rewrite !map_length, !seq_length. split; [auto|]. split; [auto|].
  intros d Hdl. rewrite !(nth_map2 _ _ _ 0%nat) by (rewrite seq_length; lia).
  rewrite !seq_nth by lia. cbn [plus]. rewrite Hidx by lia.
  destruct (Hin d Hdl) as [Hc [H1 H2]].
  assert (Hb : built (nth d (acAxes ac) axis0)).
  { pose proof Hok as [_ [_ [_ [_ [_ H6]]]]]. rewrite Forall_forall in H6. apply H6, nth_In. lia. }
  destruct (findBin_regions _ (nth d vals 0) Hb Hc) as [_ [_ H3]].
  destruct (H3 H1 H2) as [_ H4]. exact H4.
Qed.
