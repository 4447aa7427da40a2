(** std::map<std::string, V>: association lists kept in strictly increasing key order
    (std::string compares bytes lexicographically, as String.compare does).
    Iterating the map visits the list left to right.  Not repo content. *)
From Coq Require Import String OrdersEx Sorted RelationClasses.
From Verif Require Import Base.Res.

Definition smap (V : Type) := list (string * V).
Definition slt (a b : string) : Prop := String.compare a b = Lt.
Definition sempty {V} : smap V := [].

Fixpoint sfind {V} (k : string) (m : smap V) : option V :=
  match m with
  | [] => None
  | (k', v) :: t => if String.eqb k k' then Some v else sfind k t
  end.
(** m[k] = v *)
Fixpoint sset {V} (k : string) (v : V) (m : smap V) : smap V :=
  match m with
  | [] => [(k, v)]
  | (k', v') :: t =>
      match String.compare k k' with
      | Lt => (k, v) :: (k', v') :: t
      | Eq => (k, v) :: t
      | Gt => (k', v') :: sset k v t
      end
  end.
(** m.insert(std::make_pair(k,v)): keeps an existing entry *)
Definition sinsert {V} (k : string) (v : V) (m : smap V) : smap V :=
  match sfind k m with Some _ => m | None => sset k v m end.
(** m.erase(k) *)
Definition serase {V} (k : string) (m : smap V) : smap V :=
  filter (fun kv => negb (String.eqb k (fst kv))) m.
Definition shas {V} (k : string) (m : smap V) : bool :=
  match sfind k m with Some _ => true | None => false end.
Definition skeys {V} (m : smap V) : list string := map fst m.
Definition svals {V} (m : smap V) : list V := map snd m.
(** m.at(k) *)
Definition sat {V} (k : string) (m : smap V) : res V :=
  match sfind k m with Some v => Ok v | None => Throw std_out_of_range end.
Definition sof {V} (l : list (string * V)) : smap V :=
  fold_left (fun m kv => sset (fst kv) (snd kv) m) l sempty.
Definition swf {V} (m : smap V) : Prop := StronglySorted slt (skeys m).

(** std::set<std::string> *)
Definition sset_add (k : string) (s : list string) : list string :=
  skeys (sset k tt (map (fun x => (x, tt)) s)).

#[global] Instance slt_strict : StrictOrder slt.
Proof. exact String_as_OT.lt_strorder. Qed.

Lemma slt_irrefl a : ~ slt a a.
Proof. apply StrictOrder_Irreflexive. Qed.
Lemma compare_eq a b : String.compare a b = Eq <-> a = b.
Proof.
  split; [apply String.compare_eq_iff|intros ->].
  destruct (String.compare b b) eqn:E; [reflexivity| |].
  - exfalso; exact (slt_irrefl _ E).
  - exfalso. assert (slt b b) as C by (unfold slt; rewrite String.compare_antisym, E; reflexivity).
    exact (slt_irrefl _ C).
Qed.
Lemma compare_gt a b : String.compare a b = Gt <-> slt b a.
Proof.
  unfold slt; rewrite (String.compare_antisym b a).
  destruct (String.compare a b); cbn; split; congruence.
Qed.
Lemma slt_neq a b : slt a b -> a <> b.
Proof. intros H ->; exact (slt_irrefl _ H). Qed.

Section Facts.
Context {V : Type}.
Implicit Types (m : smap V) (k : string) (v : V).

Lemma skeys_sset_in k v m x : In x (skeys (sset k v m)) <-> x = k \/ In x (skeys m).
Proof.
  induction m as [|[k' v'] t IH]; cbn [sset skeys map fst In].
  - intuition.
  - destruct (String.compare k k') eqn:E; cbn [skeys map fst In].
    + apply compare_eq in E; subst. intuition.
    + intuition.
    + unfold skeys in IH; rewrite IH. intuition.
Qed.
Lemma sset_wf k v m : swf m -> swf (sset k v m).
Proof.
  unfold swf. induction m as [|[k' v'] t IH]; cbn [sset skeys map fst]; intros H.
  - constructor; [constructor|constructor].
  - inversion H as [|? ? Ht Hall]; subst.
    destruct (String.compare k k') eqn:E; cbn [skeys map fst].
    + apply compare_eq in E; subst. constructor; assumption.
    + constructor; [exact H|]. constructor; [exact E|].
      rewrite Forall_forall in *; intros x Hx. transitivity k'; [exact E|apply Hall; exact Hx].
    + constructor; [apply IH; exact Ht|].
      rewrite Forall_forall in *; intros x Hx.
      apply skeys_sset_in in Hx as [->|Hx]; [apply compare_gt; exact E|apply Hall; exact Hx].
Qed.
Lemma sfind_not_in k m : sfind k m = None <-> ~ In k (skeys m).
Proof.
  induction m as [|[k' v'] t IH]; cbn [sfind skeys map fst In].
  - intuition.
  - destruct (String.eqb_spec k k') as [->|Hne].
    + split; [discriminate|]. intros H; exfalso; apply H; now left.
    + rewrite IH. unfold skeys. intuition.
Qed.
Lemma sfind_in k m : In k (skeys m) <-> exists v, sfind k m = Some v.
Proof.
  split.
  - intros H. destruct (sfind k m) as [v|] eqn:E; [eauto|]. apply sfind_not_in in E; contradiction.
  - intros [v E]. destruct (in_dec string_dec k (skeys m)) as [|N]; [assumption|].
    apply sfind_not_in in N; congruence.
Qed.
Lemma sfind_sset_eq k v m : sfind k (sset k v m) = Some v.
Proof.
  induction m as [|[k' v'] t IH]; cbn [sset sfind].
  - now rewrite String.eqb_refl.
  - destruct (String.compare k k') eqn:E; cbn [sfind].
    + now rewrite String.eqb_refl.
    + now rewrite String.eqb_refl.
    + destruct (String.eqb_spec k k') as [->|]; [|exact IH].
      apply compare_gt in E. exfalso; exact (slt_irrefl _ E).
Qed.
Lemma sfind_sset_neq k k' v m : k <> k' -> sfind k (sset k' v m) = sfind k m.
Proof.
  intros Hne. induction m as [|[k2 v2] t IH]; cbn [sset sfind].
  - destruct (String.eqb_spec k k'); [contradiction|reflexivity].
  - destruct (String.compare k' k2) eqn:E; cbn [sfind].
    + apply compare_eq in E; subst. destruct (String.eqb_spec k k2); [contradiction|reflexivity].
    + destruct (String.eqb_spec k k'); [contradiction|reflexivity].
    + destruct (String.eqb_spec k k2); [reflexivity|exact IH].
Qed.
Lemma sfind_sset k k' v m :
  sfind k (sset k' v m) = if String.eqb k k' then Some v else sfind k m.
Proof.
  destruct (String.eqb_spec k k') as [->|]; [apply sfind_sset_eq|now apply sfind_sset_neq].
Qed.
Lemma sfind_filter_neq k k' m : sfind k (serase k' m) = if String.eqb k k' then None else sfind k m.
Proof.
  unfold serase. induction m as [|[k2 v2] t IH]; cbn [filter sfind fst].
  - now destruct (String.eqb k k').
  - destruct (String.eqb_spec k' k2) as [->|N]; cbn [negb].
    + rewrite IH. destruct (String.eqb_spec k k2) as [->|]; reflexivity.
    + cbn [sfind]. destruct (String.eqb_spec k k2) as [->|].
      * destruct (String.eqb_spec k2 k'); [congruence|reflexivity].
      * exact IH.
Qed.
Lemma sfind_serase k k' m : sfind k (serase k' m) = if String.eqb k k' then None else sfind k m.
Proof. apply sfind_filter_neq. Qed.
Lemma filter_sorted (f : string * V -> bool) m : swf m -> swf (filter f m).
Proof.
  unfold swf. induction m as [|[k2 v2] t IH]; cbn [filter skeys map fst]; intros H; [exact H|].
  inversion H as [|? ? Ht Hall]; subst.
  destruct (f (k2, v2)); [|apply IH; exact Ht].
  cbn [skeys map fst]. constructor; [apply IH; exact Ht|].
  rewrite Forall_forall in *; intros x Hx. apply Hall.
  unfold skeys in *. apply in_map_iff in Hx as [[a b] [<- Hin]]. apply filter_In in Hin as [Hin _].
  apply in_map_iff. exists (a, b); split; [reflexivity|exact Hin].
Qed.
Lemma serase_wf k m : swf m -> swf (serase k m).
Proof. apply filter_sorted. Qed.
Lemma swf_nodup m : swf m -> NoDup (skeys m).
Proof.
  unfold swf. induction (skeys m) as [|x l IH]; intros H; [constructor|].
  inversion H as [|? ? Hl Hall]; subst. constructor; [|apply IH; exact Hl].
  intros Hin. rewrite Forall_forall in Hall. exact (slt_irrefl _ (Hall _ Hin)).
Qed.
Lemma sset_keys_id k v m : swf m -> In k (skeys m) -> skeys (sset k v m) = skeys m.
Proof.
  unfold swf. induction m as [|[k' v'] t IH]; cbn [sset skeys map fst In]; intros H Hin; [contradiction|].
  inversion H as [|? ? Ht Hall]; subst. rewrite Forall_forall in Hall.
  destruct (String.compare k k') eqn:E; cbn [map fst].
  - apply compare_eq in E; subst; reflexivity.
  - exfalso. destruct Hin as [->|Hin]; [exact (slt_irrefl _ E)|].
    assert (slt k k) as C by (transitivity k'; [exact E|apply Hall; exact Hin]). exact (slt_irrefl _ C).
  - f_equal. apply IH; [exact Ht|]. destruct Hin as [->|Hin]; [|exact Hin].
    apply compare_gt in E. exfalso; exact (slt_irrefl _ E).
Qed.
Lemma sset_length k v m : swf m ->
  List.length (sset k v m) = if shas k m then List.length m else S (List.length m).
Proof.
  intros H. unfold shas. destruct (sfind k m) eqn:E.
  - rewrite <- (map_length fst (sset k v m)), <- (map_length fst m).
    change (map fst (sset k v m)) with (skeys (sset k v m)).
    rewrite sset_keys_id; [reflexivity|exact H|]. apply sfind_in; eauto.
  - clear H. induction m as [|[k' v'] t IH]; cbn [sset]; [reflexivity|].
    cbn [sfind] in E. destruct (String.eqb_spec k k') as [->|N]; [discriminate|].
    destruct (String.compare k k') eqn:C; cbn [List.length].
    + apply compare_eq in C; contradiction.
    + reflexivity.
    + now rewrite IH.
Qed.
(** two well-formed maps with the same lookups are equal: the representation is canonical *)
Lemma swf_ext m1 m2 : swf m1 -> swf m2 -> (forall k, sfind k m1 = sfind k m2) -> m1 = m2.
Proof.
  unfold swf. revert m2. induction m1 as [|[k v] t IH]; intros m2 H1 H2 E.
  - destruct m2 as [|[k v] t]; [reflexivity|].
    specialize (E k). cbn [sfind] in E. rewrite String.eqb_refl in E. discriminate.
  - inversion H1 as [|? ? Ht1 Hall1]; subst. rewrite Forall_forall in Hall1.
    destruct m2 as [|[k2 v2] t2].
    { specialize (E k). cbn [sfind] in E. rewrite String.eqb_refl in E. discriminate. }
    inversion H2 as [|? ? Ht2 Hall2]; subst. rewrite Forall_forall in Hall2.
    cbn [map fst] in *.
    assert (k = k2) as <-.
    { destruct (String.compare k k2) eqn:C.
      - now apply compare_eq.
      - exfalso. pose proof (E k) as Ek. cbn [sfind] in Ek. rewrite String.eqb_refl in Ek.
        destruct (String.eqb_spec k k2) as [->|]; [exact (slt_irrefl _ C)|].
        symmetry in Ek. assert (In k (skeys t2)) as Hin by (apply sfind_in; eauto).
        apply Hall2 in Hin. apply (slt_irrefl k). transitivity k2; assumption.
      - exfalso. apply compare_gt in C. pose proof (E k2) as Ek. cbn [sfind] in Ek.
        rewrite String.eqb_refl in Ek.
        destruct (String.eqb_spec k2 k) as [->|]; [exact (slt_irrefl _ C)|].
        assert (In k2 (skeys t)) as Hin by (apply sfind_in; eauto).
        apply Hall1 in Hin. apply (slt_irrefl k). transitivity k2; assumption. }
    pose proof (E k) as Ek. cbn [sfind] in Ek. rewrite String.eqb_refl in Ek. injection Ek as <-.
    f_equal. apply IH; [exact Ht1|exact Ht2|].
    intros x. specialize (E x). cbn [sfind] in E.
    destruct (String.eqb_spec x k) as [Exk|]; [|exact E]. subst x.
    assert (~ In k (skeys t)) as N1 by (intros Hin; exact (slt_irrefl _ (Hall1 _ Hin))).
    assert (~ In k (skeys t2)) as N2 by (intros Hin; exact (slt_irrefl _ (Hall2 _ Hin))).
    apply sfind_not_in in N1, N2. congruence.
Qed.
Lemma sfind_In m k v : swf m -> (sfind k m = Some v <-> In (k, v) m).
Proof.
  intros H. apply swf_nodup in H. induction m as [|[k' v'] t IH]; cbn [sfind In].
  - split; [discriminate|contradiction].
  - cbn [skeys map fst] in H. inversion H as [|? ? Hn Hd]; subst.
    destruct (String.eqb_spec k k') as [->|N].
    + split; [intros E; injection E as ->; now left|].
      intros [E|Hin]; [injection E as ->; reflexivity|].
      exfalso; apply Hn. apply in_map_iff. exists (k', v); split; [reflexivity|exact Hin].
    + rewrite IH by exact Hd. split; [now right|]. intros [E|Hin]; [congruence|exact Hin].
Qed.
Lemma sof_gen_wf l m : swf m -> swf (fold_left (fun m kv => sset (fst kv) (snd kv) m) l m).
Proof.
  revert m; induction l as [|x l IH]; cbn [fold_left]; intros m H; [exact H|].
  apply IH, sset_wf, H.
Qed.
Lemma sempty_wf : swf (V := V) [].
Proof. constructor. Qed.
Lemma sof_wf l : swf (sof (V := V) l).
Proof. apply sof_gen_wf, sempty_wf. Qed.
End Facts.
