From Coq Require Import ZArith.
From Verif Require Import Base.Res Base.Num Base.SMap Model.Axis Model.Hist Model.Param Model.Gauss Spec.GaussSpec Proofs.AxisP Proofs.HistP Proofs.GenP Proofs.GaussP.
From Coq Require Import Lia.
Local Open Scope Qc_scope.
Local Open Scope res_scope.

(** reading everything back *)
Definition mk (names : list string) (vals : list Qc) (s : smap Qc) : smap Qc :=
  fold_left (fun m (e : string * Qc) => sset (fst e) (snd e) m) (combine names vals) s.
Lemma mk_rel n v names : forall vals vals' s s', List.length vals = List.length names -> List.length vals' = List.length names ->
  (forall i, (i < List.length names)%nat -> nth i vals' 0 = if String.eqb (nth i names ""%string) n then v else nth i vals 0) ->
  (forall m, m <> n -> sfind m s' = sfind m s) ->
  (forall m, m <> n -> sfind m (mk names vals' s') = sfind m (mk names vals s)) /\
  (sfind n s' = Some v \/ In n names -> sfind n (mk names vals' s') = Some v).
Proof.
  unfold mk. induction names as [|x names IH]; intros [|a vals] [|a' vals'] s s' L L' H Hs; cbn in L, L'; try discriminate; cbn [combine fold_left fst snd].
  - split; [exact Hs|]. intros [E|[]]. exact E.
  - pose proof (H 0%nat ltac:(cbn; lia)) as H0. cbn in H0.
    assert (Ht : forall i, (i < List.length names)%nat -> nth i vals' 0 = if String.eqb (nth i names ""%string) n then v else nth i vals 0)
      by (intros i Hi; exact (H (S i) ltac:(cbn; lia))).
    assert (Hs' : forall m, m <> n -> sfind m (sset x a' s') = sfind m (sset x a s)).
    { intros m Hm. rewrite !sfind_sset. destruct (String.eqb_spec m x) as [->|]; [|apply Hs, Hm]. apply String.eqb_neq in Hm. rewrite Hm in H0. congruence. }
    destruct (IH vals vals' (sset x a s) (sset x a' s')) as [I1 I2]; try lia; try assumption. split; [exact I1|].
    intros Hor. apply I2. destruct (String.eqb_spec x n) as [->|Hn].
    + left. rewrite sfind_sset_eq. congruence.
    + destruct Hor as [E|[E|E]]; [left; rewrite sfind_sset_neq by congruence; exact E|congruence|right; exact E].
Qed.
Lemma getAll_ok g : sized g -> gGetAll g = Ok (mk (gMN g ++ gSN g) (gMeans g ++ gStds g) sempty).
Proof.
  intros [S1 [S2 [S3 S4]]]. unfold gGetAll. rewrite !app_length, S1, S2, S3, S4, Nat.eqb_refl. reflexivity.
Qed.
Lemma readback_pkg n v g : sized g -> exists g' d d', gSet n v g = Ok g' /\ gGetAll g = Ok d /\ gGetAll g' = Ok d' /\
  (In n (gNames g) -> sfind n d' = Some v) /\ (forall m, m <> n -> sfind m d' = sfind m d).
Proof.
  intros Hs. destruct (set_pkg n v g Hs) as [g' [E [X Hs']]]. pose proof Hs as [S1 [S2 [S3 S4]]]. pose proof Hs' as [T1 [T2 [T3 T4]]].
  destruct X as [_ [_ [X1 [X2 [X3 [X4 X5]]]]]].
  do 3 eexists. split; [exact E|]. split; [apply getAll_ok, Hs|]. split; [apply getAll_ok, Hs'|]. rewrite X2, X3.
  destruct (mk_rel n v (gMN g ++ gSN g) (gMeans g ++ gStds g) (gMeans g' ++ gStds g') sempty sempty) as [A B].
  - rewrite !app_length. lia.
  - rewrite !app_length. lia.
  - intros i Hi. rewrite app_length in Hi. destruct (Nat.lt_ge_cases i (gND g)) as [H|H].
    + rewrite !app_nth1 by lia. exact (X4 i H).
    + rewrite !app_nth2 by lia. replace (i - List.length (gMeans g'))%nat with (i - gND g)%nat by lia.
      replace (i - List.length (gMN g))%nat with (i - gND g)%nat by lia. replace (i - List.length (gMeans g))%nat with (i - gND g)%nat by lia.
      apply (X5 (i - gND g)%nat). lia.
  - reflexivity.
  - split; [intros H; apply B; right; exact H|exact A].
Qed.
Lemma unknown_pkg n v g : sized g -> ~ In n (gNames g) -> gSet n v g = Ok g.
Proof.
  intros Hs Hn. destruct (set_pkg n v g Hs) as [g' [E [X Hs']]]. rewrite E. f_equal. pose proof Hs as [S1 [S2 [S3 S4]]]. pose proof Hs' as [T1 [T2 [T3 T4]]].
  destruct X as [Y1 [Y2 [X1 [X2 [X3 [X4 X5]]]]]]. destruct g as [a m s c d mn sn], g' as [a' m' s' c' d' mn' sn'].
  unfold gNames, mean_of, std_of, mean_name, std_name in *. cbn in *. subst. f_equal.
  - apply nth_ext with (d := 0) (d' := 0); [congruence|]. intros i Hi. rewrite X4 by lia. destruct (String.eqb_spec (nth i mn ""%string) n) as [E1|]; [|reflexivity].
    destruct Hn. apply in_or_app. left. rewrite <- E1. apply nth_In. lia.
  - apply nth_ext with (d := 0) (d' := 0); [congruence|]. intros i Hi. rewrite X5 by lia. destruct (String.eqb_spec (nth i sn ""%string) n) as [E1|]; [|reflexivity].
    destruct Hn. apply in_or_app. right. rewrite <- E1. apply nth_In. lia.
Qed.
(** GetParameter *)
Lemma index_of_first n l i : (i < List.length l)%nat -> nth i l ""%string = n -> (forall j, (j < i)%nat -> nth j l ""%string <> n) -> index_of n l = Some i.
Proof.
  revert i. induction l as [|x l IH]; intros [|i] Hi E Hj; cbn in *; try lia.
  - subst. rewrite String.eqb_refl. reflexivity.
  - destruct (String.eqb_spec x n) as [->|]; [destruct (Hj 0%nat ltac:(lia) eq_refl)|]. rewrite (IH i ltac:(lia) E); [reflexivity|]. intros j Hji. apply (Hj (S j)). lia.
Qed.
Lemma index_of_notin n l : ~ In n l -> index_of n l = None.
Proof. induction l as [|x l IH]; cbn; [reflexivity|]. intros H. destruct (String.eqb_spec x n); [subst; tauto|]. rewrite IH by tauto. reflexivity. Qed.
Lemma at_neg l i : (Z.of_nat (List.length l) < 2 ^ 63)%Z -> (0 < i < List.length l)%nat -> atZ l (w64 (- Z.of_nat i)) = Throw NotFoundError.
Proof.
  intros Hl Hi. unfold atZ, w64. assert (E : ((- Z.of_nat i) mod 2 ^ 64 = 2 ^ 64 - Z.of_nat i)%Z).
  { symmetry. apply Z.mod_unique with (q := (-1)%Z); lia. }
  rewrite E. destruct (Z.ltb_spec (2 ^ 64 - Z.of_nat i) (Z.of_nat (List.length l))); [lia|reflexivity].
Qed.
Lemma at_0 l : (0 < List.length l)%nat -> atZ l (w64 (- Z.of_nat 0)) = Ok (nth 0 l 0).
Proof. intros H. change (w64 (- Z.of_nat 0)) with 0%Z. unfold atZ. destruct (Z.ltb_spec 0 (Z.of_nat (List.length l))); [reflexivity|lia]. Qed.
Lemma get_pkg n g : sized g -> (0 < gND g)%nat -> (Z.of_nat (gND g) < 2 ^ 63)%Z ->
  (mean_name g 0 = n -> gGet n g = Ok (mean_of g 0)) /\
  (~ In n (gMN g) -> std_name g 0 = n -> gGet n g = Ok (std_of g 0)) /\
  (~ In n (gNames g) -> gGet n g = Throw NotFoundError) /\
  (forall i, (0 < i < gND g)%nat -> mean_name g i = n -> (forall j, (j < i)%nat -> mean_name g j <> n) -> gGet n g = Throw NotFoundError) /\
  (forall i, (0 < i < gND g)%nat -> ~ In n (gMN g) -> std_name g i = n -> (forall j, (j < i)%nat -> std_name g j <> n) -> gGet n g = Throw NotFoundError).
Proof.
  intros [S1 [S2 [S3 S4]]] Hp Hz. unfold gGet, mean_of, std_of, mean_name, std_name, gNames. split; [|split; [|split; [|split]]].
  - intros E. rewrite (index_of_first n (gMN g) 0) by (try lia; try exact E; intros; lia). apply at_0. lia.
  - intros Hn E. rewrite (index_of_notin _ _ Hn). rewrite (index_of_first n (gSN g) 0) by (try lia; try exact E; intros; lia). apply at_0. lia.
  - intros Hn. rewrite !index_of_notin by (intros I; apply Hn, in_or_app; auto). reflexivity.
  - intros i Hi E Hj. rewrite (index_of_first n (gMN g) i) by (try lia; assumption). apply at_neg; lia.
  - intros i Hi Hn E Hj. rewrite (index_of_notin _ _ Hn). rewrite (index_of_first n (gSN g) i) by (try lia; assumption). apply at_neg; lia.
Qed.
