From Coq Require Import ZArith.
From Verif Require Import Base.Res Base.Num Base.SMap Model.Axis Model.Hist Model.Param Model.Gauss Spec.GaussSpec Proofs.AxisP Proofs.HistP Proofs.ParamP2.
From Coq Require Import Lia.
Local Open Scope Qc_scope.
Local Open Scope res_scope.

Lemma setNamed_go names name v : forall k l, (k <= List.length names)%nat -> List.length l = List.length names ->
  exists l', foldM (fun l i => if String.eqb (nth i names ""%string) name then putAt l i v else Ok l) (seq 0 k) l = Ok l' /\
    List.length l' = List.length l /\
    forall i, nth i l' 0 = if Nat.ltb i k && String.eqb (nth i names ""%string) name then v else nth i l 0.
Proof.
  induction k as [|k IH]; intros l Hk Hl.
  - exists l. repeat split.
  - rewrite seq_S. cbn [Nat.add]. destruct (IH l ltac:(lia) Hl) as [l1 [E [L N]]].
    assert (G : forall (A B : Type) (f : B -> A -> res B) a x s, foldM f (a ++ [x]) s = bind (foldM f a s) (fun s' => f s' x)).
    { clear. intros A B f a x. induction a as [|y a IHa]; intros s; cbn [app foldM]; [cbn [bind]; destruct (f s x); reflexivity|].
      destruct (f s y); cbn [bind]; auto. }
    rewrite G, E. cbn [bind]. destruct (String.eqb (nth k names ""%string) name) eqn:En.
    + unfold putAt. destruct (Nat.ltb_spec k (List.length l1)) as [H|H]; [|lia]. eexists. split; [reflexivity|]. split; [now rewrite upd_length|].
      intros i. rewrite nth_upd by exact H. destruct (Nat.eqb_spec k i) as [->|Hne].
      * rewrite Nat.eqb_refl. destruct (Nat.ltb_spec i (S i)); [|lia]. rewrite En. reflexivity.
      * destruct (Nat.eqb_spec i k); [congruence|]. rewrite N. destruct (Nat.ltb_spec i k), (Nat.ltb_spec i (S k)); try lia; reflexivity.
    + exists l1. split; [reflexivity|]. split; [exact L|]. intros i. rewrite N.
      destruct (Nat.ltb_spec i k), (Nat.ltb_spec i (S k)); try lia; try reflexivity. assert (i = k) by lia. subst. rewrite En. reflexivity.
Qed.
Lemma setNamed_ok names name v l : List.length l = List.length names ->
  exists l', setNamed names name v l = Ok l' /\ List.length l' = List.length l /\
    forall i, (i < List.length names)%nat -> nth i l' 0 = if String.eqb (nth i names ""%string) name then v else nth i l 0.
Proof.
  intros H. destruct (setNamed_go names name v (List.length names) l (le_n _) H) as [l' [E [L N]]]. exists l'. split; [exact E|]. split; [exact L|].
  intros i Hi. rewrite N. destruct (Nat.ltb_spec i (List.length names)); [reflexivity|lia].
Qed.
Lemma set_pkg n v g : sized g -> exists g', gSet n v g = Ok g' /\ set_effect n v g g' /\ sized g'.
Proof.
  intros [S1 [S2 [S3 S4]]]. destruct (setNamed_ok (gMN g) n v (gMeans g)) as [m [Em [Lm Nm]]]; [congruence|].
  destruct (setNamed_ok (gSN g) n v (gStds g)) as [s [Es [Ls Ns]]]; [congruence|].
  unfold gSet. rewrite Em. cbn [bind]. rewrite Es. cbn [bind]. eexists. split; [reflexivity|]. split.
  - repeat split; cbn [gMeans gStds withMeans withStds]; intros i Hi; [apply Nm|apply Ns]; lia.
  - unfold sized. cbn. repeat split; lia.
Qed.

(** renaming *)
Lemma findFrom_some l : forall i x p, findFrom l i x = Some p -> (i <= p < List.length l)%nat /\ nth p l ""%string = x /\ forall j, (i <= j < p)%nat -> nth j l ""%string <> x.
Proof.
  induction l as [|y t IH]; intros i x p; cbn [findFrom]; [discriminate|]. destruct i as [|i].
  - destruct (String.eqb_spec y x) as [->|N].
    + intros [= <-]. cbn. split; [lia|]. split; [reflexivity|]. intros j Hj. lia.
    + destruct (findFrom t 0 x) as [q|] eqn:E; [|discriminate]. intros [= <-]. destruct (IH _ _ _ E) as [A [B C]]. cbn. split; [lia|]. split; [exact B|].
      intros [|j] Hj; [exact N|apply C; lia].
  - destruct (findFrom t i x) as [q|] eqn:E; [|discriminate]. intros [= <-]. destruct (IH _ _ _ E) as [A [B C]]. cbn. split; [lia|]. split; [exact B|].
    intros [|j] Hj; [lia|apply C; lia].
Qed.
Lemma findFrom_none l : forall i x, findFrom l i x = None -> forall j, (i <= j < List.length l)%nat -> nth j l ""%string <> x.
Proof.
  induction l as [|y t IH]; intros i x; cbn [findFrom]; [cbn; intros; lia|]. destruct i as [|i].
  - destruct (String.eqb_spec y x) as [->|N]; [discriminate|]. destruct (findFrom t 0 x) eqn:E; [discriminate|]. intros _ [|j] Hj; [exact N|].
    cbn in *. apply (IH _ _ E). lia.
  - destruct (findFrom t i x) eqn:E; [discriminate|]. intros _ [|j] Hj; [lia|]. cbn in *. apply (IH _ _ E). lia.
Qed.
Lemma findFrom_in l x : In x l -> exists p, findFrom l 0 x = Some p.
Proof.
  intros H. destruct (findFrom l 0 x) as [p|] eqn:E; [now exists p|]. apply In_nth with (d := ""%string) in H. destruct H as [j [J1 J2]].
  destruct (findFrom_none _ _ _ E j); [lia|exact J2].
Qed.
Lemma upd_same {A} (l : list A) p d : (p < List.length l)%nat -> upd l p (nth p l d) = l.
Proof. revert p. induction l as [|x l IH]; intros [|p] H; cbn in *; try lia; [reflexivity|]. f_equal. apply IH. lia. Qed.
Lemma upd_split {A} (l : list A) p v d : (p < List.length l)%nat -> exists a b, l = a ++ nth p l d :: b /\ upd l p v = a ++ v :: b /\ List.length a = p.
Proof.
  revert p. induction l as [|x l IH]; intros [|p] H; cbn in *; try lia; [exists [], l; repeat split|].
  destruct (IH p ltac:(lia)) as [a [b [E1 [E2 E3]]]]. exists (x :: a), b. cbn. repeat split; congruence.
Qed.
Definition ren (old new x : string) : string := if String.eqb x old then new else x.
Lemma map_ren_id old new l : (forall j, (j < List.length l)%nat -> nth j l ""%string <> old) -> map (ren old new) l = l.
Proof.
  intros H. rewrite <- (map_id l) at 2. apply map_ext_in. intros x Hx. apply In_nth with (d := ""%string) in Hx. destruct Hx as [j [J1 J2]].
  specialize (H j J1). rewrite J2 in H. unfold ren. apply String.eqb_neq in H. rewrite H. reflexivity.
Qed.
Lemma rename_ok old new : old <> new -> forall fuel l i, (count_occ string_dec l old <= fuel)%nat -> (forall j, (j < i)%nat -> (j < List.length l)%nat -> nth j l ""%string <> old) ->
  renameLoop fuel l i old new = Ok (map (ren old new) l).
Proof.
  intros Hne. induction fuel as [|fuel IH]; intros l i Hc Hb; cbn [renameLoop]; destruct (findFrom l i old) as [p|] eqn:E.
  - destruct (findFrom_some _ _ _ _ E) as [A [B C]]. exfalso.
    assert (In old l) by (rewrite <- B; apply nth_In; lia). apply (count_occ_In string_dec) in H. lia.
  - rewrite map_ren_id; [reflexivity|]. intros j Hj. destruct (Nat.lt_ge_cases j i); [apply Hb; assumption|]. apply (findFrom_none _ _ _ E). lia.
  - destruct (findFrom_some _ _ _ _ E) as [A [B C]]. destruct (upd_split l p new ""%string ltac:(lia)) as [a [b [E1 [E2 E3]]]]. rewrite B in E1.
    rewrite IH.
    + f_equal. rewrite E2. rewrite E1 at 1. rewrite !map_app. cbn [map]. f_equal. f_equal. unfold ren. rewrite String.eqb_refl.
      destruct (String.eqb_spec new old); congruence.
    + rewrite E2. rewrite E1 in Hc. rewrite count_occ_app in *. cbn [count_occ] in *. destruct (string_dec old old); [|congruence].
      destruct (string_dec new old); [congruence|]. lia.
    + intros j Hj Hl. rewrite E2, app_nth1 by lia. assert (J : nth j l ""%string = nth j a ""%string) by (rewrite E1, app_nth1 by lia; reflexivity).
      rewrite <- J. rewrite upd_length in Hl. destruct (Nat.lt_ge_cases j i); [apply Hb; assumption|apply C; lia].
  - rewrite map_ren_id; [reflexivity|]. intros j Hj. destruct (Nat.lt_ge_cases j i); [apply Hb; assumption|]. apply (findFrom_none _ _ _ E). lia.
Qed.
Lemma rename_self fuel x : forall l i p, findFrom l i x = Some p -> renameLoop fuel l i x x = Diverge.
Proof.
  induction fuel as [|fuel IH]; intros l i p E; cbn [renameLoop]; rewrite E; [reflexivity|].
  destruct (findFrom_some _ _ _ _ E) as [A [B C]].
  assert (U : upd l p x = l). { rewrite <- B. apply upd_same. lia. }
  rewrite U. destruct (findFrom l p x) as [q|] eqn:E2; [exact (IH _ _ _ E2)|]. destruct (findFrom_none _ _ _ E2 p); [lia|exact B].
Qed.
Lemma rename_self_any fuel x l : (In x l -> renameLoop fuel l 0 x x = Diverge) /\ (~ In x l -> renameLoop fuel l 0 x x = Ok l).
Proof.
  split; intros H.
  - destruct (findFrom_in _ _ H) as [p E]. exact (rename_self _ _ _ _ _ E).
  - destruct fuel; cbn [renameLoop]; destruct (findFrom l 0 x) as [p|] eqn:E; try reflexivity; destruct H; destruct (findFrom_some _ _ _ _ E) as [A [B _]]; rewrite <- B; apply nth_In; lia.
Qed.
Lemma findFrom_notin l x : ~ In x l -> findFrom l 0 x = None.
Proof. intros H. destruct (findFrom l 0 x) as [p|] eqn:E; [|reflexivity]. destruct H. destruct (findFrom_some _ _ _ _ E) as [A [B _]]. rewrite <- B. apply nth_In. lia. Qed.
Lemma rename_pkg old new g : sized g ->
  (~ In old (gNames g) -> forall fuel, gRename fuel old new g = Throw NotFoundError) /\
  (In old (gNames g) -> old <> new -> exists N, forall fuel, (N <= fuel)%nat ->
     gRename fuel old new g = Ok (withNames g (map (fun x => if String.eqb x old then new else x) (gMN g)) (map (fun x => if String.eqb x old then new else x) (gSN g)))).
Proof.
  intros _. unfold gNames. split.
  - intros H fuel. unfold gRename. rewrite !findFrom_notin by (intros I; apply H, in_or_app; auto). reflexivity.
  - intros H Hne. exists (count_occ string_dec (gMN g) old + count_occ string_dec (gSN g) old)%nat. intros fuel Hf. unfold gRename.
    assert (R : (do m <- renameLoop fuel (gMN g) 0 old new; do s <- renameLoop fuel (gSN g) 0 old new; Ok (withNames g m s)) =
                Ok (withNames g (map (ren old new) (gMN g)) (map (ren old new) (gSN g)))).
    { rewrite (rename_ok old new Hne) by (try lia; intros; lia). cbn [bind]. rewrite (rename_ok old new Hne) by (try lia; intros; lia). reflexivity. }
    destruct (findFrom (gMN g) 0 old) as [p|] eqn:E; [exact R|]. destruct (findFrom (gSN g) 0 old) as [q|] eqn:E2; [exact R|].
    apply in_app_or in H. destruct H as [H|H]; apply findFrom_in in H; destruct H; congruence.
Qed.
Lemma rename_same_pkg x g fuel : In x (gNames g) -> gRename fuel x x g = Diverge.
Proof.
  unfold gNames, gRename. intros H. destruct (rename_self_any fuel x (gMN g)) as [A1 A2]. destruct (rename_self_any fuel x (gSN g)) as [B1 B2].
  destruct (in_dec string_dec x (gMN g)) as [I|I].
  - destruct (findFrom_in _ _ I) as [p ->]. rewrite A1 by exact I. destruct (findFrom (gSN g) 0 x); reflexivity.
  - apply in_app_or in H. destruct H as [H|H]; [contradiction|]. destruct (findFrom_in _ _ H) as [p ->]. rewrite A2 by exact I. cbn [bind]. rewrite B1 by exact H.
    destruct (findFrom (gMN g) 0 x); reflexivity.
Qed.
Lemma sized_rename f o n g g' : sized g -> gRename f o n g = Ok g' -> sized g'.
Proof.
  intros Hs E. assert (L : forall f l i l', renameLoop f l i o n = Ok l' -> List.length l' = List.length l).
  { clear. induction f as [|f IH]; intros l i l'; cbn [renameLoop]; destruct (findFrom l i o); try discriminate; try (intros [= <-]; reflexivity).
    intros E. apply IH in E. rewrite upd_length in E. exact E. }
  unfold gRename in E. assert (R : (do m <- renameLoop f (gMN g) 0 o n; do s <- renameLoop f (gSN g) 0 o n; Ok (withNames g m s)) = Ok g').
  { destruct (findFrom (gMN g) 0 o); [exact E|]. destruct (findFrom (gSN g) 0 o); [exact E|discriminate]. }
  destruct (renameLoop f (gMN g) 0 o n) as [m| | | |] eqn:Em; cbn [bind] in R; try discriminate.
  destruct (renameLoop f (gSN g) 0 o n) as [s| | | |] eqn:Es; cbn [bind] in R; try discriminate. injection R as <-.
  apply L in Em. apply L in Es. destruct Hs as [S1 [S2 [S3 S4]]]. unfold sized. cbn. repeat split; lia.
Qed.
Lemma defNames_len p n : List.length (defNames p n) = n.
Proof. unfold defNames. rewrite map_length, seq_length. reflexivity. Qed.
Lemma newGauss_sized m s name g : newGauss m s name = Ok g -> sized g /\ positive_widths g.
Proof.
  unfold newGauss. destruct (Nat.eqb_spec (List.length m) (List.length s)) as [E|]; [|discriminate]. cbn [negb].
  destruct (existsb (fun s => qleb s 0) s) eqn:X; [discriminate|]. intros [= <-]. split.
  - unfold sized. cbn. rewrite !defNames_len. repeat split; congruence.
  - intros i Hi. unfold std_of. cbn in *. apply qleb_gt. destruct (qleb (nth i s 0) 0) eqn:Q; [|reflexivity].
    rewrite <- X. symmetry. apply existsb_exists. exists (nth i s 0). split; [apply nth_In; lia|exact Q].
Qed.
Lemma setAll_sized d : forall g g', sized g -> gSetAll d g = Ok g' -> sized g'.
Proof.
  unfold gSetAll. induction d as [|[k v] d IH]; intros g g' Hs; cbn [foldM]; [intros [= <-]; exact Hs|].
  cbn [fst snd]. destruct (set_pkg k v g Hs) as [g1 [-> [_ S1]]]. cbn [bind]. apply IH, S1.
Qed.
Lemma reach_sized g : g_reach g -> sized g.
Proof.
  induction 1 as [m s name g E|g g' _ IH E|g i v g' _ IH E|g i v g' _ IH E|g l _ IH L|g l _ IH L|g c _ IH|n v g g' _ IH E|d g g' _ IH E|f o n g g' _ IH E].
  - exact (proj1 (newGauss_sized _ _ _ _ E)).
  - unfold copyGauss in E. destruct (negb _); [discriminate|]. injection E as <-. exact IH.
  - unfold setMean, putAt in E. destruct (Nat.ltb _ _); [|discriminate]. cbn [bind] in E. injection E as <-. unfold sized in *. cbn. rewrite upd_length. exact IH.
  - unfold setStDev, putAt in E. destruct (Nat.ltb _ _); [|discriminate]. cbn [bind] in E. injection E as <-. unfold sized in *. cbn. rewrite upd_length. exact IH.
  - unfold sized in *. cbn. tauto.
  - unfold sized in *. cbn. tauto.
  - exact IH.
  - destruct (set_pkg n v g IH) as [g1 [E1 [_ S1]]]. rewrite E1 in E. injection E as <-. exact S1.
  - exact (setAll_sized _ _ _ IH E).
  - exact (sized_rename _ _ _ _ _ IH E).
Qed.
Lemma default_names m s name g : newGauss m s name = Ok g -> NoDup (gNames g).
Proof.
  unfold newGauss. destruct (negb _); [discriminate|]. destruct (existsb _ _); [discriminate|]. intros [= <-]. unfold gNames. cbn [gMN gSN].
  assert (A : forall p n, NoDup (defNames p n)).
  { intros p n. unfold defNames. apply NoDup_map_inj; [|apply seq_NoDup]. intros x y H. apply append_inj in H. now apply dec_inj. }
  generalize (List.length m) as n. intros n. pose proof (A "means_"%string n) as A1. pose proof (A "stddevs_"%string n) as A2.
  assert (D : forall x, In x (defNames "means_" n) -> ~ In x (defNames "stddevs_" n)).
  { intros x H1 H2. unfold defNames in *. apply in_map_iff in H1. apply in_map_iff in H2. destruct H1 as [i [<- _]]. destruct H2 as [j [E _]]. discriminate E. }
  induction (defNames "means_" n) as [|x l IH]; [exact A2|]. inversion A1; subst. cbn. constructor.
  - intros I. apply in_app_or in I. destruct I as [I|I]; [contradiction|]. exact (D x (or_introl eq_refl) I).
  - apply IH; [assumption|]. intros y Hy. apply D. right. exact Hy.
Qed.
