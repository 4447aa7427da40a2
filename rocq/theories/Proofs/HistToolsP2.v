(** C61, part 2: FillAllHists, projections and slices. *)
From Verif Require Import Base.Res Base.Num Base.SMap Model.Axis Model.Hist Model.HistTools Spec.AxisSpec Spec.HistSpec
  Spec.HistToolsSpec Proofs.AxisP Proofs.AxisP2 Proofs.HistP Proofs.HistP2 Proofs.HistP3 Proofs.HistP4 Proofs.HistToolsP.
From Coq Require Import Lia Permutation.
Local Open Scope nat_scope.
Local Open Scope res_scope.

Lemma forall2_len {A B} (P : A -> B -> Prop) l m : Forall2 P l m -> List.length l = List.length m.
Proof. induction 1; cbn [List.length]; congruence. Qed.
Lemma names_ndims h : h_ok h -> List.length (names_of h) = hNDims h.
Proof. intros H. unfold names_of. rewrite map_length. symmetry. exact (h_ok_ndims h H). Qed.

(** one Fill by name with all values present *)
Lemma fill_map_ok h m : h_reach h -> (forall n, In n (names_of h) -> exists v, sfind n m = Some v) ->
  exists h', fill_map h m 1%Qc = (h', Ok tt) /\ h_reach h' /\ same_axes h' h /\ (total h' = total h + 1)%Qc.
Proof.
  intros Hr Hv. pose proof (h_reach_ok _ Hr) as Hok.
  destruct (proj1 (fill_map_pkg h m 1%Qc Hr) Hv) as [vals [Hf [E1 E2]]].
  exists (fst (fill h vals 1%Qc)). split; [|split; [|split]].
  - rewrite E1. destruct (fill h vals 1%Qc) as [a b]. cbn [fst snd] in *. congruence.
  - apply hr_fill, Hr.
  - apply same_shape_axes, fill_shape.
  - assert (Hl : List.length vals = hNDims h) by (rewrite <- (forall2_len _ _ _ Hf); apply names_ndims, Hok).
    destruct (fill_ok h vals 1%Qc Hok Hl) as [b [_ [Hb E]]]. rewrite E.
    destruct (add_at_ok h b 1%Qc Hok Hb) as [h' [E3 [Hs Hc]]]. rewrite E3. cbn [fst].
    apply (total_add h h' b); [apply Hs|exact Hb|exact Hc].
Qed.
Lemma fillAll_ok hs v : (forall k h, In (k, h) hs -> h_reach h) ->
  (forall k h n, In (k, h) hs -> In n (names_of h) -> exists x, sfind n v = Some x) ->
  exists hs', fillAllHists hs v = (hs', Ok tt) /\
    Forall2 (fun a b => fst b = fst a /\ h_reach (snd b) /\ same_axes (snd b) (snd a) /\
                        (total (snd b) = total (snd a) + 1)%Qc /\ snd b = fst (fill_map (snd a) v 1%Qc)) hs hs'.
Proof.
  induction hs as [|[k h] t IH]; intros Hr Hv; cbn [fillAllHists].
  - exists []. split; [reflexivity|constructor].
  - destruct (fill_map_ok h v) as [h' [E [A [B C]]]].
    { apply (Hr k). now left. } { intros n Hn. apply (Hv k h n); [now left|exact Hn]. }
    destruct IH as [t' [E' F]].
    { intros k0 h0 H. apply (Hr k0). now right. } { intros k0 h0 n H. apply (Hv k0 h0). now right. }
    rewrite E, E'. exists ((k, h') :: t'). split; [reflexivity|]. constructor; [|exact F].
    cbn [fst snd]. rewrite E. cbn [fst]. repeat split; auto; apply B.
Qed.
Lemma fillAll_missing hs v k h n : (forall k h, In (k, h) hs -> h_reach h) -> In (k, h) hs -> In n (names_of h) ->
  sfind n v = None -> snd (fillAllHists hs v) = Throw NotFoundError.
Proof.
  induction hs as [|[k0 h0] t IH]; intros Hr Hi Hn Hv; cbn [fillAllHists]; [destruct Hi|destruct Hi as [E|Hin]].
  - injection E as -> ->. rewrite (proj2 (fill_map_pkg h v 1%Qc (Hr k h (or_introl eq_refl)))); [reflexivity|]. eauto.
  - assert (Hr0 : h_reach h0) by (apply (Hr k0); now left).
    destruct (fill_map_pkg h0 v 1%Qc Hr0) as [H1 H2].
    assert (D : (forall n0, In n0 (names_of h0) -> exists x, sfind n0 v = Some x) \/
                exists n0, In n0 (names_of h0) /\ sfind n0 v = None).
    { generalize (names_of h0). intros l. induction l as [|x l IHl]; [left; intros n0 []|].
      destruct IHl as [D|[n0 [D1 D2]]].
      - destruct (sfind x v) eqn:Ex; [left; intros n0 [<-|H0]; eauto|right; exists x; split; [now left|exact Ex]].
      - right. exists n0. split; [now right|exact D2]. }
    destruct D as [D|D].
    + destruct (fill_map_ok h0 v Hr0 D) as [h' [E _]]. rewrite E.
      assert (IHt : snd (fillAllHists t v) = Throw NotFoundError).
      { apply IH; auto. intros k1 h1 H. apply (Hr k1). now right. }
      destruct (fillAllHists t v) as [t' o]. cbn [snd] in *. exact IHt.
    + rewrite (H2 D). reflexivity.
Qed.

Lemma f2_sfind hs : forall hs' v, Forall2 (fun a b => fst b = fst a /\ h_reach (snd b) /\ same_axes (snd b) (snd a) /\
                        (total (snd b) = total (snd a) + 1)%Qc /\ snd b = fst (fill_map (snd a) v 1%Qc)) hs hs' ->
  forall k, match sfind k hs with
            | None => sfind k hs' = None
            | Some h => exists h', sfind k hs' = Some h' /\ h_reach h' /\ same_axes h' h /\ (total h' = total h + 1)%Qc
                        /\ h' = fst (fill_map h v 1%Qc)
            end.
Proof.
  induction hs as [|[k0 h0] t IH]; intros hs' v F k; inversion F as [|? [k1 h1] ? t' [E [A [B [C D]]]] F' EA EB]; subst; cbn [sfind].
  - reflexivity.
  - cbn [fst snd] in *. subst k1. destruct (String.eqb k k0); [|exact (IH t' v F' k)]. exists h1. auto.
Qed.
Lemma f2_keys hs hs' v : Forall2 (fun a b => fst b = fst a /\ h_reach (snd b) /\ same_axes (snd b) (snd a) /\
                        (total (snd b) = total (snd a) + 1)%Qc /\ snd b = fst (fill_map (snd a) v 1%Qc)) hs hs' -> skeys hs' = skeys hs.
Proof. induction 1 as [|[? ?] [? ?] ? ? [E _] _ IH]; [reflexivity|]. cbn [skeys map fst] in *. unfold skeys in IH. rewrite E, IH. reflexivity. Qed.

Lemma fill_history_pkg l : forall hs, swf hs -> (forall k h, sfind k hs = Some h -> h_reach h) ->
  (forall v, In v l -> has_values hs v) ->
  skeys (fill_history hs l) = skeys hs /\
  forall k h, sfind k hs = Some h -> exists h', sfind k (fill_history hs l) = Some h' /\ h_reach h' /\
    same_axes h' h /\ h' = fold_left (fun x v => fst (fill_map x v 1%Qc)) l h /\
    (integral h' = Ok (total h + qn (List.length l)))%Qc.
Proof.
  induction l as [|v l IH]; intros hs Hw Hr Hv; cbn [fill_history].
  - split; [reflexivity|]. intros k h E. exists h. split; [exact E|]. split; [exact (Hr k h E)|]. split; [repeat split|].
    split; [reflexivity|]. rewrite (integral_total h (h_reach_ok _ (Hr k h E))). cbn [List.length]. f_equal.
    change (qn 0) with 0%Qc. ring.
  - destruct (fillAll_ok hs v) as [hs' [E F]].
    { intros k h H. apply (Hr k), sfind_In; auto. }
    { intros k h n H Hn. apply (Hv v (or_introl eq_refl) k h n); [apply sfind_In; auto|exact Hn]. }
    rewrite E. cbn [fst]. pose proof (f2_keys _ _ _ F) as Hk. pose proof (f2_sfind _ _ _ F) as Hf.
    destruct (IH hs') as [IH1 IH2].
    { unfold swf. rewrite Hk. exact Hw. }
    { intros k h E0. specialize (Hf k). destruct (sfind k hs) as [h0|] eqn:E1.
      - destruct Hf as [h' [E2 [A _]]]. rewrite E0 in E2. injection E2 as <-. exact A.
      - congruence. }
    { intros w Hw0 k h n E0 Hn. specialize (Hf k). destruct (sfind k hs) as [h0|] eqn:E1; [|congruence].
      destruct Hf as [h' [E2 [_ [B _]]]]. rewrite E0 in E2. injection E2 as <-.
      apply (Hv w (or_intror Hw0) k h0 n E1). unfold names_of in *. rewrite <- (proj1 B). exact Hn. }
    split; [rewrite IH1; exact Hk|]. intros k h E0. specialize (Hf k). rewrite E0 in Hf.
    destruct Hf as [h1 [E1 [A [B [C D]]]]]. destruct (IH2 k h1 E1) as [h' [E2 [A2 [B2 [C2 D2]]]]].
    exists h'. split; [exact E2|]. split; [exact A2|]. split.
    { destruct B as [B3 [B4 B5]], B2 as [B6 [B7 B8]]. repeat split; congruence. }
    split; [cbn [fold_left]; rewrite <- D; exact C2|].
    rewrite D2, C. f_equal. cbn [List.length]. rewrite qn_S. ring.
Qed.

(** projections *)
Lemma mapM_forall2 {A B} (f : A -> res B) l : (forall x, In x l -> exists y, f x = Ok y) ->
  exists ys, mapM f l = Ok ys /\ Forall2 (fun x y => f x = Ok y) l ys.
Proof.
  induction l as [|x l IH]; intros H.
  - exists []. split; [reflexivity|constructor].
  - destruct (H x (or_introl eq_refl)) as [y E]. destruct IH as [ys [E2 F]]; [intros z Hz; apply H; now right|].
    exists (y :: ys). split; [|constructor; auto]. unfold mapM in *. cbn [map seqM]. rewrite E. cbn [bind]. rewrite E2. reflexivity.
Qed.
Lemma forall2_seq {B} (P : string -> B -> Prop) (f : nat -> res B) names : forall s ys,
  (forall i n y, nth_error names i = Some n -> f (s + i)%nat = Ok y -> P n y) ->
  Forall2 (fun i y => f i = Ok y) (seq s (List.length names)) ys -> Forall2 P names ys.
Proof.
  induction names as [|n names IH]; intros s ys H F; cbn [List.length seq] in F; inversion F as [|? ? ? ? E F' Ea Eb]; subst; constructor.
  - apply (H 0 n); [reflexivity|]. rewrite Nat.add_0_r. exact E.
  - apply (IH (S s)); [|exact F']. intros i m z E1 E2. apply (H (S i)); [exact E1|]. rewrite <- plus_n_Sm. exact E2.
Qed.

Lemma h_names h : h_ok h -> acNames (hAxes h) = names_of h.
Proof. intros [[H _] _]. exact H. Qed.
Lemma names_nodup h : h_ok h -> NoDup (names_of h).
Proof. intros [[_ [_ [_ [_ [H _]]]]] _]. exact H. Qed.

Lemma marg_proj h names : h_reach h -> names <> [] -> NoDup names -> incl names (names_of h) ->
  exists m, marginalise h names = Ok m /\ projection h names m.
Proof.
  intros Hr H1 H2 H3. destruct (proj1 (marginalise_pkg h names Hr) H1 H2 H3) as [m [E [A [B [C D]]]]].
  exists m. split; [exact E|]. repeat split; auto.
Qed.
Lemma projections_pkg h : h_reach h ->
  exists ones twos, visProjections h = Ok (ones ++ twos) /\
    Forall2 (fun n m => marginalise h [n] = Ok m /\ projection h [n] m) (names_of h) ones /\
    (2 < hNDims h -> exists pairs, covers_pairs (names_of h) pairs /\
       Forall2 (fun p m => marginalise h [fst p; snd p] = Ok m /\ projection h [fst p; snd p] m) pairs twos /\
       2 * List.length twos = hNDims h * (hNDims h - 1)) /\
    (hNDims h <= 2 -> twos = []).
Proof.
  intros Hr. pose proof (h_reach_ok _ Hr) as Hok. unfold visProjections. rewrite (h_names h Hok).
  assert (Hone : forall n, In n (names_of h) -> exists m, marginalise h [n] = Ok m /\ projection h [n] m).
  { intros n Hn. apply marg_proj; [exact Hr|discriminate|repeat constructor; intros []|intros x [<-|[]]; exact Hn]. }
  destruct (mapM_forall2 (fun i => do n <- vat (names_of h) i; marginalise h [n]) (seq 0 (List.length (names_of h)))) as [ones [E F]].
  { intros i Hi. apply in_seq in Hi. rewrite (vat_nth (names_of h) i ""%string) by lia. cbn [bind].
    destruct (Hone (nth i (names_of h) ""%string)) as [m [E _]]; [apply nth_In; lia|eauto]. }
  rewrite E. cbn [bind].
  assert (F1 : Forall2 (fun n m => marginalise h [n] = Ok m /\ projection h [n] m) (names_of h) ones).
  { refine (forall2_seq _ _ _ 0 ones _ F). intros i n y E1 E2. cbn [Nat.add] in E2. unfold vat in E2. rewrite E1 in E2. cbn [bind] in E2.
    destruct (Hone n) as [m [E3 P]]; [eapply nth_error_In; exact E1|]. rewrite E2 in E3. injection E3 as <-. auto. }
  destruct (pairs_pkg (names_of h) (names_nodup h Hok)) as [Hcov Hlen]. rewrite (names_ndims h Hok) in Hlen.
  destruct (Nat.ltb_spec 2 (hNDims h)) as [H2|H2].
  - destruct (mapM_forall2 (fun p => marginalise h [fst p; snd p]) (allCombsNoDiag (names_of h))) as [twos [E2 F2]].
    { intros p Hp. destruct (proj1 (proj2 Hcov) p Hp) as [A [B C]].
      destruct (marg_proj h [fst p; snd p] Hr) as [m [E0 _]]; [discriminate| | |eauto].
      - repeat constructor; intros []; [congruence|contradiction].
      - intros x [<-|[<-|[]]]; assumption. }
    rewrite E2. cbn [bind]. exists ones, twos. split; [reflexivity|]. split; [exact F1|]. split; [|lia].
    intros _. exists (allCombsNoDiag (names_of h)). split; [exact Hcov|]. split.
    + assert (Hall : forall p, In p (allCombsNoDiag (names_of h)) -> distinct_pair (names_of h) p) by apply (proj1 (proj2 Hcov)).
      clear -F2 Hall Hr. induction F2 as [|p m l ms Hpm F2 IH]; constructor.
      * split; [exact Hpm|]. destruct (Hall p (or_introl eq_refl)) as [A [B C]].
        destruct (marg_proj h [fst p; snd p] Hr) as [m' [E0 P]]; [discriminate| | |].
        -- repeat constructor; intros []; [congruence|contradiction].
        -- intros x [<-|[<-|[]]]; assumption.
        -- rewrite Hpm in E0. injection E0 as <-. exact P.
      * apply IH. intros q Hq. apply Hall. now right.
    + rewrite <- (forall2_len _ _ _ F2). exact Hlen.
  - exists ones, []. cbn [bind]. split; [reflexivity|]. split; [exact F1|]. split; [lia|reflexivity].
Qed.
