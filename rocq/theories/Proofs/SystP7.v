(** Convolution (C26). *)
From Coq Require Import Permutation Sorted.
From Verif Require Import Base.Res Base.Num Base.SMap Model.Axis Model.Event Model.Hist Model.Matrix Model.Syst
  Spec.AxisSpec Spec.HistSpec Spec.SystSpec Proofs.AxisP Proofs.HistP Proofs.HistP2 Proofs.CutP Proofs.ParamP3
  Proofs.SystP Proofs.SystP2 Proofs.SystP3 Proofs.SystP4 Proofs.SystP5 Proofs.SystP6.
Local Open Scope Qc_scope.

(** * inverting an injective map of [0,N) by writing a table *)
Section Invert.
Variable N : nat.
Variable blk : nat -> nat.
Hypothesis Hlt : forall i, (i < N)%nat -> (blk i < N)%nat.
Hypothesis Hinj : forall i j, (i < N)%nat -> (j < N)%nat -> blk i = blk j -> i = j.

Lemma invert_fold l : NoDup l -> (forall i, In i l -> (i < N)%nat) -> forall p, List.length p = N ->
  exists p', foldM (fun p i => if Nat.ltb (blk i) (List.length p) then Ok (upd p (blk i) i) else Throw std_out_of_range) l p = Ok p'
    /\ List.length p' = N
    /\ (forall i, In i l -> nth (blk i) p' 0%nat = i)
    /\ (forall q, (forall i, In i l -> blk i <> q) -> nth q p' 0%nat = nth q p 0%nat).
Proof.
  induction l as [|i l IH]; intros Hnd Hl p Hp.
  - exists p. split; [reflexivity|split; [exact Hp|split; [intros ? []|reflexivity]]].
  - apply NoDup_cons_iff in Hnd as [Hni Hnd']. cbn [foldM].
    assert (Hi : (i < N)%nat) by (apply Hl; now left).
    pose proof (Hlt i Hi). destruct (Nat.ltb_spec (blk i) (List.length p)); [|lia]. cbn [bind].
    destruct (IH Hnd' (fun j Hj => Hl j (or_intror Hj)) (upd p (blk i) i)) as [p' [E [L [A B]]]]; [now rewrite upd_length|].
    exists p'. split; [exact E|split; [exact L|split]].
    + intros j [->|Hj]; [|auto]. rewrite B.
      * rewrite nth_upd by assumption. now rewrite Nat.eqb_refl.
      * intros k Hk C. apply Hni. assert (k = j); [|congruence].
        apply Hinj; [apply Hl; now right|exact Hi|exact C].
    + intros q Hq. rewrite B by (intros k Hk; apply Hq; now right). rewrite nth_upd by assumption.
      destruct (Nat.eqb_spec q (blk i)) as [->|]; [|reflexivity]. exfalso. apply (Hq i); [now left|reflexivity].
Qed.

Lemma invert_surj q : (q < N)%nat -> exists i, (i < N)%nat /\ blk i = q.
Proof.
  intros Hq. assert (HP : Permutation (map blk (seq 0 N)) (seq 0 N)).
  { apply NoDup_Permutation_bis.
    - apply NoDup_nth with (d := 0%nat). rewrite map_length, seq_length. intros i j Hi Hj E.
      rewrite !(nth_map2 _ _ _ 0%nat) in E by (rewrite seq_length; assumption). rewrite !seq_nth in E by assumption.
      now apply Hinj.
    - rewrite map_length. lia.
    - intros x Hx. apply in_map_iff in Hx as [i [<- Hi]]. apply in_seq in Hi. apply in_seq. split; [lia|]. apply Hlt. lia. }
  assert (Hin : In q (map blk (seq 0 N))).
  { apply (Permutation_in q (Permutation_sym HP)). apply in_seq. lia. }
  apply in_map_iff in Hin as [i [E Hi]]. apply in_seq in Hi. exists i. split; [lia|exact E].
Qed.

Lemma invert_table : exists perm,
  foldM (fun p i => if Nat.ltb (blk i) (List.length p) then Ok (upd p (blk i) i) else Throw std_out_of_range)
        (seq 0 N) (repeat 0%nat N) = Ok perm
  /\ List.length perm = N
  /\ (forall i, (i < N)%nat -> nth (blk i) perm 0%nat = i)
  /\ (forall q, (q < N)%nat -> (nth q perm 0 < N)%nat /\ blk (nth q perm 0%nat) = q).
Proof.
  destruct (invert_fold (seq 0 N)) with (p := repeat 0%nat N) as [p [E [L [A _]]]].
  - apply seq_NoDup.
  - intros i Hi. apply in_seq in Hi. lia.
  - apply repeat_length.
  - exists p. split; [exact E|split; [exact L|]].
    assert (A' : forall i, (i < N)%nat -> nth (blk i) p 0%nat = i) by (intros i Hi; apply A; apply in_seq; lia).
    split; [exact A'|]. intros q Hq. destruct (invert_surj q Hq) as [i [Hi <-]]. rewrite A' by exact Hi. auto.
Qed.
End Invert.

(** * splitting positions in two groups *)
Lemma memb_in i l : memb i l = true <-> In i l.
Proof.
  unfold memb. rewrite existsb_exists. split.
  - intros [x [Hx E]]. apply Nat.eqb_eq in E. congruence.
  - intros H. exists i. split; [exact H|apply Nat.eqb_refl].
Qed.
Lemma filter_split {A} (p : A -> bool) l : Permutation (filter p l ++ filter (fun x => negb (p x)) l) l.
Proof.
  induction l as [|x l IH]; [constructor|]. cbn [filter]. destruct (p x); cbn [negb app].
  - now constructor.
  - rewrite <- Permutation_middle. now constructor.
Qed.
Lemma prod_perm l l' : Permutation l l' -> prod l = prod l'.
Proof. induction 1; cbn [prod]; lia. Qed.

Lemma ascending_sorted rel : ascending rel -> StronglySorted lt rel.
Proof.
  induction rel as [|r rel IH]; intros H; [constructor|]. constructor.
  - apply IH. intros i j Hij. apply (H (S i) (S j)). cbn. lia.
  - apply Forall_forall. intros x Hx. apply (In_nth _ _ 0%nat) in Hx as [k [Hk <-]].
    apply (H 0%nat (S k)). cbn. lia.
Qed.
Lemma sorted_filter_seq n : forall s rel, StronglySorted lt rel -> (forall r, In r rel -> (s <= r < s + n)%nat) ->
  filter (fun i => memb i rel) (seq s n) = rel.
Proof.
  induction n as [|n IH]; intros s rel Hs Hr.
  - destruct rel as [|r rel]; [reflexivity|]. specialize (Hr r (or_introl eq_refl)). lia.
  - cbn [seq filter]. destruct (memb s rel) eqn:E.
    + apply memb_in in E. destruct rel as [|r rel]; [destruct E|].
      inversion Hs as [|? ? Hs' Hall]; subst. rewrite Forall_forall in Hall.
      assert (r = s).
      { destruct E as [E|E]; [exact E|]. specialize (Hall s E). specialize (Hr r (or_introl eq_refl)). lia. }
      subst r. f_equal. etransitivity; [|apply (IH (S s) rel Hs')].
      * apply filter_ext_in. intros i Hi. apply in_seq in Hi. unfold memb. cbn [existsb].
        destruct (Nat.eqb_spec i s); [lia|reflexivity].
      * intros x Hx. specialize (Hall x Hx). specialize (Hr x (or_intror Hx)). lia.
    + apply IH; [exact Hs|]. intros r Hx. specialize (Hr r Hx).
      assert (r <> s) by (intro C; subst; apply memb_in in Hx; congruence). lia.
Qed.

Lemma map_nth_seq {A} (l : list A) d : map (fun i => nth i l d) (seq 0 (List.length l)) = l.
Proof.
  apply nth_ext with (d := d) (d' := d); [now rewrite map_length, seq_length|].
  rewrite map_length, seq_length. intros n Hn. rewrite (nth_map2 _ _ _ 0%nat) by (rewrite seq_length; exact Hn).
  now rewrite seq_nth.
Qed.

(** * the blocked index *)
Definition rest_of (ac : axcol) (rel : list nat) : list nat :=
  filter (fun i => negb (memb i rel)) (seq 0 (List.length (acAxes ac))).
Definition nbs (ac : axcol) (ps : list nat) : list nat := map (fun r => nth r (ac_nb ac) 0%nat) ps.
Definition blk_of (ac : axcol) (rel : list nat) (J : list nat) : nat :=
  (rowmajor (nbs ac rel) (at_pos rel J) + rowmajor (nbs ac (rest_of ac rel)) (at_pos (rest_of ac rel) J) * prod (nbs ac rel))%nat.

Lemma at_pos_nbs ac ps J : in_shape (ac_nb ac) J -> (forall p, In p ps -> (p < List.length (acAxes ac))%nat) ->
  in_shape (nbs ac ps) (at_pos ps J).
Proof.
  intros HJ Hp. unfold in_shape, nbs, at_pos. induction ps as [|p ps IH]; cbn [map]; constructor.
  - apply shape_nth; [exact HJ|]. unfold ac_nb. rewrite map_length. apply Hp. now left.
  - apply IH. intros q Hq. apply Hp. now right.
Qed.

Lemma rest_lt ac rel p : In p (rest_of ac rel) -> (p < List.length (acAxes ac))%nat.
Proof. unfold rest_of. intros H. apply filter_In in H as [H _]. apply in_seq in H. lia. Qed.

Lemma split_prod ac rel : ascending rel -> (forall p, In p rel -> (p < List.length (acAxes ac))%nat) ->
  (prod (nbs ac rel) * prod (nbs ac (rest_of ac rel)))%nat = prod (ac_nb ac).
Proof.
  intros Ha Hl. rewrite <- prod_app. unfold nbs. rewrite <- map_app.
  etransitivity; [|apply (f_equal prod), (map_nth_seq (ac_nb ac) 0%nat)]. apply prod_perm, Permutation_map.
  unfold ac_nb at 1. rewrite map_length. unfold rest_of.
  rewrite <- (sorted_filter_seq (List.length (acAxes ac)) 0 rel) at 1.
  - apply filter_split.
  - now apply ascending_sorted.
  - intros r Hr. specialize (Hl r Hr). lia.
Qed.

Lemma at_pos_inj ps I J : at_pos ps I = at_pos ps J -> forall p, In p ps -> nth p I 0%nat = nth p J 0%nat.
Proof.
  induction ps as [|q ps IH]; intros E p [].
  - cbn in E. injection E as E _. congruence.
  - cbn in E. injection E as _ E. now apply IH.
Qed.
Lemma at_pos_ext ps I J : (forall p, In p ps -> nth p I 0%nat = nth p J 0%nat) -> at_pos ps I = at_pos ps J.
Proof. intros H. unfold at_pos. apply map_ext_in. exact H. Qed.

Lemma rest_in ac rel p : (p < List.length (acAxes ac))%nat -> In p (rest_of ac rel) <-> ~ In p rel.
Proof.
  intros Hp. unfold rest_of. rewrite filter_In, in_seq, negb_true_iff. split.
  - intros [_ E] C. apply memb_in in C. congruence.
  - intros C. split; [lia|]. destruct (memb p rel) eqn:E; [|reflexivity]. apply memb_in in E. contradiction.
Qed.

Lemma pair_index_inj n a b c d : (a < n)%nat -> (c < n)%nat -> (a + b * n = c + d * n)%nat -> a = c /\ b = d.
Proof. intros Ha Hc E. assert (b = d) by nia. subst. lia. Qed.

Lemma blk_inj ac rel I J : (forall p, In p rel -> (p < List.length (acAxes ac))%nat) ->
  in_shape (ac_nb ac) I -> in_shape (ac_nb ac) J -> blk_of ac rel I = blk_of ac rel J -> I = J.
Proof.
  intros Hl HI HJ E. unfold blk_of in E.
  pose proof (at_pos_nbs ac rel I HI Hl) as I1. pose proof (at_pos_nbs ac rel J HJ Hl) as J1.
  pose proof (at_pos_nbs ac (rest_of ac rel) I HI (rest_lt ac rel)) as I2.
  pose proof (at_pos_nbs ac (rest_of ac rel) J HJ (rest_lt ac rel)) as J2.
  apply pair_index_inj in E as [E1 E2]; [|now apply rowmajor_lt|now apply rowmajor_lt].
  apply rowmajor_inj in E1; [|exact I1|exact J1]. apply rowmajor_inj in E2; [|exact I2|exact J2].
  apply (nth_ext _ _ 0%nat 0%nat); [rewrite (in_shape_length _ _ HI), (in_shape_length _ _ HJ); reflexivity|].
  intros k Hk. rewrite (in_shape_length _ _ HI) in Hk. unfold ac_nb in Hk. rewrite map_length in Hk.
  destruct (in_dec Nat.eq_dec k rel) as [C|C].
  - now apply (at_pos_inj rel).
  - apply (at_pos_inj (rest_of ac rel)); [exact E2|]. now apply rest_in.
Qed.
Lemma blk_lt ac rel J : ac_ok ac -> acAxes ac <> [] -> ascending rel ->
  (forall p, In p rel -> (p < List.length (acAxes ac))%nat) -> in_shape (ac_nb ac) J ->
  (blk_of ac rel J < acNBins ac)%nat.
Proof.
  intros Hok Hne Ha Hl HJ. rewrite ac_nb_prod, <- (split_prod ac rel) by assumption. unfold blk_of.
  pose proof (rowmajor_lt _ _ (at_pos_nbs ac rel J HJ Hl)).
  pose proof (rowmajor_lt _ _ (at_pos_nbs ac (rest_of ac rel) J HJ (rest_lt ac rel))). nia.
Qed.

Lemma mapM_vat idx ps : (forall p, In p ps -> (p < List.length idx)%nat) -> mapM (fun i => vat idx i) ps = Ok (at_pos ps idx).
Proof. intros H. unfold at_pos. apply seqM_ok. intros p Hp. apply vat_nth. auto. Qed.

Lemma ac_nb_sub s axs ac rel : acAxes s = axs -> Forall2 (fun r a => nth_error (acAxes ac) r = Some a) rel axs ->
  ac_nb s = nbs ac rel.
Proof. intros E HF. unfold ac_nb at 1. rewrite E. apply selects_nb. exact HF. Qed.

Lemma nth_axes_F2 ac ps : (forall p, In p ps -> (p < List.length (acAxes ac))%nat) ->
  Forall2 (fun r a => nth_error (acAxes ac) r = Some a) ps (map (fun p => nth p (acAxes ac) axis0) ps).
Proof.
  induction ps as [|p ps IH]; intros H; cbn [map]; constructor.
  - apply nth_error_nth'. apply H. now left.
  - apply IH. intros q Hq. apply H. now right.
Qed.

Lemma conv_cache ac dn tns rel axs : selects ac dn tns rel axs -> List.length dn = List.length (acAxes ac) -> ascending rel ->
  exists sub nsub perm, cv_cacheOf (base_cfg ac dn tns) = Ok (sub, nsub, perm) /\ ac_ok sub /\ acAxes sub = axs /\
    acNBins sub = prod (nbs ac rel) /\ ac_nb sub = nbs ac rel /\
    List.length perm = acNBins ac /\
    (forall J, in_shape (ac_nb ac) J -> nth (blk_of ac rel J) perm 0%nat = rowmajor (ac_nb ac) J) /\
    (forall q, (q < acNBins ac)%nat -> (nth q perm 0 < acNBins ac)%nat /\
        blk_of ac rel (digits (ac_nb ac) (nth q perm 0%nat)) = q).
Proof.
  intros Hsel Hdn Hasc. pose proof (selects_rel _ _ _ _ _ Hsel) as Hrel. pose proof (selects_NoDup _ _ _ _ _ Hsel) as HndR.
  assert (Hl : forall p, In p rel -> (p < List.length (acAxes ac))%nat) by (intros p Hp; eapply selects_lt; eassumption).
  pose proof Hsel as [Hr [_ [_ [Htn [HF1 HF]]]]]. pose proof (ac_reach_ok _ Hr) as Hok.
  assert (Hne : acAxes ac <> []).
  { destruct HF1 as [|t r ts rs H HF1]; [congruence|]. specialize (Hl r (or_introl eq_refl)). intro C. rewrite C in Hl. cbn in Hl. lia. }
  assert (Haxs : axs <> []). { destruct HF1; [congruence|]. inversion HF. congruence. }
  destruct (sub_axes_ok ac rel axs Hok HndR HF) as [sub [Esub [Hsub Eax]]].
  destruct (sub_axes_ok ac (rest_of ac rel) (map (fun p => nth p (acAxes ac) axis0) (rest_of ac rel)) Hok) as [nsub [Ensub [Hnsub Enax]]].
  { apply NoDup_filter, seq_NoDup. }
  { apply nth_axes_F2. apply rest_lt. }
  pose proof (ac_nb_sub sub axs ac rel Eax HF) as Enb.
  pose proof (ac_nb_sub nsub _ ac (rest_of ac rel) Enax (nth_axes_F2 ac _ (rest_lt ac rel))) as Ennb.
  assert (ENs : acNBins sub = prod (nbs ac rel)).
  { rewrite ac_nb_prod by (try assumption; rewrite Eax; exact Haxs). now rewrite Enb. }
  assert (Ebl : forall i, (i < acNBins ac)%nat -> cv_blocked ac sub nsub rel i = Ok (blk_of ac rel (digits (ac_nb ac) i))).
  { intros i Hi. destruct (ac_tuple ac i Hok Hne Hi) as [T1 T2]. set (J := digits (ac_nb ac) i) in *.
    pose proof Hok as [_ [_ [Hnd [_ _]]]]. unfold cv_blocked. rewrite Hnd.
    pose proof (sorted_filter_seq (List.length (acAxes ac)) 0 rel (ascending_sorted _ Hasc)) as Hfil.
    specialize (Hfil (fun r Hr' => conj (Nat.le_0_l r) (Hl r Hr'))).
    assert (HlenJ : List.length J = List.length (acAxes ac)) by (rewrite (in_shape_length _ _ T1); apply map_length).
    destruct (Nat.eqb_spec (List.length rel) (List.length (acAxes ac))) as [Eall|Enall].
    - assert (Erel : rel = seq 0 (List.length (acAxes ac))).
      { rewrite <- Hfil. rewrite <- Hfil in Eall. clear -Eall.
        set (p := fun i => memb i rel) in *. set (l := seq 0 (List.length (acAxes ac))) in *.
        assert (G : forall l, List.length (filter p l) = List.length l -> filter p l = l).
        { clear. induction l as [|x l IH]; [reflexivity|]. cbn [filter]. destruct (p x); cbn.
          - intros E. f_equal. apply IH. lia.
          - intros E. assert (List.length (filter p l) <= List.length l)%nat.
            { clear. induction l as [|y l IH]; cbn; [lia|]. destruct (p y); cbn; lia. } lia. }
        apply G. rewrite Eall. unfold l. now rewrite seq_length. }
      assert (Erest : rest_of ac rel = []).
      { destruct (rest_of ac rel) as [|p l] eqn:El; [reflexivity|exfalso].
        assert (Hp : In p (rest_of ac rel)) by (rewrite El; now left).
        pose proof (rest_lt ac rel p Hp) as Hpl. apply rest_in in Hp; [|exact Hpl]. apply Hp. rewrite Erel.
        apply in_seq. lia. }
      unfold blk_of. rewrite Erest. cbn [at_pos nbs map rowmajor]. rewrite Nat.mul_0_l, Nat.add_0_r. f_equal.
      rewrite Erel. unfold nbs, at_pos. rewrite <- HlenJ at 2. rewrite map_nth_seq.
      replace (List.length (acAxes ac)) with (List.length (ac_nb ac)) by apply map_length. rewrite map_nth_seq. congruence.
    - rewrite <- T2 at 1. rewrite unpack_rowmajor by assumption. cbn [bind].
      rewrite Hfil. rewrite mapM_vat by (intros p Hp; rewrite HlenJ; auto). cbn [bind].
      fold (rest_of ac rel). rewrite mapM_vat by (intros p Hp; rewrite HlenJ; eapply rest_lt; eassumption). cbn [bind].
      rewrite flatten_rowmajor; [|exact Hsub|rewrite Eax; exact Haxs|].
      2:{ unfold at_pos. rewrite map_length, Eax. apply (Forall2_len _ _ _ HF). }
      cbn [bind]. rewrite flatten_rowmajor; [|exact Hnsub| |].
      2:{ rewrite Enax. intros C. apply map_eq_nil in C. apply Enall.
          rewrite <- Hfil. pose proof (Permutation_length (filter_split (fun i => memb i rel) (seq 0 (List.length (acAxes ac))))) as HP.
          cbv beta in HP. fold (rest_of ac rel) in HP. rewrite C, app_nil_r, seq_length in HP. exact HP. }
      2:{ unfold at_pos. rewrite map_length, Enax, map_length. reflexivity. }
      cbn [bind]. unfold blk_of. rewrite Enb, Ennb, ENs. reflexivity. }
  destruct (invert_table (acNBins ac) (fun i => blk_of ac rel (digits (ac_nb ac) i))) as [perm [Ep [Lp [P1 P2]]]].
  { intros i Hi. apply blk_lt; try assumption. apply (ac_tuple ac i Hok Hne Hi). }
  { intros i j Hi Hj E. destruct (ac_tuple ac i Hok Hne Hi) as [T1 T2]. destruct (ac_tuple ac j Hok Hne Hj) as [U1 U2].
    rewrite <- T2, <- U2. f_equal. eapply blk_inj; eassumption. }
  exists sub, nsub, perm. split.
  - unfold cv_cacheOf. cbn [base_cfg sb_setAxes sb_setDist sb_setTrans sbAxes sbTrans sbDist osNames mk_obsset].
    change (mkObs dn _) with (mk_obsset dn). change (mkObs tns _) with (mk_obsset tns).
    rewrite Hrel. cbn [bind]. unfold cv_subAxes. rewrite Esub. cbn [bind]. rewrite Hdn.
    fold (rest_of ac rel). rewrite Ensub. cbn [bind].
    match goal with |- bind ?x _ = _ => replace x with (Ok perm) end; [reflexivity|].
    rewrite <- Ep. assert (G : forall l p, (forall i, In i l -> (i < acNBins ac)%nat) ->
      foldM (fun p i => if Nat.ltb (blk_of ac rel (digits (ac_nb ac) i)) (List.length p)
                        then Ok (upd p (blk_of ac rel (digits (ac_nb ac) i)) i) else Throw std_out_of_range) l p =
      foldM (fun p i => bind (cv_blocked ac sub nsub rel i)
                       (fun k => if Nat.ltb k (List.length p) then Ok (upd p k i) else Throw std_out_of_range)) l p).
    { induction l as [|i l IH]; intros p Hi; [reflexivity|]. cbn [foldM]. rewrite Ebl by (apply Hi; now left). cbn [bind].
      destruct (Nat.ltb _ _); cbn [bind]; [|reflexivity]. apply IH. intros; apply Hi; now right. }
    apply G. intros i Hi. apply in_seq in Hi. lia.
  - split; [exact Hsub|split; [exact Eax|split; [exact ENs|split; [exact Enb|split; [exact Lp|split]]]]].
    + intros J HJ. pose proof (rowmajor_lt _ _ HJ) as Hlt. rewrite <- ac_nb_prod in Hlt by assumption.
      rewrite <- (P1 _ Hlt). destruct (ac_tuple ac _ Hok Hne Hlt) as [T1 T2].
      now rewrite (rowmajor_inj _ _ _ T1 HJ T2).
    + exact P2.
Qed.
