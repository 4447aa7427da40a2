(** Sub-axis collections; Shape (C25). *)
From Verif Require Import Base.Res Base.Num Base.SMap Model.Axis Model.Event Model.Hist Model.Matrix Model.Syst
  Spec.AxisSpec Spec.HistSpec Spec.SystSpec Proofs.AxisP Proofs.HistP Proofs.HistP2 Proofs.CutP Proofs.ParamP3
  Proofs.SystP Proofs.SystP2 Proofs.SystP3 Proofs.SystP4 Proofs.SystP5.
Local Open Scope Qc_scope.

Lemma index_of_some n l i : NoDup l -> nth_error l i = Some n -> index_of n l = Some i.
Proof.
  intros Hnd He. pose proof (index_of_spec n l) as H. destruct (index_of n l) as [k|].
  - destruct H as [H _]. f_equal. apply (proj1 (NoDup_nth_error l) Hnd).
    + apply nth_error_Some. congruence.
    + congruence.
  - exfalso. apply H. now apply nth_error_In in He.
Qed.

Lemma Forall2_len {A B} (P : A -> B -> Prop) l m : Forall2 P l m -> List.length l = List.length m.
Proof. induction 1; cbn; congruence. Qed.
Lemma selects_rel ac dn tns rel axs : selects ac dn tns rel axs ->
  relativeIndices (mk_obsset tns) (mk_obsset dn) = Ok rel.
Proof.
  intros [_ [Hnd [Hnt [_ [HF _]]]]]. unfold relativeIndices. cbn [osNames mk_obsset].
  change (mkObs dn _) with (mk_obsset dn).
  destruct (Nat.ltb_spec (List.length dn) (List.length tns)) as [C|_].
  - exfalso. assert (Hi : incl tns dn).
    { intros t Ht. clear -HF Ht. induction HF as [|t' r ts rs H HF IH]; [destruct Ht|].
      destruct Ht as [->|Ht]; [now apply nth_error_In in H|auto]. }
    pose proof (NoDup_incl_length Hnt Hi). lia.
  - clear Hnt. induction HF as [|t r ts rs H HF IH]; [reflexivity|].
    unfold mapM in *. cbn [map seqM]. rewrite os_index_ok by exact Hnd.
    rewrite (index_of_some t dn r Hnd H). cbn [bind]. now rewrite IH.
Qed.
Lemma selects_NoDup ac dn tns rel axs : selects ac dn tns rel axs -> NoDup rel.
Proof.
  intros [_ [_ [Hnt [_ [HF _]]]]]. induction HF as [|t r ts rs H HF IH]; [constructor|].
  inversion Hnt as [|? ? Hni Hnt']; subst. constructor; [|now apply IH]. intros Hin. apply Hni.
  clear -Hin HF H. induction HF as [|t' r' ts rs H' HF IH]; [destruct Hin|].
  destruct Hin as [->|Hin]; [left; congruence|right; auto].
Qed.
Lemma selects_lt ac dn tns rel axs r : selects ac dn tns rel axs -> In r rel -> (r < List.length (acAxes ac))%nat.
Proof.
  intros [_ [_ [_ [_ [_ HF]]]]] Hin. clear -HF Hin. induction HF as [|r' a rs as' H HF IH]; [destruct Hin|].
  destruct Hin as [->|Hin]; [apply nth_error_Some; congruence|auto].
Qed.

(** picking distinct axes *)
Lemma sub_axes_gen (ac : axcol) : ac_ok ac -> forall rel axs acc,
  Forall2 (fun r a => nth_error (acAxes ac) r = Some a) rel axs -> NoDup rel ->
  ac_ok acc -> (forall r a, In r rel -> nth_error (acAxes ac) r = Some a -> ~ In (aName a) (map aName (acAxes acc))) ->
  exists s, foldM (fun s i => bind (getAxis ac i) (fun a => addAxis s a)) rel acc = Ok s /\ ac_ok s /\
            acAxes s = acAxes acc ++ axs.
Proof.
  intros Hok. pose proof Hok as [_ [_ [_ [_ [Hnames Hbuilt]]]]].
  induction rel as [|r rel IH]; intros axs acc HF Hnd Hacc Hfresh; inversion HF as [|? a ? axs' Hr HF']; subst.
  - exists acc. split; [reflexivity|split; [exact Hacc|now rewrite app_nil_r]].
  - inversion Hnd as [|? ? Hni Hnd']; subst. cbn [foldM]. unfold getAxis at 1. rewrite Hr. cbn [bind].
    destruct (addAxis_new acc a (Hfresh r a (or_introl eq_refl) Hr)) as [acc' E]. rewrite E. cbn [bind].
    assert (Hb : built a) by (rewrite Forall_forall in Hbuilt; apply Hbuilt; now apply nth_error_In in Hr).
    destruct (addAxis_ok _ _ _ Hacc Hb E) as [Hacc' [Eax _]].
    destruct (IH axs' acc' HF' Hnd' Hacc') as [s [Es [Hs Ea]]].
    + intros r' a' Hr' Ha'. rewrite Eax, map_app, in_app_iff. intros [C|[C|[]]].
      * apply (Hfresh r' a' (or_intror Hr') Ha' C).
      * apply Hni. assert (r = r'); [|congruence].
        apply (proj1 (NoDup_nth_error _) Hnames).
        -- rewrite map_length. apply nth_error_Some. congruence.
        -- rewrite (map_nth_error aName _ _ Hr), (map_nth_error aName _ _ Ha'). congruence.
    + exists s. split; [exact Es|split; [exact Hs|]]. rewrite Ea, Eax, <- app_assoc. reflexivity.
Qed.
Lemma sub_axes_ok ac rel axs : ac_ok ac -> NoDup rel ->
  Forall2 (fun r a => nth_error (acAxes ac) r = Some a) rel axs ->
  exists s, foldM (fun s i => bind (getAxis ac i) (fun a => addAxis s a)) rel ac_empty = Ok s /\ ac_ok s /\ acAxes s = axs.
Proof.
  intros Hok Hnd HF. destruct (sub_axes_gen ac Hok rel axs ac_empty HF Hnd ac_empty_ok) as [s [E [H1 H2]]].
  - intros r a _ _ [].
  - exists s. auto.
Qed.

Lemma selects_nb ac rel axs : Forall2 (fun r a => nth_error (acAxes ac) r = Some a) rel axs ->
  map aNBins axs = map (fun r => nth r (ac_nb ac) 0%nat) rel.
Proof.
  induction 1 as [|r a rs as' H HF IH]; [reflexivity|]. cbn [map]. rewrite IH. f_equal.
  symmetry. now apply nth_ac_nb.
Qed.
Lemma at_pos_shape ac rel axs J : Forall2 (fun r a => nth_error (acAxes ac) r = Some a) rel axs ->
  in_shape (ac_nb ac) J -> in_shape (map aNBins axs) (at_pos rel J).
Proof.
  intros HF HJ. rewrite (selects_nb ac rel axs HF). unfold in_shape, at_pos.
  induction HF as [|r a rs as' H HF IH]; cbn [map]; constructor; [|exact IH].
  apply shape_nth; [exact HJ|]. unfold ac_nb. rewrite map_length. apply nth_error_Some. congruence.
Qed.

Lemma map_seq_combine {A B C} (g : A -> B -> C) (l : list A) (t : list B) dl dt : List.length t = List.length l ->
  map (fun d => g (nth d l dl) (nth d t dt)) (seq 0 (List.length l)) = map (fun p => g (fst p) (snd p)) (combine l t).
Proof.
  revert t. induction l as [|x l IH]; intros [|y t] H; cbn in H; try discriminate; [reflexivity|].
  injection H as H. cbn [List.length seq map combine fst snd]. f_equal. rewrite <- seq_shift, map_map.
  apply IH. exact H.
Qed.
Lemma binVec_tuple get f ac t : ac_ok ac -> acAxes ac <> [] -> in_shape (ac_nb ac) t ->
  (forall a i, built a -> (i < aNBins a)%nat -> get a i = Ok (f a i)) ->
  binVec get ac (rowmajor (ac_nb ac) t) = Ok (map (fun p => f (fst p) (snd p)) (combine (acAxes ac) t)).
Proof.
  intros Hok Hne Ht Hg. pose proof (rowmajor_lt _ _ Ht) as Hlt. rewrite <- ac_nb_prod in Hlt by assumption.
  destruct (binVec_ok get f ac _ Hok Hlt Hg) as [idx [Hu E]].
  rewrite unpack_rowmajor in Hu by assumption. injection Hu as <-. rewrite E. f_equal.
  apply (map_seq_combine f). rewrite (in_shape_length _ _ Ht). unfold ac_nb. apply map_length.
Qed.
Lemma binCentre_ok a i : built a -> (i < aNBins a)%nat -> binCentre a i = Ok (ctr_of a i).
Proof.
  intros Hb Hi. unfold binCentre, ctr_of. apply vat_nth. destruct (built_facts _ Hb) as [_ [_ [_ [-> _]]]]. exact Hi.
Qed.

Lemma mapM_unflatten ac J rel : ac_ok ac -> in_shape (ac_nb ac) J ->
  (forall r, In r rel -> (r < List.length (acAxes ac))%nat) ->
  mapM (fun r => unflatten ac (rowmajor (ac_nb ac) J) r) rel = Ok (at_pos rel J).
Proof.
  intros Hok HJ Hlt. unfold at_pos. apply seqM_ok. intros r Hr. apply unflatten_digit; auto.
Qed.

Lemma mapM_cases {A B} (f : A -> res B) (bad : A -> bool) (g : A -> B) e l :
  (forall x, In x l -> f x = if bad x then Throw e else Ok (g x)) ->
  mapM f l = if existsb bad l then Throw e else Ok (map g l).
Proof.
  unfold mapM. induction l as [|x l IH]; intros H; [reflexivity|]. cbn [map seqM existsb].
  rewrite (H x (or_introl eq_refl)). destruct (bad x); [reflexivity|]. cbn [bind orb].
  rewrite IH by (intros y Hy; apply H; now right). destruct (existsb bad l); reflexivity.
Qed.

(** the diagonal writes *)
Lemma diag_fill (v : nat -> Qc) (bm : list nat) (vals : list Qc) N l :
  (forall o, In o l -> (o < N)%nat /\ (o < List.length bm)%nat /\ (nth o bm 0%nat < List.length vals)%nat /\
     nth (nth o bm 0%nat) vals 0 = v o) ->
  forall m, square m N ->
  exists m', iterS (fun m obs => obind m (vat bm obs) (fun t => obind m (vat vals t) (fun x => m_set m obs obs x))) l m
     = (m', Ok tt) /\ square m' N /\
   forall i j, sF m' i j = if Nat.eqb i j && (if in_dec Nat.eq_dec i l then true else false) then v i else sF m i j.
Proof.
  intros H. induction l as [|o l IH]; intros m Hm.
  - exists m. split; [reflexivity|split; [exact Hm|]]. intros i j. cbn. now rewrite andb_false_r.
  - cbn [iterS]. destruct (H o (or_introl eq_refl)) as [H1 [H2 [H3 H4]]].
    rewrite (vat_nth bm o 0%nat H2). cbn [obind]. rewrite (vat_nth vals _ 0 H3). cbn [obind].
    pose proof Hm as [A [B [C D]]]. unfold m_set. rewrite A, B, C, D, !(proj2 (Nat.leb_gt _ _)) by lia. cbn [orb].
    rewrite !(proj2 (Nat.ltb_lt _ _)) by lia. cbn [andb].
    edestruct (IH (fun x Hx => H x (or_intror Hx)) (mkMat N N N N (fset (sF m) o o (nth (nth o bm 0%nat) vals 0)))) as [m' [E [Sq F]]];
      [repeat split|].
    exists m'. split; [exact E|split; [exact Sq|]]. intros i j. rewrite F. cbn [sF]. unfold fset.
    destruct (Nat.eqb_spec i j) as [->|Hij]; cbn [andb].
    + destruct (in_dec Nat.eq_dec j l) as [Hin|Hin].
      * destruct (in_dec Nat.eq_dec j (o :: l)) as [_|Cc]; [reflexivity|exfalso; apply Cc; now right].
      * destruct (Nat.eqb_spec j o) as [->|Hne]; cbn [andb].
        -- destruct (in_dec Nat.eq_dec o (o :: l)) as [_|Cc]; [exact H4|exfalso; apply Cc; now left].
        -- destruct (in_dec Nat.eq_dec j (o :: l)) as [[Cc|Cc]|_]; [congruence|contradiction|reflexivity].
    + destruct (Nat.eqb_spec i o) as [->|]; [|reflexivity]. destruct (Nat.eqb_spec j o) as [->|]; [congruence|reflexivity].
Qed.

Lemma shape_cache_ok ac dn tns rel axs : selects ac dn tns rel axs ->
  exists ta bm, sh_cacheOf (base_cfg ac dn tns) = Ok (ta, bm) /\ ac_ok ta /\ acAxes ta = axs /\
    List.length bm = acNBins ac /\
    forall J, in_shape (ac_nb ac) J -> nth (rowmajor (ac_nb ac) J) bm 0%nat = rowmajor (map aNBins axs) (at_pos rel J).
Proof.
  intros Hsel. pose proof (selects_rel _ _ _ _ _ Hsel) as Hrel. pose proof (selects_NoDup _ _ _ _ _ Hsel) as HndR.
  pose proof Hsel as [Hr [_ [_ [Htn [HF1 HF]]]]]. pose proof (ac_reach_ok _ Hr) as Hok.
  destruct (sub_axes_ok ac rel axs Hok HndR HF) as [ta [Eta [Hta Eax]]].
  assert (Haxs : axs <> []). { destruct HF1; [congruence|]. inversion HF. congruence. }
  assert (Hne : acAxes ac <> []).
  { destruct HF as [|r a rs as' H HF]; [congruence|]. intro C. rewrite C in H. destruct r; discriminate. }
  unfold sh_cacheOf. cbn [base_cfg sb_setAxes sb_setDist sb_setTrans sbAxes sbTrans sbDist]. rewrite Hrel. cbn [bind].
  rewrite Eta. cbn [bind].
  rewrite (seqM_ok _ (fun i => rowmajor (map aNBins axs) (at_pos rel (digits (ac_nb ac) i)))).
  2:{ intros i Hi. apply in_seq in Hi. destruct (ac_tuple ac i Hok Hne ltac:(lia)) as [T1 T2].
      pose proof (mapM_unflatten ac (digits (ac_nb ac) i) rel Hok T1 (fun r Hr' => selects_lt _ _ _ _ _ r Hsel Hr')) as EM.
      rewrite T2 in EM. rewrite EM.
      cbn [bind]. rewrite flatten_rowmajor; [unfold ac_nb; rewrite Eax; reflexivity|exact Hta|rewrite Eax; exact Haxs|].
      rewrite Eax. unfold at_pos. rewrite map_length. eapply Forall2_len. exact HF. }
  cbn [bind]. exists ta. eexists. split; [reflexivity|]. split; [exact Hta|split; [exact Eax|]].
  split; [now rewrite map_length, seq_length|]. intros J HJ.
  pose proof (rowmajor_lt _ _ HJ) as Hlt. rewrite <- ac_nb_prod in Hlt by assumption.
  destruct (ac_tuple ac (rowmajor (ac_nb ac) J) Hok Hne Hlt) as [T1 T2].
  pose proof (rowmajor_inj _ _ _ T1 HJ T2) as ED.
  rewrite (nth_map2 _ _ _ 0%nat) by (rewrite seq_length; exact Hlt). rewrite seq_nth by exact Hlt. cbn [plus]. now rewrite ED.
Qed.

(** a Shape configured with (ac, dn, tns), whatever was constructed before *)
Definition sh_inv ac dn tns (s : shape) : Prop :=
  sbAxes (shB s) = ac /\ sbTrans (shB s) = mk_obsset tns /\ sbDist (shB s) = mk_obsset dn /\
  square (sbResp (shB s)) (acNBins ac) /\ (forall i j, i <> j -> resp (shB s) i j = 0) /\
  (shCached s = true -> sh_cacheOf (base_cfg ac dn tns) = Ok (shTransAxes s, shBinMap s)).

Lemma shape_gen f ac dn tns rel axs s0 : selects ac dn tns rel axs -> sh_inv ac dn tns s0 -> shFun s0 = Some f ->
  sh_inv ac dn tns (fst (sh_construct s0)) /\
  ((exists t, in_shape (map aNBins axs) t /\ f (centres axs t) < 0) ->
     snd (sh_construct s0) = Throw ValueError) /\
  ((forall t, in_shape (map aNBins axs) t -> 0 <= f (centres axs t)) ->
     exists s', sh_construct s0 = (s', Ok tt) /\ square (sbResp (shB s')) (acNBins ac) /\
       (forall J, in_shape (nshape ac) J ->
          resp (shB s') (rowmajor (nshape ac) J) (rowmajor (nshape ac) J) = f (centres axs (at_pos rel J))) /\
       (forall i j, i <> j -> resp (shB s') i j = 0)).
Proof.
  intros Hsel [I1 [I2 [I3 [I4 [I5 I6]]]]] Hfun. destruct (shape_cache_ok _ _ _ _ _ Hsel) as [ta [bm [Ec [Hta [Eax [Hbl Hbm]]]]]].
  pose proof Hsel as [Hr [_ [_ [Htn [HF1 HF]]]]]. pose proof (ac_reach_ok _ Hr) as Hok.
  assert (Haxs : acAxes ta <> []). { rewrite Eax. destruct HF1; [congruence|]. inversion HF. congruence. }
  assert (Hne : acAxes ac <> []).
  { destruct HF as [|r a rs as' H HF]; [congruence|]. intro C. rewrite C in H. destruct r; discriminate. }
  assert (Hpos : (0 < acNBins ac)%nat).
  { rewrite ac_nb_prod by assumption. apply prod_pos_all. unfold ac_nb. rewrite Forall_map.
    pose proof Hok as [_ [_ [_ [_ [_ H6]]]]]. revert H6. apply Forall_impl. intros b Hb. apply (built_facts _ Hb). }
  unfold sh_construct. rewrite Hfun, I1. destruct (Nat.eqb_spec (acNBins ac) 0); [lia|].
  assert (Ec' : (if shCached s0 then Ok (shTransAxes s0, shBinMap s0) else sh_cacheOf (shB s0)) = Ok (ta, bm)).
  { destruct (shCached s0) eqn:Eca; [rewrite <- (I6 eq_refl); exact Ec|]. rewrite <- Ec. unfold sh_cacheOf. rewrite I1, I2, I3. reflexivity. }
  rewrite Ec'. cbn [obind].
  assert (Hnbt : ac_nb ta = map aNBins axs) by (unfold ac_nb; now rewrite Eax).
  assert (HNt : acNBins ta = prod (map aNBins axs)) by (rewrite ac_nb_prod by assumption; now rewrite Hnbt).
  set (dg := digits (map aNBins axs)).
  rewrite (mapM_cases _ (fun b => qltb (f (centres axs (dg b))) 0) (fun b => f (centres axs (dg b))) ValueError).
  2:{ intros b Hb. apply in_seq in Hb. destruct (digits_spec (map aNBins axs) b ltac:(lia)) as [D1 D2]. fold dg in D1, D2.
      rewrite <- D2 at 1. rewrite <- Hnbt at 1. unfold binCentres.
      rewrite (binVec_tuple binCentre ctr_of); [|exact Hta|exact Haxs|rewrite Hnbt; exact D1|exact binCentre_ok].
      cbn [bind]. rewrite Eax. reflexivity. }
  assert (Hinv1 : forall m, square m (acNBins ac) -> (forall i j, i <> j -> sF m i j = 0) ->
            sh_inv ac dn tns (mkShape (sb_setResp (shB s0) m) (Some f) true ta bm)).
  { intros m Hm1 Hm2. split; [exact I1|split; [exact I2|split; [exact I3|split; [exact Hm1|split; [exact Hm2|intros _; exact Ec]]]]]. }
  assert (Hinv0 : sh_inv ac dn tns (mkShape (shB s0) (Some f) true ta bm)).
  { split; [exact I1|split; [exact I2|split; [exact I3|split; [exact I4|split; [exact I5|intros _; exact Ec]]]]]. }
  set (vals := map (fun b => f (centres axs (dg b))) (seq 0 (acNBins ta))).
  edestruct (diag_fill (fun o => f (centres axs (at_pos rel (digits (ac_nb ac) o)))) bm vals (acNBins ac) (seq 0 (acNBins ac)))
      with (m := sbResp (shB s0)) as [m' [E [Sq F]]]; [|exact I4|].
  { intros o Ho. apply in_seq in Ho. destruct (ac_tuple ac o Hok Hne ltac:(lia)) as [T1 T2].
      set (J := digits (ac_nb ac) o) in *.
      pose proof (Hbm J T1) as HB. rewrite T2 in HB. rewrite HB.
      pose proof (at_pos_shape ac rel axs J HF T1) as HS. pose proof (rowmajor_lt _ _ HS) as HSlt.
      destruct (digits_spec (map aNBins axs) _ HSlt) as [D1 D2]. fold dg in D1, D2.
      split; [lia|split; [lia|]]. unfold vals. rewrite map_length, seq_length. split; [lia|].
      rewrite (nth_map2 _ _ _ 0%nat) by (rewrite seq_length; lia). rewrite seq_nth by lia. cbn [plus].
      rewrite (rowmajor_inj _ _ _ D1 HS D2). reflexivity. }
  assert (Foff : forall i j, i <> j -> sF m' i j = 0).
  { intros i j Hij. rewrite F. destruct (Nat.eqb_spec i j); [contradiction|]. cbn [andb]. now apply I5. }
  split.
  { destruct (existsb _ _); cbn [obind fst]; [exact Hinv0|]. rewrite E. cbn [fst sh_onB shB]. now apply Hinv1. }
  split.
  - intros [t [Ht Hneg]]. destruct (existsb _ _) eqn:Ex; [reflexivity|]. exfalso.
    assert (Hx : existsb (fun b => qltb (f (centres axs (dg b))) 0) (seq 0 (acNBins ta)) = true); [|congruence].
    apply existsb_exists. exists (rowmajor (map aNBins axs) t). pose proof (rowmajor_lt _ _ Ht) as Hlt.
    split; [apply in_seq; lia|]. destruct (digits_spec (map aNBins axs) _ Hlt) as [D1 D2]. fold dg in D1, D2.
    rewrite (rowmajor_inj _ _ _ D1 Ht D2). apply qltb_lt. exact Hneg.
  - intros Hall. destruct (existsb _ _) eqn:Ex.
    { exfalso. apply existsb_exists in Ex as [b [Hb Ex]]. apply in_seq in Hb.
      destruct (digits_spec (map aNBins axs) b ltac:(lia)) as [D1 _]. fold dg in D1.
      apply qltb_lt in Ex. pose proof (Hall _ D1). qlra. }
    cbn [obind].
    rewrite E. eexists. split; [reflexivity|]. cbn [sh_onB shB sb_setResp sbResp]. split; [exact Sq|].
      change (nshape ac) with (ac_nb ac). split.
      + intros J HJ. unfold resp. cbn [sbResp]. rewrite F, Nat.eqb_refl.
        pose proof (rowmajor_lt _ _ HJ) as Hlt. rewrite <- ac_nb_prod in Hlt by assumption.
        destruct (in_dec Nat.eq_dec (rowmajor (ac_nb ac) J) (seq 0 (acNBins ac))) as [_|Cc];
          [|exfalso; apply Cc; apply in_seq; lia]. cbn [andb].
        destruct (ac_tuple ac _ Hok Hne Hlt) as [T1 T2]. rewrite (rowmajor_inj _ _ _ T1 HJ T2). reflexivity.
      + exact Foff.
Qed.

Lemma sh_cfg_inv f ac dn tns : sh_inv ac dn tns (sh_cfg f ac dn tns).
Proof. unfold sh_inv. cbn. repeat split. discriminate. Qed.
Lemma shape_pkg f ac dn tns rel axs : selects ac dn tns rel axs ->
  ((exists t, in_shape (map aNBins axs) t /\ f (centres axs t) < 0) ->
     snd (sh_construct (sh_cfg f ac dn tns)) = Throw ValueError) /\
  ((forall t, in_shape (map aNBins axs) t -> 0 <= f (centres axs t)) ->
     exists s', sh_construct (sh_cfg f ac dn tns) = (s', Ok tt) /\ square (sbResp (shB s')) (acNBins ac) /\
       (forall J, in_shape (nshape ac) J ->
          resp (shB s') (rowmajor (nshape ac) J) (rowmajor (nshape ac) J) = f (centres axs (at_pos rel J))) /\
       (forall i j, i <> j -> resp (shB s') i j = 0)).
Proof. intros Hsel. apply (shape_gen f ac dn tns rel axs _ Hsel (sh_cfg_inv f ac dn tns) eq_refl). Qed.
(** histories after the configuration: function/parameter changes and Construct calls *)
Lemma shrun_inv ac dn tns rel axs l : selects ac dn tns rel axs -> forall s, sh_inv ac dn tns s -> (exists f, shFun s = Some f) ->
  sh_inv ac dn tns (shrun s l).
Proof.
  intros Hsel. induction l as [|[f|] l IH]; intros s H [f0 H0]; cbn; [exact H| |].
  - apply IH; [exact H|]. now exists f.
  - apply IH; [apply (shape_gen f0 ac dn tns rel axs s Hsel H H0)|]. exists f0.
    unfold sh_construct. rewrite H0. destruct (Nat.eqb _ 0); [exact H0|].
    destruct (if shCached s then _ else _) as [[ta bm]| | | |]; cbn [obind fst]; try exact H0.
    destruct (mapM _ _); cbn [obind fst shFun]; try reflexivity; try exact H0. destruct (iterS _ _ _) as [m o]. reflexivity.
Qed.
Lemma shape_history_pkg f0 f ac dn tns rel axs ops : selects ac dn tns rel axs ->
  let fresh := sh_cfg f ac dn tns in
  let used := shrun (sh_cfg f0 ac dn tns) (ops ++ [ShFun f]) in
  snd (sh_construct used) = snd (sh_construct fresh) /\
  (snd (sh_construct used) = Ok tt ->
     forall i j, (i < acNBins ac)%nat -> (j < acNBins ac)%nat ->
     resp (shB (fst (sh_construct used))) i j = resp (shB (fst (sh_construct fresh))) i j).
Proof.
  intros Hsel fresh used.
  assert (HU : sh_inv ac dn tns used /\ shFun used = Some f).
  { unfold used, shrun. rewrite fold_left_app. cbn [fold_left shstep]. split; [|reflexivity].
    pose proof (shrun_inv ac dn tns rel axs ops Hsel (sh_cfg f0 ac dn tns) (sh_cfg_inv _ _ _ _) (ex_intro _ f0 eq_refl)) as H. exact H. }
  destruct HU as [HU1 HU2]. destruct (shape_gen f ac dn tns rel axs used Hsel HU1 HU2) as [_ [A1 A2]].
  destruct (shape_pkg f ac dn tns rel axs Hsel) as [B1 B2]. fold fresh in B1, B2.
  destruct (existsb (fun t => qltb (f (centres axs t)) 0) (tuples (map aNBins axs))) eqn:Ex.
  - apply existsb_exists in Ex as [t [Ht Hn]]. apply in_tuples in Ht. apply qltb_lt in Hn.
    rewrite A1, B1 by (exists t; auto). split; [reflexivity|discriminate].
  - assert (Hall : forall t, in_shape (map aNBins axs) t -> 0 <= f (centres axs t)).
    { intros t Ht. destruct (qltb (f (centres axs t)) 0) eqn:En; [|now apply qltb_ge]. exfalso.
      assert (X : existsb (fun t => qltb (f (centres axs t)) 0) (tuples (map aNBins axs)) = true); [|congruence].
      apply existsb_exists. exists t. split; [now apply in_tuples|exact En]. }
    destruct (A2 Hall) as [s1 [E1 [_ [D1 O1]]]]. destruct (B2 Hall) as [s2 [E2 [_ [D2 O2]]]].
    rewrite E1, E2. split; [reflexivity|]. intros _ i j Hi Hj. cbn [fst].
    destruct (Nat.eq_dec i j) as [->|Hne]; [|rewrite O1, O2 by exact Hne; reflexivity].
    pose proof Hsel as [Hr [_ [_ [Htn [HF1 HF]]]]]. pose proof (ac_reach_ok _ Hr) as Hok.
    assert (Hnea : acAxes ac <> []).
    { destruct HF1 as [|t r ts rs H HF1]; [congruence|]. inversion HF as [|? ? ? ? Hx]; subst. intros C. rewrite C in Hx. destruct r; discriminate. }
    destruct (ac_tuple ac j Hok Hnea Hj) as [T1 T2]. rewrite <- T2. change (ac_nb ac) with (nshape ac) in *.
    now rewrite D1, D2.
Qed.
