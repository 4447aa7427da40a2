(** Convolution totals, histories of Shape and Convolution, argument checks, witnesses (C24-C26). *)
From Verif Require Import Base.Res Base.Num Base.SMap Model.Axis Model.Event Model.Hist Model.Matrix Model.Syst
  Spec.AxisSpec Spec.HistSpec Spec.SystSpec Proofs.AxisP Proofs.HistP Proofs.HistP2
  Proofs.SystP Proofs.SystP2 Proofs.SystP3 Proofs.SystP4 Proofs.SystP5 Proofs.SystP6 Proofs.SystP7 Proofs.SystP8.
Local Open Scope Qc_scope.

Lemma qsum_le {A} (f g : A -> Qc) l : (forall x, In x l -> f x <= g x) -> qsum (map f l) <= qsum (map g l).
Proof.
  induction l as [|x l IH]; intros H; cbn [map qsum]; [qlra|].
  pose proof (H x (or_introl eq_refl)). pose proof (IH (fun y Hy => H y (or_intror Hy))). qlra.
Qed.

Lemma conv_total_pkg k Kf ac dn tns rel axs h : selects ac dn tns rel axs -> List.length dn = List.length (acAxes ac) -> ascending rel ->
  (forall t u, in_shape (map aNBins axs) t -> in_shape (map aNBins axs) u ->
     k (lows axs t) (highs axs t) (centres axs u) = Ok (Kf t u)) ->
  h_reach h -> hAxes h = ac ->
  exists c' h' s, cv_construct (cv_cfg k ac dn tns) = (c', Ok tt) /\
    sys_apply (sbResp (cvB c')) h true = Ok (h', Some s) /\ same_axes h h' /\ s = total h' /\
    total h' = qsum (map (fun J => qsum (map (fun t => qmax 0 (Kf t (at_pos rel J))) (tuples (map aNBins axs))) * cont_at h J)
                         (tuples (nshape ac))) /\
    ((forall u, in_shape (map aNBins axs) u -> qsum (map (fun t => qmax 0 (Kf t u)) (tuples (map aNBins axs))) <= 1) ->
     (forall J, in_shape (nshape ac) J -> 0 <= cont_at h J) -> total h' <= total h) /\
    ((forall u, in_shape (map aNBins axs) u -> qsum (map (fun t => qmax 0 (Kf t u)) (tuples (map aNBins axs))) = 1) ->
     total h' = total h).
Proof.
  intros Hsel Hdn Hasc HK Hr Hac.
  destruct (conv_pkg k Kf ac dn tns rel axs Hsel Hdn Hasc HK) as [c' [E [Sq [_ C]]]].
  assert (Hl : forall p, In p rel -> (p < List.length (acAxes ac))%nat) by (intros p Hp; eapply selects_lt; eassumption).
  pose proof Hsel as [Hra [_ [_ [Htn [HF1 HF]]]]]. pose proof (ac_reach_ok _ Hra) as Hok.
  assert (Hne : acAxes ac <> []).
  { destruct HF1 as [|t r ts rs H HF1]; [congruence|]. specialize (Hl r (or_introl eq_refl)). intro X. rewrite X in Hl. cbn in Hl. lia. }
  assert (Hn : hNBins h = acNBins ac).
  { pose proof (h_reach_ok _ Hr) as [? [? [? [? ?]]]]. rewrite <- Hac. assumption. }
  assert (Hsub : forall J, in_shape (nshape ac) J -> in_shape (map aNBins axs) (at_pos rel J)).
  { intros J HJ. rewrite (selects_nb ac rel axs HF). apply at_pos_nbs; assumption. }
  destruct (sys_apply_pkg _ h _ Hr Hn Sq) as [h' [s [E2 [SA [Es [_ T]]]]]].
  assert (T2 : total h' = qsum (map (fun J => qsum (map (fun t => qmax 0 (Kf t (at_pos rel J))) (tuples (map aNBins axs))) * cont_at h J)
                         (tuples (nshape ac)))).
  { rewrite T, (ac_nb_prod ac Hok Hne). change (ac_nb ac) with (nshape ac).
    rewrite (qsum_bins_tuples (nshape ac)). apply qsum_map_ext. intros J HJ. apply in_tuples in HJ.
    rewrite <- (C J HJ). rewrite (ac_nb_prod ac Hok Hne). change (ac_nb ac) with (nshape ac).
    f_equal. unfold cont_at, shape_of. rewrite Hac. reflexivity. }
  assert (T3 : total h = qsum (map (fun J => cont_at h J) (tuples (nshape ac)))).
  { unfold total. rewrite Hn, (ac_nb_prod ac Hok Hne). change (ac_nb ac) with (nshape ac).
    rewrite (qsum_bins_tuples (nshape ac)). apply qsum_map_ext. intros J HJ. unfold cont_at, shape_of. now rewrite Hac. }
  exists c', h', s. split; [exact E|split; [exact E2|split; [exact SA|split; [exact Es|split; [exact T2|split]]]]].
  - intros H1 H2. rewrite T2, T3. apply qsum_le. intros J HJ. apply in_tuples in HJ.
    specialize (H1 _ (Hsub J HJ)). specialize (H2 J HJ). qnra.
  - intros H1. rewrite T2, T3. apply qsum_map_ext. intros J HJ. apply in_tuples in HJ.
    rewrite (H1 _ (Hsub J HJ)). ring.
Qed.

(** * argument checks *)
Lemma warp_checks_pkg k b w : wKind w = k -> wB w = b ->
  (forall f, k = KScale f -> f <= 0 -> w_construct w = (w, Throw ValueError)) /\
  ((forall f, k = KScale f -> 0 < f) -> List.length (osNames (sbTrans b)) <> 1%nat -> w_construct w = (w, Throw RepresentationError)) /\
  (k = KFunc None -> List.length (osNames (sbTrans b)) = 1%nat -> w_construct w = (w, Throw LogicError)) /\
  (k_ok k -> List.length (osNames (sbTrans b)) = 1%nat -> acNBins (sbAxes b) = 0%nat -> w_construct w = (w, Throw LogicError)).
Proof.
  intros <- <-. unfold w_construct, w_check. repeat split.
  - intros f -> Hf. destruct (qleb_spec f 0); [reflexivity|qlra].
  - intros Hp Hn. destruct (Nat.eqb_spec (List.length (osNames (sbTrans (wB w)))) 1); [contradiction|].
    destruct (wKind w) as [s|f|g] eqn:Ek; try reflexivity. specialize (Hp f eq_refl). destruct (qleb_spec f 0); [qlra|reflexivity].
  - intros -> ->. reflexivity.
  - intros Hk -> ->. destruct (wKind w) as [s|f|[g|]] eqn:Ek; try reflexivity; cbn in Hk.
    destruct (qleb_spec f 0); [qlra|reflexivity].
Qed.
Lemma shape_checks_pkg s : (shFun s = None \/ acNBins (sbAxes (shB s)) = 0%nat) -> sh_construct s = (s, Throw LogicError).
Proof.
  intros H. unfold sh_construct. destruct (shFun s); [|reflexivity]. destruct H as [H|H]; [discriminate|]. now rewrite H.
Qed.
Lemma conv_checks_pkg c : (cvDist c = None \/ acNBins (sbAxes (cvB c)) = 0%nat) -> cv_construct c = (c, Throw LogicError).
Proof.
  intros H. unfold cv_construct. destruct (cvDist c); [|reflexivity]. destruct H as [H|H]; [discriminate|]. now rewrite H.
Qed.
Lemma renorm_unset_pkg r : rnScale r = None -> acNBins (sbAxes (rnB r)) <> 0%nat -> snd (rn_construct r) <> Ok tt.
Proof.
  intros H Hn. unfold rn_construct. destruct (Nat.eqb_spec (acNBins (sbAxes (rnB r))) 0); [contradiction|].
  destruct (m_setIdentity _) as [m [[]| | | |]]; rewrite ?H; discriminate.
Qed.

(** * histories: Convolution *)
Definition cv_inv (b0 : sbase) (c : conv) : Prop :=
  sbAxes (cvB c) = sbAxes b0 /\ sbTrans (cvB c) = sbTrans b0 /\ sbDist (cvB c) = sbDist b0 /\
  (cvCached c = true -> cv_cacheOf b0 = Ok (cvSub c, cvNot c, cvPerm c)).
Lemma cv_cache_base b b' : sbAxes b' = sbAxes b -> sbTrans b' = sbTrans b -> sbDist b' = sbDist b -> cv_cacheOf b' = cv_cacheOf b.
Proof. intros E1 E2 E3. unfold cv_cacheOf. now rewrite E1, E2, E3. Qed.
Lemma cv_inv_construct b0 c : cv_inv b0 c -> cv_inv b0 (fst (cv_construct c)).
Proof.
  intros H. pose proof H as [E1 [E2 [E3 E4]]]. unfold cv_construct. destruct (cvDist c) as [k|] eqn:Ek; [|exact H].
  destruct (Nat.eqb _ 0); [exact H|].
  assert (Ec : (if cvCached c then Ok (cvSub c, cvNot c, cvPerm c) else cv_cacheOf (cvB c)) = cv_cacheOf b0).
  { destruct (cvCached c); [now rewrite E4|now apply cv_cache_base]. }
  rewrite Ec. destruct (cv_cacheOf b0) as [[[sub nsub] perm]| | | |] eqn:E0; cbn [obind]; try exact H.
  assert (H1 : forall m, cv_inv b0 (mkConv (sb_setResp (cvB c) m) (Some k) true sub nsub perm)).
  { intros m. unfold cv_inv. cbn. repeat split; try assumption. intros _; exact E0. }
  assert (H2 : cv_inv b0 (mkConv (cvB c) (Some k) true sub nsub perm)).
  { unfold cv_inv. cbn. repeat split; try assumption. intros _; exact E0. }
  destruct (cv_submatrix sub k) as [t| | | |]; cbn [obind]; try exact H2.
  destruct (cv_full _ _ _ _ _) as [m [[]| | | |]]; cbn; first [exact H2|apply H1].
Qed.
Lemma cvrun_inv b0 l : forall c, cv_inv b0 c -> cv_inv b0 (cvrun c l).
Proof. induction l as [|[k|] l IH]; intros c H; cbn; [exact H| |]; apply IH; [exact H|now apply cv_inv_construct]. Qed.
Lemma cv_construct_same b0 c d : cv_inv b0 c -> cv_inv b0 d -> cvDist c = cvDist d ->
  snd (cv_construct c) = snd (cv_construct d) /\
  (snd (cv_construct c) = Ok tt -> sbResp (cvB (fst (cv_construct c))) = sbResp (cvB (fst (cv_construct d)))).
Proof.
  intros [A1 [A2 [A3 A4]]] [B1 [B2 [B3 B4]]] Ed. unfold cv_construct. rewrite <- Ed, A1, B1.
  destruct (cvDist c) as [k|] eqn:Ek; [|split; [reflexivity|discriminate]].
  destruct (Nat.eqb _ 0); [split; [reflexivity|discriminate]|].
  assert (Ec : (if cvCached c then Ok (cvSub c, cvNot c, cvPerm c) else cv_cacheOf (cvB c)) = cv_cacheOf b0).
  { destruct (cvCached c); [now rewrite A4|now apply cv_cache_base]. }
  assert (Ed' : (if cvCached d then Ok (cvSub d, cvNot d, cvPerm d) else cv_cacheOf (cvB d)) = cv_cacheOf b0).
  { destruct (cvCached d); [now rewrite B4|now apply cv_cache_base]. }
  rewrite Ec, Ed'. destruct (cv_cacheOf b0) as [[[sub nsub] perm]| | | |]; cbn [obind]; try (split; [reflexivity|discriminate]).
  destruct (cv_submatrix sub k) as [t| | | |]; cbn [obind]; try (split; [reflexivity|discriminate]).
  destruct (cv_full _ _ _ _ _) as [m [[]| | | |]]; cbn; (split; [reflexivity|]); try discriminate. reflexivity.
Qed.
Lemma conv_history_pkg k0 k b ops :
  let fresh := mkConv b (Some k) false ac_empty ac_empty [] in
  let used := cvrun (mkConv b k0 false ac_empty ac_empty []) (ops ++ [CvDist k]) in
  snd (cv_construct used) = snd (cv_construct fresh) /\
  (snd (cv_construct used) = Ok tt ->
     sbResp (cvB (fst (cv_construct used))) = sbResp (cvB (fst (cv_construct fresh)))).
Proof.
  intros fresh used.
  assert (I0 : forall d, cv_inv b (mkConv b d false ac_empty ac_empty [])).
  { intros d. unfold cv_inv. cbn. repeat split; discriminate. }
  apply (cv_construct_same b).
  - unfold used. apply cvrun_inv. apply I0.
  - apply I0.
  - unfold used, cvrun. rewrite fold_left_app. reflexivity.
Qed.
