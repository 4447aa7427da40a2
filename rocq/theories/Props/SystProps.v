(** C22-C26, C63: response matrices of the systematics. *)
From Verif Require Import Base.Res Base.Num Base.SMap Model.Axis Model.Event Model.Hist Model.Matrix Model.Syst
  Spec.AxisSpec Spec.HistSpec Spec.SystSpec Proofs.SystP3 Proofs.SystP4 Proofs.SystP5 Proofs.SystP6 Proofs.SystP8 Proofs.SystP9
  Props.AxisProps Props.HistProps.
Local Open Scope Qc_scope.

(** ** C22 Shift *)
Lemma shift_inc s a : fine a -> increasing_on (KShift s) a.
Proof. intros [_ H] i Hi. cbn. specialize (H i Hi). qlra. Qed.
Lemma scale_inc f a : 0 < f -> fine a -> increasing_on (KScale f) a.
Proof. intros Hf [_ H] i Hi. cbn. specialize (H i Hi). qnra. Qed.

Theorem C22_shift_response : forall s ac dn tn ax a, targets ac dn tn ax a -> fine a ->
  exists w', w_construct (w_cfg (KShift s) ac dn tn) = (w', Ok tt) /\ square (sbResp (wB w')) (acNBins ac) /\
    (forall I J, in_shape (nshape ac) I -> in_shape (nshape ac) J ->
       let x := lo_of a (nth ax J 0%nat) + s in
       let y := hi_of a (nth ax J 0%nat) + s in
       let e := resp (wB w') (rowmajor (nshape ac) I) (rowmajor (nshape ac) J) in
       (agree_off ax I J -> e = overlap x y (lo_of a (nth ax I 0%nat)) (hi_of a (nth ax I 0%nat)) / (y - x)) /\
       (~ agree_off ax I J -> e = 0) /\ 0 <= e /\ e <= 1) /\
    (forall J, in_shape (nshape ac) J ->
       let x := lo_of a (nth ax J 0%nat) + s in
       let y := hi_of a (nth ax J 0%nat) + s in
       qsum (map (fun i => resp (wB w') i (rowmajor (nshape ac) J)) (seq 0 (acNBins ac))) = frac_inside a x y).
Proof. intros s ac dn tn ax a HT Hf. exact (warp_full_pkg (KShift s) ac dn tn ax a HT Hf I (shift_inc s a Hf)). Qed.
Print Assumptions C22_shift_response.

(** frac_inside is 1 for an interval inside the range and 0 for one outside *)
Theorem C22_fraction_meaning : forall a x y, x < y ->
  (aMin a <= x -> y <= aMax a -> frac_inside a x y = 1) /\
  ((y <= aMin a \/ aMax a <= x) -> frac_inside a x y = 0).
Proof. intros a x y H. split; [exact (frac_inside_1 a x y H)|exact (frac_inside_0 a x y H)]. Qed.
Print Assumptions C22_fraction_meaning.

Theorem C22_zero_shift_identity : forall ac dn tn ax a, targets ac dn tn ax a -> fine a ->
  exists w', w_construct (w_cfg (KShift 0) ac dn tn) = (w', Ok tt) /\ square (sbResp (wB w')) (acNBins ac) /\
    forall i j, (i < acNBins ac)%nat -> (j < acNBins ac)%nat -> resp (wB w') i j = if Nat.eqb i j then 1 else 0.
Proof.
  intros ac dn tn ax a HT Hf. refine (warp_identity_pkg (KShift 0) ac dn tn ax a HT Hf I _). intros x. apply Qcplus_0_r.
Qed.
Print Assumptions C22_zero_shift_identity.

(** applying it to a histogram: the total afterwards, and it is unchanged if every non-empty bin stays inside *)
Theorem C22_shift_total : forall s ac dn tn ax a h, targets ac dn tn ax a -> fine a -> h_reach h -> hAxes h = ac ->
  exists w' h' t, w_construct (w_cfg (KShift s) ac dn tn) = (w', Ok tt) /\
    sys_apply (sbResp (wB w')) h true = Ok (h', Some t) /\ same_axes h h' /\ t = total h' /\
    total h' = qsum (map (fun J => frac_inside a (lo_of a (nth ax J 0%nat) + s) (hi_of a (nth ax J 0%nat) + s) * cont_at h J)
                         (tuples (nshape ac))) /\
    ((forall J, in_shape (nshape ac) J -> cont_at h J <> 0 ->
        aMin a <= lo_of a (nth ax J 0%nat) + s /\ hi_of a (nth ax J 0%nat) + s <= aMax a) ->
     total h' = total h).
Proof. intros s ac dn tn ax a h HT Hf. exact (warp_contents_pkg (KShift s) ac dn tn ax a h HT Hf I (shift_inc s a Hf)). Qed.
Print Assumptions C22_shift_total.

Theorem C22_shift_checks : forall s w, wKind w = KShift s ->
  (List.length (osNames (sbTrans (wB w))) <> 1%nat -> w_construct w = (w, Throw RepresentationError)) /\
  (List.length (osNames (sbTrans (wB w))) = 1%nat -> acNBins (sbAxes (wB w)) = 0%nat -> w_construct w = (w, Throw LogicError)).
Proof.
  intros s w E. destruct (warp_checks_pkg (KShift s) (wB w) w E eq_refl) as [_ [H2 [_ H4]]]. split.
  - apply H2. discriminate.
  - apply H4. exact I.
Qed.
Print Assumptions C22_shift_checks.

Lemma ex_y_fine : fine (ex_axis "y" 0 3 3).
Proof.
  split.
  - intros i Hi. replace (aNBins (ex_axis "y" 0 3 3)) with 3%nat in Hi by reflexivity.
    destruct i as [|[|i]]; [| |lia]; apply Qc_is_canon; vm_compute; reflexivity.
  - intros i Hi. replace (aNBins (ex_axis "y" 0 3 3)) with 3%nat in Hi by reflexivity.
    destruct i as [|[|[|i]]]; [| | |lia]; reflexivity.
Qed.
Lemma ex_y_targets : targets ex_ac ["x"; "y"; "z"]%string "y" 1 (ex_axis "y" 0 3 3).
Proof.
  split; [exact ex_ac_reach|split; [|split; reflexivity]].
  repeat constructor; cbn; intuition discriminate.
Qed.
Example C22_nonvacuous : targets ex_ac ["x"; "y"; "z"]%string "y" 1 (ex_axis "y" 0 3 3) /\ fine (ex_axis "y" 0 3 3) /\
  h_reach ex_h /\ hAxes ex_h = ex_ac /\
  (exists w', w_construct (w_cfg (KShift (qq 1 4)) ex_ac ["x"; "y"; "z"]%string "y") = (w', Ok tt) /\
     resp (wB w') 4 0 = qq 1 4 /\ resp (wB w') 0 0 = qq 3 4 /\ resp (wB w') 1 0 = 0).
Proof.
  split; [exact ex_y_targets|split; [exact ex_y_fine|split; [exact ex_h_reach|split; [reflexivity|]]]].
  eexists. split; [vm_compute; reflexivity|]. repeat split; apply Qc_is_canon; vm_compute; reflexivity.
Qed.

(** ** C23 Scale (about zero) and ScaleFunction *)
Theorem C23_scale_response : forall f ac dn tn ax a, targets ac dn tn ax a -> fine a -> 0 < f ->
  exists w', w_construct (w_cfg (KScale f) ac dn tn) = (w', Ok tt) /\ square (sbResp (wB w')) (acNBins ac) /\
    (forall I J, in_shape (nshape ac) I -> in_shape (nshape ac) J ->
       let x := lo_of a (nth ax J 0%nat) * f in
       let y := hi_of a (nth ax J 0%nat) * f in
       let e := resp (wB w') (rowmajor (nshape ac) I) (rowmajor (nshape ac) J) in
       (agree_off ax I J -> e = overlap x y (lo_of a (nth ax I 0%nat)) (hi_of a (nth ax I 0%nat)) / (y - x)) /\
       (~ agree_off ax I J -> e = 0) /\ 0 <= e /\ e <= 1) /\
    (forall J, in_shape (nshape ac) J ->
       let x := lo_of a (nth ax J 0%nat) * f in
       let y := hi_of a (nth ax J 0%nat) * f in
       qsum (map (fun i => resp (wB w') i (rowmajor (nshape ac) J)) (seq 0 (acNBins ac))) = frac_inside a x y).
Proof. intros f ac dn tn ax a HT Hf H. exact (warp_full_pkg (KScale f) ac dn tn ax a HT Hf H (scale_inc f a H Hf)). Qed.
Print Assumptions C23_scale_response.

Theorem C23_unit_scale_identity : forall ac dn tn ax a, targets ac dn tn ax a -> fine a ->
  exists w', w_construct (w_cfg (KScale 1) ac dn tn) = (w', Ok tt) /\ square (sbResp (wB w')) (acNBins ac) /\
    forall i j, (i < acNBins ac)%nat -> (j < acNBins ac)%nat -> resp (wB w') i j = if Nat.eqb i j then 1 else 0.
Proof.
  intros ac dn tn ax a HT Hf. refine (warp_identity_pkg (KScale 1) ac dn tn ax a HT Hf _ _).
  - reflexivity.
  - intros x. apply Qcmult_1_r.
Qed.
Print Assumptions C23_unit_scale_identity.

Theorem C23_scale_total : forall f ac dn tn ax a h, targets ac dn tn ax a -> fine a -> 0 < f -> h_reach h -> hAxes h = ac ->
  exists w' h' t, w_construct (w_cfg (KScale f) ac dn tn) = (w', Ok tt) /\
    sys_apply (sbResp (wB w')) h true = Ok (h', Some t) /\ same_axes h h' /\ t = total h' /\
    total h' = qsum (map (fun J => frac_inside a (lo_of a (nth ax J 0%nat) * f) (hi_of a (nth ax J 0%nat) * f) * cont_at h J)
                         (tuples (nshape ac))) /\
    ((forall J, in_shape (nshape ac) J -> cont_at h J <> 0 ->
        aMin a <= lo_of a (nth ax J 0%nat) * f /\ hi_of a (nth ax J 0%nat) * f <= aMax a) ->
     total h' = total h).
Proof. intros f ac dn tn ax a h HT Hf H. exact (warp_contents_pkg (KScale f) ac dn tn ax a h HT Hf H (scale_inc f a H Hf)). Qed.
Print Assumptions C23_scale_total.

Theorem C23_scale_checks : forall f w, wKind w = KScale f ->
  (f <= 0 -> w_construct w = (w, Throw ValueError)) /\
  (0 < f -> List.length (osNames (sbTrans (wB w))) <> 1%nat -> w_construct w = (w, Throw RepresentationError)) /\
  (0 < f -> List.length (osNames (sbTrans (wB w))) = 1%nat -> acNBins (sbAxes (wB w)) = 0%nat -> w_construct w = (w, Throw LogicError)).
Proof.
  intros f w E. destruct (warp_checks_pkg (KScale f) (wB w) w E eq_refl) as [H1 [H2 [_ H4]]]. split; [|split].
  - exact (H1 f eq_refl).
  - intros Hf. apply H2. intros f' [= <-]. exact Hf.
  - exact H4.
Qed.
Print Assumptions C23_scale_checks.

(** ScaleFunction: the same, for any function that is increasing across every bin *)
Theorem C23_function_response : forall g ac dn tn ax a, targets ac dn tn ax a -> fine a ->
  (forall i, (i < aNBins a)%nat -> g (lo_of a i) < g (hi_of a i)) ->
  exists w', w_construct (w_cfg (KFunc (Some g)) ac dn tn) = (w', Ok tt) /\ square (sbResp (wB w')) (acNBins ac) /\
    (forall I J, in_shape (nshape ac) I -> in_shape (nshape ac) J ->
       let x := g (lo_of a (nth ax J 0%nat)) in
       let y := g (hi_of a (nth ax J 0%nat)) in
       let e := resp (wB w') (rowmajor (nshape ac) I) (rowmajor (nshape ac) J) in
       (agree_off ax I J -> e = overlap x y (lo_of a (nth ax I 0%nat)) (hi_of a (nth ax I 0%nat)) / (y - x)) /\
       (~ agree_off ax I J -> e = 0) /\ 0 <= e /\ e <= 1) /\
    (forall J, in_shape (nshape ac) J ->
       let x := g (lo_of a (nth ax J 0%nat)) in
       let y := g (hi_of a (nth ax J 0%nat)) in
       qsum (map (fun i => resp (wB w') i (rowmajor (nshape ac) J)) (seq 0 (acNBins ac))) = frac_inside a x y).
Proof. intros g ac dn tn ax a HT Hf H. exact (warp_full_pkg (KFunc (Some g)) ac dn tn ax a HT Hf I H). Qed.
Print Assumptions C23_function_response.

Theorem C23_function_checks : forall g w, wKind w = KFunc g ->
  (List.length (osNames (sbTrans (wB w))) <> 1%nat -> w_construct w = (w, Throw RepresentationError)) /\
  (g = None -> List.length (osNames (sbTrans (wB w))) = 1%nat -> w_construct w = (w, Throw LogicError)) /\
  (g <> None -> List.length (osNames (sbTrans (wB w))) = 1%nat -> acNBins (sbAxes (wB w)) = 0%nat -> w_construct w = (w, Throw LogicError)).
Proof.
  intros g w E. destruct (warp_checks_pkg (KFunc g) (wB w) w E eq_refl) as [_ [H2 [H3 H4]]]. split; [|split].
  - apply H2. discriminate.
  - intros ->. now apply H3.
  - intros Hg. apply H4. destruct g; [exact I|contradiction].
Qed.
Print Assumptions C23_function_checks.

Example C23_nonvacuous :
  (exists w', w_construct (w_cfg (KScale (qq 3 2)) ex_ac ["x"; "y"; "z"]%string "y") = (w', Ok tt) /\
     resp (wB w') 0 0 = qq 2 3 /\ resp (wB w') 4 0 = qq 1 3 /\
     qsum (map (fun i => resp (wB w') i 8%nat) (seq 0 24)) = 0) /\
  (exists w', w_construct (w_cfg (KFunc (Some (fun x => x * x))) ex_ac ["x"; "y"; "z"]%string "y") = (w', Ok tt) /\
     resp (wB w') 4 4 = qq 1 3 /\ resp (wB w') 8 4 = qq 1 3).
Proof.
  split; (eexists; split; [vm_compute; reflexivity|]); repeat split; apply Qc_is_canon; vm_compute; reflexivity.
Qed.

(** ** C24 *)
(** Holds for changes of parameter values and repeated Construct calls on one configuration... *)
Theorem C24_parameter_history_partial : forall k0 k b ops,
  let fresh := mkWarp b k false [] 0 0 (fun _ _ => 0%nat) in
  let used := wrun (mkWarp b k0 false [] 0 0 (fun _ _ => 0%nat)) (ops ++ [WSet k]) in
  snd (w_construct used) = snd (w_construct fresh) /\
  (snd (w_construct used) = Ok tt ->
     sbResp (wB (fst (w_construct used))) = sbResp (wB (fst (w_construct fresh)))).
Proof. exact warp_history_pkg. Qed.
Print Assumptions C24_parameter_history_partial.

Theorem C24_shape_history_partial : forall f0 f ac dn tns rel axs ops, selects ac dn tns rel axs ->
  let fresh := sh_cfg f ac dn tns in
  let used := shrun (sh_cfg f0 ac dn tns) (ops ++ [ShFun f]) in
  snd (sh_construct used) = snd (sh_construct fresh) /\
  (snd (sh_construct used) = Ok tt ->
     forall i j, (i < acNBins ac)%nat -> (j < acNBins ac)%nat ->
     resp (shB (fst (sh_construct used))) i j = resp (shB (fst (sh_construct fresh))) i j).
Proof. exact shape_history_pkg. Qed.
Print Assumptions C24_shape_history_partial.

Theorem C24_convolution_history_partial : forall k0 k b ops,
  let fresh := mkConv b (Some k) false ac_empty ac_empty [] in
  let used := cvrun (mkConv b k0 false ac_empty ac_empty []) (ops ++ [CvDist k]) in
  snd (cv_construct used) = snd (cv_construct fresh) /\
  (snd (cv_construct used) = Ok tt ->
     sbResp (cvB (fst (cv_construct used))) = sbResp (cvB (fst (cv_construct fresh)))).
Proof. exact conv_history_pkg. Qed.
Print Assumptions C24_convolution_history_partial.

(** ...but not when the configuration itself changes after a Construct: the cached bin map is kept. *)
Definition sq_ac : axcol := fst (addAxes ac_empty [ex_axis "x" 0 2 2; ex_axis "y" 0 2 2]).
Definition sx_ac : axcol := fst (addAxes ac_empty [ex_axis "x" 0 2 2; ex_axis "y" 0 3 3]).
Lemma sq_ac_reach : ac_reach sq_ac.
Proof. apply ar_adds; [constructor|]. repeat constructor; apply ex_axis_built; lia. Qed.
Lemma sx_ac_reach : ac_reach sx_ac.
Proof. apply ar_adds; [constructor|]. repeat constructor; apply ex_axis_built; lia. Qed.

(** silently wrong: Shift on "x", Construct, SetTransformationObs("y"), Construct *)
Theorem C24_reconfigured_silently_refuted : exists k ac dn t1 t2,
  ac_reach ac /\
  let used := w_onB (fst (w_construct (w_cfg k ac dn t1))) (fun b => sb_setTrans b (mk_obsset [t2])) in
  let fresh := w_cfg k ac dn t2 in
  sbAxes (wB used) = sbAxes (wB fresh) /\ sbTrans (wB used) = sbTrans (wB fresh) /\ sbDist (wB used) = sbDist (wB fresh) /\
  snd (w_construct used) = Ok tt /\ snd (w_construct fresh) = Ok tt /\
  exists i j, (i < acNBins ac)%nat /\ (j < acNBins ac)%nat /\
    resp (wB (fst (w_construct used))) i j <> resp (wB (fst (w_construct fresh))) i j.
Proof.
  exists (KShift qhalf), sq_ac, ["x"; "y"]%string, "x"%string, "y"%string. split; [exact sq_ac_reach|].
  cbv zeta. repeat (split; [vm_compute; reflexivity|]). exists 2%nat, 0%nat.
  split; [apply Nat.ltb_lt; reflexivity|split; [apply Nat.ltb_lt; reflexivity|]].
  intros C. apply (f_equal (fun q => this q)) in C. vm_compute in C. discriminate.
Qed.
Print Assumptions C24_reconfigured_silently_refuted.

(** a spurious exception: with different bin counts the second Construct throws although a fresh
    systematic with that configuration constructs *)
Theorem C24_reconfigured_throws_refuted : exists k ac dn t1 t2,
  ac_reach ac /\
  let used := w_onB (fst (w_construct (w_cfg k ac dn t1))) (fun b => sb_setTrans b (mk_obsset [t2])) in
  snd (w_construct used) = Throw NotFoundError /\ snd (w_construct (w_cfg k ac dn t2)) = Ok tt.
Proof.
  exists (KShift qhalf), sx_ac, ["x"; "y"]%string, "x"%string, "y"%string. split; [exact sx_ac_reach|].
  split; vm_compute; reflexivity.
Qed.
Print Assumptions C24_reconfigured_throws_refuted.

(** the same for Shape: the second Construct keeps weighting by "x" *)
Theorem C24_reconfigured_shape_refuted : exists f ac dn t1 t2,
  ac_reach ac /\
  let used := sh_onB (fst (sh_construct (sh_cfg f ac dn [t1]))) (fun b => sb_setTrans b (mk_obsset [t2])) in
  let fresh := sh_cfg f ac dn [t2] in
  snd (sh_construct used) = Ok tt /\ snd (sh_construct fresh) = Ok tt /\
  exists i, (i < acNBins ac)%nat /\ resp (shB (fst (sh_construct used))) i i <> resp (shB (fst (sh_construct fresh))) i i.
Proof.
  exists (fun cs => nth 0 cs 0), sq_ac, ["x"; "y"]%string, "x"%string, "y"%string. split; [exact sq_ac_reach|].
  cbv zeta. repeat (split; [vm_compute; reflexivity|]). exists 1%nat. split; [apply Nat.ltb_lt; reflexivity|].
  intros C. apply (f_equal (fun q => this q)) in C. vm_compute in C. discriminate.
Qed.
Print Assumptions C24_reconfigured_shape_refuted.

(** and for Convolution *)
Definition ex_kern : kernel := fun lo hi x => Ok (if qeqb (nth 0 lo 0) 0 then 1 else 0).
Theorem C24_reconfigured_convolution_refuted : exists k ac dn t1 t2,
  ac_reach ac /\
  let used := cv_onB (fst (cv_construct (cv_cfg k ac dn [t1]))) (fun b => sb_setTrans b (mk_obsset [t2])) in
  let fresh := cv_cfg k ac dn [t2] in
  snd (cv_construct used) = Ok tt /\ snd (cv_construct fresh) = Ok tt /\
  exists i j, (i < acNBins ac)%nat /\ (j < acNBins ac)%nat /\
    resp (cvB (fst (cv_construct used))) i j <> resp (cvB (fst (cv_construct fresh))) i j.
Proof.
  exists ex_kern, sq_ac, ["x"; "y"]%string, "x"%string, "y"%string. split; [exact sq_ac_reach|].
  cbv zeta. repeat (split; [vm_compute; reflexivity|]). exists 0%nat, 1%nat.
  split; [apply Nat.ltb_lt; reflexivity|split; [apply Nat.ltb_lt; reflexivity|]].
  intros C. apply (f_equal (fun q => this q)) in C. vm_compute in C. discriminate.
Qed.
Print Assumptions C24_reconfigured_convolution_refuted.

(** ** C25 *)
Theorem C25_shape : forall f ac dn tns rel axs, selects ac dn tns rel axs ->
  ((exists t, in_shape (map aNBins axs) t /\ f (centres axs t) < 0) ->
     snd (sh_construct (sh_cfg f ac dn tns)) = Throw ValueError) /\
  ((forall t, in_shape (map aNBins axs) t -> 0 <= f (centres axs t)) ->
     exists s', sh_construct (sh_cfg f ac dn tns) = (s', Ok tt) /\ square (sbResp (shB s')) (acNBins ac) /\
       (forall J, in_shape (nshape ac) J ->
          resp (shB s') (rowmajor (nshape ac) J) (rowmajor (nshape ac) J) = f (centres axs (at_pos rel J))) /\
       (forall i j, i <> j -> resp (shB s') i j = 0)).
Proof. exact shape_pkg. Qed.
Print Assumptions C25_shape.

Theorem C25_shape_checks : forall s, (shFun s = None \/ acNBins (sbAxes (shB s)) = 0%nat) ->
  sh_construct s = (s, Throw LogicError).
Proof. exact shape_checks_pkg. Qed.
Print Assumptions C25_shape_checks.

Theorem C25_renorm : forall r,
  (acNBins (sbAxes (rnB r)) = 0%nat -> rn_construct r = (r, Throw LogicError)) /\
  (acNBins (sbAxes (rnB r)) <> 0%nat -> forall n, square (sbResp (rnB r)) n -> n <> 0%nat -> forall k, rnScale r = Some k ->
     exists r', rn_construct r = (r', Ok tt) /\ square (sbResp (rnB r')) n /\
       forall i j, resp (rnB r') i j = if Nat.eqb i j then k else 0).
Proof. exact renorm_pkg. Qed.
Print Assumptions C25_renorm.

(** what a diagonal response does to the contents *)
Theorem C25_diagonal_application : forall m h d, h_reach h -> square m (hNBins h) ->
  (forall i j, (i < hNBins h)%nat -> (j < hNBins h)%nat -> sF m i j = if Nat.eqb i j then d i else 0) ->
  exists h' s, sys_apply m h true = Ok (h', Some s) /\ same_axes h h' /\ s = total h' /\
    forall i, (i < hNBins h)%nat -> cont h' i = d i * cont h i.
Proof.
  intros m h d Hr Sq Hd. destruct (sys_apply_pkg m h _ Hr eq_refl Sq) as [h' [s [E [SA [Es [F _]]]]]].
  exists h', s. split; [exact E|split; [exact SA|split; [exact Es|]]]. intros i Hi. rewrite F by exact Hi.
  etransitivity; [|apply (qsum_seq_single (fun j => d j * cont h j) i (hNBins h) 0); lia].
  apply qsum_map_ext. intros j Hj. apply in_seq in Hj. rewrite Hd by lia. rewrite Nat.eqb_sym.
  destruct (Nat.eqb_spec j i) as [->|]; [reflexivity|ring].
Qed.
Print Assumptions C25_diagonal_application.

(** Renorm has no defined factor before SetScaleFactor, even if its fit parameter was set *)
Theorem C25_renorm_unset_factor_refuted : forall r, rnScale r = None -> acNBins (sbAxes (rnB r)) <> 0%nat ->
  snd (rn_construct r) <> Ok tt.
Proof. exact renorm_unset_pkg. Qed.
Print Assumptions C25_renorm_unset_factor_refuted.

Lemma ex_zx_selects : selects ex_ac ["x"; "y"; "z"]%string ["x"; "z"]%string [0; 2]%nat [ex_axis "x" 0 10 2; ex_axis "z" (-1) 1 4].
Proof.
  split; [exact ex_ac_reach|]. repeat split.
  - repeat constructor; cbn; intuition discriminate.
  - repeat constructor; cbn; intuition discriminate.
  - discriminate.
  - repeat constructor.
  - repeat constructor.
Qed.
Example C25_nonvacuous : selects ex_ac ["x"; "y"; "z"]%string ["x"; "z"]%string [0; 2]%nat [ex_axis "x" 0 10 2; ex_axis "z" (-1) 1 4] /\
  (exists s', sh_construct (sh_cfg (fun c => nth 0 c 0 * nth 0 c 0 + nth 1 c 0) ex_ac ["x"; "y"; "z"]%string ["x"; "z"]%string) = (s', Ok tt) /\
     resp (shB s') 23 23 = qq 225 4 + qq 3 4) /\
  snd (sh_construct (sh_cfg (fun c => nth 1 c 0) ex_ac ["x"; "y"; "z"]%string ["x"; "z"]%string)) = Throw ValueError /\
  (exists r', rn_construct (mkRenorm (sb_setAxes sb_new ex_ac) (Some (qz 3))) = (r', Ok tt) /\ resp (rnB r') 7 7 = qz 3).
Proof.
  split; [exact ex_zx_selects|split; [|split]].
  - eexists. split; [vm_compute; reflexivity|]. apply Qc_is_canon; vm_compute; reflexivity.
  - vm_compute; reflexivity.
  - eexists. split; [vm_compute; reflexivity|]. apply Qc_is_canon; vm_compute; reflexivity.
Qed.

(** ** C26.  Proved when the transformed observables are listed in axis order; false otherwise. *)
Theorem C26_convolution_partial : forall k Kf ac dn tns rel axs,
  selects ac dn tns rel axs -> List.length dn = List.length (acAxes ac) -> ascending rel ->
  (forall t u, in_shape (map aNBins axs) t -> in_shape (map aNBins axs) u ->
     k (lows axs t) (highs axs t) (centres axs u) = Ok (Kf t u)) ->
  exists c', cv_construct (cv_cfg k ac dn tns) = (c', Ok tt) /\ square (sbResp (cvB c')) (acNBins ac) /\
    (forall I J, in_shape (nshape ac) I -> in_shape (nshape ac) J ->
       let e := resp (cvB c') (rowmajor (nshape ac) I) (rowmajor (nshape ac) J) in
       (agree_outside rel I J -> e = qmax 0 (Kf (at_pos rel I) (at_pos rel J))) /\
       (~ agree_outside rel I J -> e = 0)) /\
    (forall J, in_shape (nshape ac) J ->
       qsum (map (fun i => resp (cvB c') i (rowmajor (nshape ac) J)) (seq 0 (acNBins ac))) =
       qsum (map (fun t => qmax 0 (Kf t (at_pos rel J))) (tuples (map aNBins axs)))).
Proof. exact conv_pkg. Qed.
Print Assumptions C26_convolution_partial.

Theorem C26_total_partial : forall k Kf ac dn tns rel axs h,
  selects ac dn tns rel axs -> List.length dn = List.length (acAxes ac) -> ascending rel ->
  (forall t u, in_shape (map aNBins axs) t -> in_shape (map aNBins axs) u ->
     k (lows axs t) (highs axs t) (centres axs u) = Ok (Kf t u)) ->
  h_reach h -> hAxes h = ac ->
  exists c' h' s, cv_construct (cv_cfg k ac dn tns) = (c', Ok tt) /\
    sys_apply (sbResp (cvB c')) h true = Ok (h', Some s) /\ same_axes h h' /\ s = total h' /\
    total h' = qsum (map (fun J => qsum (map (fun t => qmax 0 (Kf t (at_pos rel J))) (tuples (map aNBins axs))) * cont_at h J)
                         (tuples (nshape ac))) /\
    ((forall u, in_shape (map aNBins axs) u -> qsum (map (fun t => qmax 0 (Kf t u)) (tuples (map aNBins axs))) <= 1) ->
     (forall J, in_shape (nshape ac) J -> 0 <= cont_at h J) -> total h' <= total h) /\
    ((forall u, in_shape (map aNBins axs) u -> qsum (map (fun t => qmax 0 (Kf t u)) (tuples (map aNBins axs))) = 1) ->
     total h' = total h).
Proof. exact conv_total_pkg. Qed.
Print Assumptions C26_total_partial.

Theorem C26_checks : forall c, (cvDist c = None \/ acNBins (sbAxes (cvB c)) = 0%nat) -> cv_construct c = (c, Throw LogicError).
Proof. exact conv_checks_pkg. Qed.
Print Assumptions C26_checks.

(** both axes transformed, listed in the other order: the sub-matrix index order is not the bin order *)
Definition ex_kern2 : kernel := fun lo hi x =>
  Ok (if qeqb (nth 0 lo 0) 0 && qleb (nth 1 lo 0) (nth 1 x 0) && qltb (nth 1 x 0) (nth 1 hi 0) then 1 else 0).
Definition ex_yx : list axis := [ex_axis "y" 0 3 3; ex_axis "x" 0 2 2].
Lemma ex_yx_selects : selects sx_ac ["x"; "y"]%string ["y"; "x"]%string [1; 0]%nat ex_yx.
Proof.
  split; [exact sx_ac_reach|]. repeat split.
  - repeat constructor; cbn; intuition discriminate.
  - repeat constructor; cbn; intuition discriminate.
  - discriminate.
  - repeat constructor.
  - repeat constructor.
Qed.
Theorem C26_order_refuted : exists k ac dn tns rel axs c' I J v,
  selects ac dn tns rel axs /\ List.length dn = List.length (acAxes ac) /\
  cv_construct (cv_cfg k ac dn tns) = (c', Ok tt) /\
  in_shape (nshape ac) I /\ in_shape (nshape ac) J /\ agree_outside rel I J /\
  k (lows axs (at_pos rel I)) (highs axs (at_pos rel I)) (centres axs (at_pos rel J)) = Ok v /\ 0 <= v /\
  resp (cvB c') (rowmajor (nshape ac) I) (rowmajor (nshape ac) J) <> v.
Proof.
  exists ex_kern2, sx_ac, ["x"; "y"]%string, ["y"; "x"]%string, [1; 0]%nat, ex_yx,
    (fst (cv_construct (cv_cfg ex_kern2 sx_ac ["x"; "y"]%string ["y"; "x"]%string))), [1; 0]%nat, [1; 0]%nat, 1.
  split; [exact ex_yx_selects|split; [reflexivity|split; [vm_compute; reflexivity|]]].
  assert (HI : in_shape (nshape sx_ac) [1; 0]%nat).
  { change (nshape sx_ac) with [2; 3]%nat. repeat constructor. }
  split; [exact HI|split; [exact HI|split; [intros k _; reflexivity|split; [vm_compute; reflexivity|split; [discriminate|]]]]].
  intros C. apply (f_equal (fun q => this q)) in C. vm_compute in C. discriminate.
Qed.
Print Assumptions C26_order_refuted.

(** a proper subset listed out of axis order is rejected by Armadillo for this 2x3x4 grid *)
Theorem C26_subset_order_refuted : exists k tns rel axs,
  selects ex_ac ["x"; "y"; "z"]%string tns rel axs /\
  (forall t u, exists v, k (lows axs t) (highs axs t) (centres axs u) = Ok v) /\
  snd (cv_construct (cv_cfg k ex_ac ["x"; "y"; "z"]%string tns)) = Throw std_logic_error.
Proof.
  exists ex_kern2, ["z"; "x"]%string, [2; 0]%nat, [ex_axis "z" (-1) 1 4; ex_axis "x" 0 10 2].
  split; [|split; [|vm_compute; reflexivity]].
  - split; [exact ex_ac_reach|]. repeat split.
    + repeat constructor; cbn; intuition discriminate.
    + repeat constructor; cbn; intuition discriminate.
    + discriminate.
    + repeat constructor.
    + repeat constructor.
  - intros t u. eexists. reflexivity.
Qed.
Print Assumptions C26_subset_order_refuted.

Example C26_nonvacuous :
  selects ex_ac ["x"; "y"; "z"]%string ["x"; "z"]%string [0; 2]%nat [ex_axis "x" 0 10 2; ex_axis "z" (-1) 1 4] /\
  ascending [0; 2]%nat /\
  exists c', cv_construct (cv_cfg ex_kern2 ex_ac ["x"; "y"; "z"]%string ["x"; "z"]%string) = (c', Ok tt) /\
    resp (cvB c') 5 17 = 1 /\ resp (cvB c') 5 13 = 0 /\ resp (cvB c') 1 17 = 0.
Proof.
  split; [exact ex_zx_selects|split].
  - intros i j [H1 H2]. cbn in H2. assert (i = 0%nat /\ j = 1%nat) as [-> ->] by lia. cbn. lia.
  - eexists. split; [vm_compute; reflexivity|]. repeat split; apply Qc_is_canon; vm_compute; reflexivity.
Qed.

(** ** C63 *)
Theorem C63_symmetric : forall m n inp, square m n ->
  (List.length inp <> tri n -> m_setSymmetric m inp = (m, Throw DimensionError)) /\
  (List.length inp = tri n -> exists m', m_setSymmetric m inp = (m', Ok tt) /\ square m' n /\
     forall j k, (k <= j < n)%nat ->
       m_get m' j k = Ok (nth (tri j + k) inp 0) /\ m_get m' k j = Ok (nth (tri j + k) inp 0)).
Proof. exact symmetric_pkg. Qed.
Print Assumptions C63_symmetric.
Theorem C63_non_square : forall m inp, sNR m <> sNC m -> m_setSymmetric m inp = (m, Throw DimensionError).
Proof. exact symmetric_nonsquare_pkg. Qed.
Print Assumptions C63_non_square.
Theorem C63_product : forall m o v, sC m = sR o -> List.length v = sC o ->
  exists p ov out, m_mul m o = (p, Ok tt) /\ m_apply o v = Ok ov /\ m_apply m ov = Ok out /\ m_apply p v = Ok out.
Proof. exact product_pkg. Qed.
Print Assumptions C63_product.
Theorem C63_product_mismatch : forall m o, sC m <> sR o -> m_mul m o = (m, Throw std_logic_error).
Proof. exact product_mismatch_pkg. Qed.
Print Assumptions C63_product_mismatch.
(** operator* overwrites its left operand *)
Theorem C63_product_changes_operand : exists m o v, square m 2 /\ square o 2 /\
  m_apply (fst (m_mul m o)) v <> m_apply m v.
Proof. exact product_overwrites. Qed.
Print Assumptions C63_product_changes_operand.
Example C63_nonvacuous : exists m', m_setSymmetric (mat_zeros 3 3) (map qn (seq 1 6)) = (m', Ok tt) /\
  m_get m' 2 1 = Ok (qz 5) /\ m_get m' 1 2 = Ok (qz 5) /\ m_get m' 2 0 = Ok (qz 4) /\ m_get m' 2 2 = Ok (qz 6).
Proof. eexists. split; [vm_compute; reflexivity|]. repeat split; vm_compute; reflexivity. Qed.
