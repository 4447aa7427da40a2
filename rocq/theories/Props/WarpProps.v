(** C112: a ScaleFunction with any function. *)
From Coq Require Import Lia.
From Verif Require Import Base.Res Base.Num Base.SMap Model.Axis Model.Event Model.Hist Model.Matrix Model.Syst
  Spec.AxisSpec Spec.HistSpec Spec.SystSpec Spec.WarpSpec Proofs.AxisP Proofs.HistP Proofs.HistP2 Proofs.SystP3 Proofs.SystP4 Proofs.WarpP
  Props.AxisProps Props.HistProps Props.SystProps.
Local Open Scope Qc_scope.

(** The response for any function whatever: which part of a bin goes where, and which part is kept. *)
Theorem C112_response : forall g ac dn tn ax a, targets ac dn tn ax a -> fine a ->
  exists w', w_construct (w_cfg (KFunc (Some g)) ac dn tn) = (w', Ok tt) /\ square (sbResp (wB w')) (acNBins ac) /\
    (forall I J, in_shape (nshape ac) I -> in_shape (nshape ac) J ->
       let x := g (lo_of a (nth ax J 0%nat)) in
       let y := g (hi_of a (nth ax J 0%nat)) in
       let e := resp (wB w') (rowmajor (nshape ac) I) (rowmajor (nshape ac) J) in
       (agree_off ax I J -> moved a (nth ax I 0%nat) x y e) /\ (~ agree_off ax I J -> e = 0)) /\
    (forall J, in_shape (nshape ac) J ->
       let x := g (lo_of a (nth ax J 0%nat)) in
       let y := g (hi_of a (nth ax J 0%nat)) in
       kept_part a x y (qsum (map (fun i => resp (wB w') i (rowmajor (nshape ac) J)) (seq 0 (acNBins ac))))).
Proof. intros g ac dn tn ax a HT Hf. exact (any_pkg (KFunc (Some g)) ac dn tn ax a HT Hf I). Qed.
Print Assumptions C112_response.

(** C112.  Content is conserved if the function takes every filled bin into the axis range in order, or into one bin.
    Missing: a filled bin whose image lies in range but reversed across a bin edge (C112_reversed_refuted). *)
Theorem C112_conserved_partial : forall g ac dn tn ax a h, targets ac dn tn ax a -> fine a -> h_reach h -> hAxes h = ac ->
  (forall J, in_shape (nshape ac) J -> cont_at h J <> 0 ->
     let x := g (lo_of a (nth ax J 0%nat)) in
     let y := g (hi_of a (nth ax J 0%nat)) in
     (x < y /\ aMin a <= x /\ y <= aMax a) \/ (y <= x /\ exists t, (t < aNBins a)%nat /\ both_in a t x y)) ->
  exists w' h' s, w_construct (w_cfg (KFunc (Some g)) ac dn tn) = (w', Ok tt) /\ sys_apply (sbResp (wB w')) h true = Ok (h', Some s) /\
    same_axes h h' /\ s = total h' /\ total h' = total h.
Proof. intros g ac dn tn ax a h HT Hf. exact (conserved_pkg (KFunc (Some g)) ac dn tn ax a h HT Hf I). Qed.
Print Assumptions C112_conserved_partial.

(** a function that reverses the filled bins, none of them within one bin, loses everything, in range or not *)
Theorem C112_reversed : forall g ac dn tn ax a h, targets ac dn tn ax a -> fine a -> h_reach h -> hAxes h = ac ->
  (forall J, in_shape (nshape ac) J -> cont_at h J <> 0 ->
     let x := g (lo_of a (nth ax J 0%nat)) in
     let y := g (hi_of a (nth ax J 0%nat)) in
     y <= x /\ forall t, (t < aNBins a)%nat -> ~ both_in a t x y) ->
  exists w' h', w_construct (w_cfg (KFunc (Some g)) ac dn tn) = (w', Ok tt) /\ sys_apply (sbResp (wB w')) h true = Ok (h', Some 0) /\
    same_axes h h' /\ total h' = 0.
Proof. intros g ac dn tn ax a h HT Hf. exact (lost_pkg (KFunc (Some g)) ac dn tn ax a h HT Hf I). Qed.
Print Assumptions C112_reversed.

Definition ex_mirror (x : Qc) : Qc := qq 5 2 - x.
(** 2 x 3 x 4 bins; the first two bins of the middle axis [0,3] hold 5 and 7 *)
Definition ex_hw : hist := fst (setBinContent (fst (setBinContent (mk_hist ex_ac) 0 (qz 5))) 4 (qz 7)).
Lemma ex_hw_reach : h_reach ex_hw.
Proof. apply hr_setBin, hr_setBin, hr_new; [exact ex_ac_reach|discriminate]. Qed.
Definition ex_run (g : Qc -> Qc) (test : Qc -> hist -> bool) : bool :=
  match w_construct (w_cfg (KFunc (Some g)) ex_ac ["x"; "y"; "z"]%string "y") with
  | (w', Ok tt) => match sys_apply (sbResp (wB w')) ex_hw true with Ok (h', Some s) => test s h' | _ => false end
  | _ => false
  end.
Lemma ex_mirror_check : ex_run ex_mirror (fun s h' => qeqb s 0 && qeqb (total h') 0) = true.
Proof. vm_compute. reflexivity. Qed.
Lemma ex_const_check : ex_run (fun _ => qq 3 2) (fun _ h' => qeqb (cont h' 4) (qz 12) && qeqb (cont h' 0) 0) = true.
Proof. vm_compute. reflexivity. Qed.
Theorem C112_reversed_refuted : exists g ac dn tn ax a h, targets ac dn tn ax a /\ fine a /\ h_reach h /\ hAxes h = ac /\
  (forall J, in_shape (nshape ac) J -> cont_at h J <> 0 ->
     aMin a <= g (lo_of a (nth ax J 0%nat)) <= aMax a /\ aMin a <= g (hi_of a (nth ax J 0%nat)) <= aMax a) /\
  total h = qz 12 /\
  exists w' h', w_construct (w_cfg (KFunc (Some g)) ac dn tn) = (w', Ok tt) /\ sys_apply (sbResp (wB w')) h true = Ok (h', Some 0) /\ total h' = 0.
Proof.
  exists ex_mirror, ex_ac, ["x"; "y"; "z"]%string, "y"%string, 1%nat, (ex_axis "y" 0 3 3), ex_hw.
  split; [exact ex_y_targets|]. split; [exact ex_y_fine|]. split; [exact ex_hw_reach|]. split; [reflexivity|].
  split.
  - intros J HJ Hc. apply in_tuples in HJ. revert J HJ Hc.
    assert (G : forallb (fun J => qeqb (cont_at ex_hw J) 0 ||
      (qleb (aMin (ex_axis "y" 0 3 3)) (ex_mirror (lo_of (ex_axis "y" 0 3 3) (nth 1 J 0%nat))) &&
       qleb (ex_mirror (lo_of (ex_axis "y" 0 3 3) (nth 1 J 0%nat))) (aMax (ex_axis "y" 0 3 3)) &&
       qleb (aMin (ex_axis "y" 0 3 3)) (ex_mirror (hi_of (ex_axis "y" 0 3 3) (nth 1 J 0%nat))) &&
       qleb (ex_mirror (hi_of (ex_axis "y" 0 3 3) (nth 1 J 0%nat))) (aMax (ex_axis "y" 0 3 3))))%bool (tuples (nshape ex_ac)) = true) by (vm_compute; reflexivity).
    intros J HJ Hc. rewrite forallb_forall in G. specialize (G J HJ).
    destruct (qeqb (cont_at ex_hw J) 0) eqn:Z; [apply qeqb_eq in Z; contradiction|]. cbn [orb] in G.
    repeat (apply andb_prop in G as [G ?]). repeat split; apply qleb_le; assumption.
  - split; [apply Qc_is_canon; vm_compute; reflexivity|].
    pose proof ex_mirror_check as X. unfold ex_run in X.
    destruct (w_construct (w_cfg (KFunc (Some ex_mirror)) ex_ac ["x"; "y"; "z"]%string "y")) as [w' [[]| | | |]]; try discriminate. exists w'.
    destruct (sys_apply (sbResp (wB w')) ex_hw true) as [[h' [s|]]| | | |]; try discriminate. apply andb_prop in X as [X2 X3].
    apply qeqb_eq in X2. apply qeqb_eq in X3. exists h'. subst s. split; [reflexivity|]. split; [reflexivity|exact X3].
Qed.
Print Assumptions C112_reversed_refuted.

(** a constant function puts everything in one bin; a reversing one keeps what it leaves within a bin *)
Example C112_nonvacuous :
  targets ex_ac ["x"; "y"; "z"]%string "y" 1 (ex_axis "y" 0 3 3) /\ fine (ex_axis "y" 0 3 3) /\ h_reach ex_hw /\ hAxes ex_hw = ex_ac /\
  both_in (ex_axis "y" 0 3 3) 1 (qq 3 2) (qq 3 2) /\ ~ both_in (ex_axis "y" 0 3 3) 1 (qq 5 2) (qq 3 2) /\ both_in (ex_axis "y" 0 3 3) 2 (qz 3) (qz 2) /\
  (exists w' h' s, w_construct (w_cfg (KFunc (Some (fun _ => qq 3 2))) ex_ac ["x"; "y"; "z"]%string "y") = (w', Ok tt) /\
     sys_apply (sbResp (wB w')) ex_hw true = Ok (h', Some s) /\ cont h' 4 = qz 12 /\ cont h' 0 = 0).
Proof.
  split; [exact ex_y_targets|]. split; [exact ex_y_fine|]. split; [exact ex_hw_reach|]. split; [reflexivity|].
  split; [split; [vm_compute; discriminate|left; vm_compute; reflexivity]|].
  split; [intros [_ [C|[C _]]]; [vm_compute in C; discriminate|apply (f_equal this) in C; vm_compute in C; discriminate]|].
  split; [split; [vm_compute; discriminate|right; split; [apply Qc_is_canon; vm_compute; reflexivity|reflexivity]]|].
  pose proof ex_const_check as X. unfold ex_run in X.
  destruct (w_construct (w_cfg (KFunc (Some (fun _ => qq 3 2))) ex_ac ["x"; "y"; "z"]%string "y")) as [w' [[]| | | |]]; try discriminate. exists w'.
  destruct (sys_apply (sbResp (wB w')) ex_hw true) as [[h' [s|]]| | | |]; try discriminate. apply andb_prop in X as [X2 X3].
  apply qeqb_eq in X2. apply qeqb_eq in X3. exists h', s. split; [reflexivity|]. split; [reflexivity|]. split; assumption.
Qed.
