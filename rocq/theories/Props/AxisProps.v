(** C01-C05: axes and axis collections. *)
From Verif Require Import Base.Res Base.Num Model.Axis Spec.AxisSpec Proofs.AxisP2.
Local Open Scope Qc_scope.

(** C01. FindBin is in range on every axis; on a gap-free axis it is the bin containing the value,
    the first bin below the range and the last bin at or above the top. *)
Theorem C01_findBin : forall a x, built a ->
  (findBin a x < aNBins a)%nat /\
  (contiguous a ->
    (x < aMin a -> findBin a x = 0%nat) /\
    (aMax a <= x -> findBin a x = (aNBins a - 1)%nat) /\
    (aMin a <= x -> x < aMax a -> forall i, in_bin a i x <-> i = findBin a x)).
Proof. exact findBin_full. Qed.
Print Assumptions C01_findBin.

Theorem C01_findBin_monotone : forall a x y, built a -> contiguous a -> x <= y ->
  (findBin a x <= findBin a y)%nat.
Proof. exact AxisP.findBin_mono. Qed.
Print Assumptions C01_findBin_monotone.

(** The constructor accepts overlapping bins, and on those FindBin can return a bin that does not
    contain the value although another bin does. *)
Theorem C01_overlapping_axis_refuted : exists a x j,
  built a /\ ~ in_bin a (findBin a x) x /\ in_bin a j x.
Proof. exact overlapping_witness. Qed.
Print Assumptions C01_overlapping_axis_refuted.

Definition ex_axis (n : string) (lo hi : Z) (k : nat) : axis :=
  match mk_equal n (qz lo) (qz hi) k "" with Ok a => a | _ => AxisP.axis0 end.
Lemma ex_axis_built n lo hi k : (lo < hi)%Z -> (0 < k)%nat -> built (ex_axis n lo hi k).
Proof.
  intros H Hk. unfold ex_axis. destruct (mk_equal n (qz lo) (qz hi) k "") as [a| | | |] eqn:E;
    [eapply built_equal; exact E|exfalso|exfalso|exfalso|exfalso]; unfold mk_equal in E;
    destruct (qleb_spec (qz hi) (qz lo)) as [C|C];
    try (unfold Qcle in C; rewrite !this_qz, <- Zle_Qle in C; lia);
    destruct (Nat.eqb_spec k 0); try lia; cbn in E; discriminate.
Qed.
Example C01_nonvacuous :
  let a := ex_axis "e" 0 10 5 in
  built a /\ contiguous a /\ aMin a <= qz 4 /\ qz 4 < aMax a /\ findBin a (qz 4) = 2%nat /\
  findBin a (qz 10) = 4%nat /\ findBin a (qz (-3)) = 0%nat.
Proof.
  split; [apply ex_axis_built; lia|]. split.
  - intros [|[|[|[|i]]]] Hi; vm_compute in Hi |- *; try reflexivity; lia.
  - vm_compute. repeat split; congruence.
Qed.

(** C02 *)
Theorem C02_equal_width_axis : forall name mn mx n latex,
  (mk_equal name mn mx n latex = Throw LogicError <-> (mx <= mn \/ n = 0%nat)) /\
  (mn < mx -> n <> 0%nat ->
   exists a, mk_equal name mn mx n latex = Ok a /\ aNBins a = n /\ aName a = name /\
     aMin a = mn /\ aMax a = mx /\ lo_of a 0 = mn /\ hi_of a (n - 1) = mx /\ contiguous a /\
     forall i, (i < n)%nat -> exists l h c w,
       binLow a i = Ok l /\ binHigh a i = Ok h /\ binCentre a i = Ok c /\ binWidth a i = Ok w /\
       w = (mx - mn) / qn n /\ h - l = w /\ c = (l + h) / qz 2).
Proof. exact mk_equal_full. Qed.
Print Assumptions C02_equal_width_axis.

Theorem C02_variable_width_axis : forall name lo hi latex,
  ((exists a, mk_var name lo hi latex = Ok a) <->
   (List.length lo = List.length hi /\ lo <> [] /\
    (forall i, (S i < List.length lo)%nat -> nth i lo 0 <= nth (S i) lo 0) /\
    (forall i, (i < List.length lo)%nat -> nth i lo 0 <= nth i hi 0))) /\
  ((forall a, mk_var name lo hi latex <> Ok a) -> mk_var name lo hi latex = Throw LogicError) /\
  (forall a, mk_var name lo hi latex = Ok a ->
    aNBins a = List.length lo /\ aName a = name /\ aLow a = lo /\ aHigh a = hi /\
    aMin a = lo_of a 0 /\ aMax a = hi_of a (aNBins a - 1) /\
    forall i, (i < List.length lo)%nat ->
      binLow a i = Ok (nth i lo 0) /\ binHigh a i = Ok (nth i hi 0) /\
      binCentre a i = Ok ((nth i lo 0 + nth i hi 0) / qz 2) /\
      binWidth a i = Ok (nth i hi 0 - nth i lo 0)).
Proof. exact mk_var_full. Qed.
Print Assumptions C02_variable_width_axis.

Example C02_nonvacuous :
  (exists a, mk_equal "e" 0 (qz 10) 4 "" = Ok a) /\
  (exists a, mk_var "e" [0; qz 1; qz 4] [qz 1; qz 4; qz 9] "" = Ok a) /\
  mk_var "e" [0; qz 4; qz 1] [qz 1; qz 5; qz 9] "" = Throw LogicError.
Proof. repeat split; try (eexists; reflexivity). Qed.

(** C03 *)
Theorem C03_flatten_bijection : forall ac, ac_reach ac -> acAxes ac <> [] ->
  let shape := map aNBins (acAxes ac) in
  acNBins ac = prod shape /\
  (forall idx, in_shape shape idx ->
     flatten ac idx = Ok (rowmajor shape idx) /\ (rowmajor shape idx < acNBins ac)%nat /\
     unpack ac (rowmajor shape idx) = Ok idx /\
     forall d, (d < List.length shape)%nat -> unflatten ac (rowmajor shape idx) d = Ok (nth d idx 0%nat)) /\
  (forall k, (k < acNBins ac)%nat ->
     exists idx, in_shape shape idx /\ unpack ac k = Ok idx /\ flatten ac idx = Ok k) /\
  (forall i1 i2 k, in_shape shape i1 -> in_shape shape i2 ->
     flatten ac i1 = Ok k -> flatten ac i2 = Ok k -> i1 = i2) /\
  (forall idx, List.length idx <> List.length shape -> flatten ac idx = Throw DimensionError) /\
  (forall k d, (List.length shape <> 1)%nat -> (acNBins ac <= k)%nat -> unflatten ac k d = Throw NotFoundError).
Proof. exact flatten_bijection. Qed.
Print Assumptions C03_flatten_bijection.

Definition ex_ac : axcol :=
  fst (addAxes ac_empty [ex_axis "x" 0 10 2; ex_axis "y" 0 3 3; ex_axis "z" (-1) 1 4]).
Lemma ex_ac_reach : ac_reach ex_ac.
Proof.
  unfold ex_ac. apply ar_adds; [constructor|]. repeat constructor; apply ex_axis_built; lia.
Qed.
Example C03_nonvacuous :
  ac_reach ex_ac /\ acAxes ex_ac <> [] /\ in_shape (map aNBins (acAxes ex_ac)) [1; 2; 3]%nat /\
  flatten ex_ac [1; 0; 2]%nat = Ok 14%nat /\ unpack ex_ac 14 = Ok [1; 0; 2]%nat.
Proof.
  split; [exact ex_ac_reach|]. split; [discriminate|]. split; [repeat constructor|]. split; reflexivity.
Qed.

(** C04 *)
Theorem C04_multidim_findBin : forall ac vals, ac_reach ac -> acAxes ac <> [] ->
  (List.length vals <> List.length (acAxes ac) -> ac_findBin ac vals = Throw DimensionError) /\
  (List.length vals = List.length (acAxes ac) ->
   exists k, ac_findBin ac vals = Ok k /\ (k < acNBins ac)%nat /\
    (forall d a v, nth_error (acAxes ac) d = Some a -> nth_error vals d = Some v ->
      unflatten ac k d = Ok (findBin a v)) /\
    (Forall2 (fun a v => contiguous a /\ aMin a <= v /\ v < aMax a) (acAxes ac) vals ->
     exists los his, binLowEdges ac k = Ok los /\ binHighEdges ac k = Ok his /\
       Forall2 (fun l v => l <= v) los vals /\ Forall2 (fun v h => v < h) vals his)).
Proof. exact ac_findBin_full. Qed.
Print Assumptions C04_multidim_findBin.

Example C04_nonvacuous :
  ac_findBin ex_ac [qz 7; qz 1; 0] = Ok 18%nat /\
  binLowEdges ex_ac 18 = Ok [qz 5; qz 1; 0] /\ binHighEdges ex_ac 18 = Ok [qz 10; qz 2; qq 1 2].
Proof. repeat split; vm_compute; reflexivity. Qed.

(** C05 *)
(** GetAxis(index): the axis at that position, or NotFoundError beyond the last one *)
Theorem C05_get_axis : forall ac i, ac_reach ac ->
  ((i < acNDims ac)%nat -> exists a, getAxis ac i = Ok a /\ nth_error (acAxes ac) i = Some a /\ getAxisIndex ac (aName a) = Ok i) /\
  ((acNDims ac <= i)%nat -> getAxis ac i = Throw NotFoundError).
Proof. exact get_axis_pkg. Qed.
Print Assumptions C05_get_axis.
Theorem C05_axis_names_unique : forall ac, ac_reach ac ->
  NoDup (map aName (acAxes ac)) /\
  acNames ac = map aName (acAxes ac) /\ acNbins ac = map aNBins (acAxes ac) /\
  acNDims ac = List.length (acAxes ac) /\
  acNBins ac = (if Nat.eqb (List.length (acAxes ac)) 0 then 0%nat else prod (map aNBins (acAxes ac))) /\
  (forall n i, getAxisIndex ac n = Ok i <-> exists a, nth_error (acAxes ac) i = Some a /\ aName a = n) /\
  (forall n, (forall i, getAxisIndex ac n <> Ok i) -> getAxisIndex ac n = Throw NotFoundError) /\
  (forall a, built a ->
     if in_dec string_dec (aName a) (map aName (acAxes ac))
     then addAxis ac a = Throw ValueError
     else exists ac', addAxis ac a = Ok ac' /\ acAxes ac' = acAxes ac ++ [a]) /\
  (forall l, Forall built l -> exists p s, l = p ++ s /\ acAxes (fst (addAxes ac l)) = acAxes ac ++ p /\
     match s with
     | [] => snd (addAxes ac l) = Ok tt
     | a :: _ => snd (addAxes ac l) = Throw ValueError /\ In (aName a) (map aName (acAxes ac ++ p))
     end).
Proof. exact ac_names_full. Qed.
Print Assumptions C05_axis_names_unique.

Example C05_nonvacuous : ac_reach ex_ac /\ acNames ex_ac = ["x"; "y"; "z"]%string /\ acNBins ex_ac = 24%nat /\
  addAxis ex_ac (ex_axis "y" 0 1 2) = Throw ValueError.
Proof. split; [exact ex_ac_reach|]. repeat split. Qed.
