(** C51, C52, C78 *)
From Coq Require Import ZArith.
From Verif Require Import Base.Res Base.Num Base.SMap Model.Axis Model.Hist Model.Param Model.Gauss Spec.GaussSpec Proofs.GaussP Proofs.GaussP2 Proofs.GaussP3 Proofs.GaussP4 Proofs.GaussP5 Proofs.GaussP6.
Local Open Scope Qc_scope.
Local Open Scope res_scope.

(** ** C51 *)
Theorem C51_sizes (g : gauss) : g_reach g -> sized g.
Proof. exact (reach_sized g). Qed.
Print Assumptions C51_sizes.
Theorem C51_default_names_differ (m s : list Qc) (name : string) (g : gauss) : newGauss m s name = Ok g -> NoDup (gNames g).
Proof. exact (default_names m s name g). Qed.
Print Assumptions C51_default_names_differ.
Theorem C51_set_changes_exactly_the_named (n : string) (v : Qc) (g : gauss) : sized g ->
  exists g', gSet n v g = Ok g' /\ set_effect n v g g' /\ sized g'.
Proof. exact (set_pkg n v g). Qed.
Print Assumptions C51_set_changes_exactly_the_named.
Theorem C51_set_all (d : smap Qc) (g : gauss) : NoDup (skeys d) -> sized g ->
  exists g', gSetAll d g = Ok g' /\ set_all_effect d g g' /\ sized g'.
Proof. exact (fun H => setAll_pkg d H g). Qed.
Print Assumptions C51_set_all.
Theorem C51_read_back_all (n : string) (v : Qc) (g : gauss) : sized g ->
  exists g' d d', gSet n v g = Ok g' /\ gGetAll g = Ok d /\ gGetAll g' = Ok d' /\
    (In n (gNames g) -> sfind n d' = Some v) /\ (forall m, m <> n -> sfind m d' = sfind m d).
Proof. exact (readback_pkg n v g). Qed.
Print Assumptions C51_read_back_all.
(** an unknown name is silently ignored *)
Theorem C51_unknown_ignored (n : string) (v : Qc) (g : gauss) : sized g -> ~ In n (gNames g) -> gSet n v g = Ok g.
Proof. exact (unknown_pkg n v g). Qed.
Print Assumptions C51_unknown_ignored.
(** GetParameter works for the first dimension's parameters only *)
Theorem C51_get_partial (n : string) (g : gauss) : sized g -> (0 < gND g)%nat -> (Z.of_nat (gND g) < 2 ^ 63)%Z ->
  (mean_name g 0 = n -> gGet n g = Ok (mean_of g 0)) /\
  (~ In n (gMN g) -> std_name g 0 = n -> gGet n g = Ok (std_of g 0)) /\
  (~ In n (gNames g) -> gGet n g = Throw NotFoundError).
Proof. exact (fun A B C => let '(conj X (conj Y (conj Z _))) := get_pkg n g A B C in conj X (conj Y Z)). Qed.
Print Assumptions C51_get_partial.
Theorem C51_get_refuted (n : string) (g : gauss) : sized g -> (Z.of_nat (gND g) < 2 ^ 63)%Z ->
  (forall i, (0 < i < gND g)%nat -> mean_name g i = n -> (forall j, (j < i)%nat -> mean_name g j <> n) -> gGet n g = Throw NotFoundError) /\
  (forall i, (0 < i < gND g)%nat -> ~ In n (gMN g) -> std_name g i = n -> (forall j, (j < i)%nat -> std_name g j <> n) -> gGet n g = Throw NotFoundError).
Proof. exact (get_refuted_pkg n g). Qed.
Print Assumptions C51_get_refuted.
Theorem C51_rename (old new : string) (g : gauss) : sized g ->
  (~ In old (gNames g) -> forall fuel, gRename fuel old new g = Throw NotFoundError) /\
  (In old (gNames g) -> old <> new -> exists N, forall fuel, (N <= fuel)%nat -> exists g', gRename fuel old new g = Ok g' /\
     gName g' = gName g /\ gCut g' = gCut g /\ gND g' = gND g /\ gMeans g' = gMeans g /\ gStds g' = gStds g /\
     gMN g' = map (fun x => if String.eqb x old then new else x) (gMN g) /\
     gSN g' = map (fun x => if String.eqb x old then new else x) (gSN g)).
Proof. exact (rename_stmt_pkg old new g). Qed.
Print Assumptions C51_rename.
(** renaming a parameter to its own name never terminates *)
Theorem C51_rename_to_itself_refuted (x : string) (g : gauss) : In x (gNames g) -> forall fuel, gRename fuel x x g = Diverge.
Proof. exact (fun H fuel => rename_same_pkg x g fuel H). Qed.
Print Assumptions C51_rename_to_itself_refuted.

(** ** C52 *)
Theorem C52_cdf (U : Qc -> Qc) (g : gauss) (i : nat) : cdf_like U -> sized g -> (i < gND g)%nat -> 0 < std_of g i ->
  exists F, (forall x, gCdf U g i x = Ok (F x)) /\ (forall x, 0 <= F x /\ F x <= 1) /\ (forall x y, x <= y -> F x <= F y) /\
    (forall x, mean_of g i + gCut g * std_of g i < x -> F x = 1) /\
    (0 <= gCut g -> forall x, x < mean_of g i - gCut g * std_of g i -> F x = 0).
Proof. exact (cdf_pkg U g i). Qed.
Print Assumptions C52_cdf.
Theorem C52_integral_is_a_probability (U : Qc -> Qc) (g : gauss) (lo hi : list Qc) : cdf_like U -> sized g -> positive_widths g -> a_box (gND g) lo hi ->
  exists p, gIntegral U g lo hi = Ok p /\ 0 <= p /\ p <= 1 /\ ((exists i, (i < gND g)%nat /\ nth i lo 0 = nth i hi 0) -> p = 0).
Proof. exact (integral_pkg U g lo hi). Qed.
Print Assumptions C52_integral_is_a_probability.
Theorem C52_monotone (U : Qc -> Qc) (g : gauss) (lo hi lo' hi' : list Qc) : cdf_like U -> sized g -> positive_widths g ->
  a_box (gND g) lo hi -> a_box (gND g) lo' hi' -> box_within (gND g) lo hi lo' hi' ->
  exists p p', gIntegral U g lo hi = Ok p /\ gIntegral U g lo' hi' = Ok p' /\ p <= p'.
Proof. exact (integral_mono_pkg U g lo hi lo' hi'). Qed.
Print Assumptions C52_monotone.
(** [upd l j c] is l with c at position j *)
Theorem C52_additive (U : Qc -> Qc) (g : gauss) (lo hi : list Qc) (j : nat) (c : Qc) : sized g -> positive_widths g ->
  List.length lo = gND g -> List.length hi = gND g -> (j < gND g)%nat ->
  exists p p1 p2, gIntegral U g lo hi = Ok p /\ gIntegral U g lo (upd hi j c) = Ok p1 /\ gIntegral U g (upd lo j c) hi = Ok p2 /\ p = p1 + p2.
Proof. exact (integral_split_pkg U g lo hi j c). Qed.
Print Assumptions C52_additive.
(** it is the product over the dimensions of the differences of Cdf *)
Theorem C52_product (U : Qc -> Qc) (g : gauss) (lo hi : list Qc) : sized g -> positive_widths g -> List.length lo = gND g -> List.length hi = gND g ->
  exists fs, List.length fs = gND g /\ gIntegral U g lo hi = Ok (fold_right Qcmult 1 fs) /\
    forall i, (i < gND g)%nat -> exists a b, gCdf U g i (nth i lo 0) = Ok a /\ gCdf U g i (nth i hi 0) = Ok b /\ nth i fs 0 = b - a.
Proof. exact (product_pkg U g lo hi). Qed.
Print Assumptions C52_product.
Theorem C52_dimensions (U : Qc -> Qc) (g : gauss) (lo hi : list Qc) : List.length lo <> gND g \/ List.length hi <> gND g -> gIntegral U g lo hi = Throw DimensionError.
Proof. exact (dim_pkg U g lo hi). Qed.
Print Assumptions C52_dimensions.
(** the constructor insists on positive widths ... *)
Theorem C52_constructor (m s : list Qc) (name : string) :
  (List.length m <> List.length s -> newGauss m s name = Throw DimensionError) /\
  (List.length m = List.length s -> (exists x, In x s /\ x <= 0) -> newGauss m s name = Throw ValueError) /\
  (List.length m = List.length s -> (forall x, In x s -> 0 < x) -> exists g, newGauss m s name = Ok g /\ gND g = List.length m /\
     gMeans g = m /\ gStds g = s /\ gCut g = qz 6 /\ positive_widths g).
Proof. exact (new_pkg m s name). Qed.
Print Assumptions C52_constructor.
(** the n-dimensional standard Gaussian: in every dimension mean 0, width 1, and the distribution function U cut off at six widths *)
Theorem C52_standard (U : Qc -> Qc) (n : nat) (name : string) : exists g, newGaussN n name = Ok g /\ gND g = n /\ positive_widths g /\
  forall i, (i < n)%nat -> mean_of g i = 0 /\ std_of g i = 1 /\ forall x,
    gCdf U g i x = Ok (if qltb (qz 6) x then 1 else if qltb x (- qz 6) then 0 else U x).
Proof. exact (standard_pkg U n name). Qed.
Print Assumptions C52_standard.
(** ... but SetParameter does not: afterwards the integral can be negative *)
Theorem C52_negative_width_refuted : exists g g' U lo hi p, newGauss [0] [1] ""%string = Ok g /\ gSet "stddevs_0"%string (- (1)) g = Ok g' /\
  cdf_like U /\ a_box 1 lo hi /\ gIntegral U g' lo hi = Ok p /\ p < 0.
Proof. exact negative_pkg. Qed.
Print Assumptions C52_negative_width_refuted.

(** ** C78 *)
(** JumpPDF depends on the differences x - x2 only *)
Theorem C78_jump_translation (U : Qc -> Qc) (g : gauss) (mins maxs x2 d : list Qc) :
  List.length mins = List.length x2 -> List.length maxs = List.length x2 -> List.length d = List.length x2 ->
  jIntegral U (Some g) (translate mins d) (translate maxs d) (translate x2 d) = jIntegral U (Some g) mins maxs x2.
Proof. exact (fun A B => proj1 (jump_pkg U g mins maxs x2 A B) d). Qed.
Print Assumptions C78_jump_translation.
Theorem C78_jump_is_shifted_integral (U : Qc -> Qc) (g : gauss) (mins maxs x2 : list Qc) : List.length mins = List.length x2 -> List.length maxs = List.length x2 ->
  exists lo hi, (forall i, (i < List.length x2)%nat -> nth i lo 0 = nth i mins 0 - nth i x2 0 /\ nth i hi 0 = nth i maxs 0 - nth i x2 0) /\
    List.length lo = List.length x2 /\ List.length hi = List.length x2 /\ jIntegral U (Some g) mins maxs x2 = gIntegral U g lo hi.
Proof. exact (fun A B => proj2 (jump_pkg U g mins maxs x2 A B)). Qed.
Print Assumptions C78_jump_is_shifted_integral.
Theorem C78_jump_is_a_probability (U : Qc -> Qc) (g : gauss) (mins maxs x2 : list Qc) : cdf_like U -> sized g -> positive_widths g ->
  List.length x2 = gND g -> a_box (gND g) mins maxs -> exists p, jIntegral U (Some g) mins maxs x2 = Ok p /\ 0 <= p /\ p <= 1.
Proof. exact (jump_unit U g mins maxs x2). Qed.
Print Assumptions C78_jump_is_a_probability.
Theorem C78_jump_unset (U : Qc -> Qc) (mins maxs x2 : list Qc) : jIntegral U None mins maxs x2 = Throw NULLPointerAccessError.
Proof. exact eq_refl. Qed.
Print Assumptions C78_jump_unset.
(** VaryingCDF: the kernel's parameters at x2 are the functions' values there, the others are untouched, and no evaluation influences a later one *)
Theorem C78_varying (U : Qc -> Qc) (fns : smap (list Qc -> res Qc)) (k : gauss) (mins maxs x2 : list Qc) (k1 : gauss) (v1 : Qc) :
  swf fns -> sized k -> vIntegral U fns k mins maxs x2 = Ok (k1, v1) ->
  sized k1 /\
  (forall i, (i < gND k)%nat -> match sfind (mean_name k i) fns with Some f => f x2 = Ok (mean_of k1 i) | None => mean_of k1 i = mean_of k i end) /\
  (forall i, (i < gND k)%nat -> match sfind (std_name k i) fns with Some f => f x2 = Ok (std_of k1 i) | None => std_of k1 i = std_of k i end) /\
  jIntegral U (Some k1) mins maxs x2 = Ok v1 /\
  (forall mins' maxs' x2', vIntegral U fns k1 mins' maxs' x2' = vIntegral U fns k mins' maxs' x2').
Proof. exact (varying_pkg U fns k mins maxs x2 k1 v1). Qed.
Print Assumptions C78_varying.

(** non-vacuity *)
Lemma ex_g2_new : newGauss [1; qz 2] [qz 3; qhalf] "g"%string = Ok ex_g2.
Proof. vm_compute. reflexivity. Qed.
Example C51_nonvacuous : g_reach ex_g2 /\ gND ex_g2 = 2%nat /\ In "means_1"%string (gNames ex_g2) /\
  gGet "means_0"%string ex_g2 = Ok 1 /\ (exists g', gSet "means_1"%string (qz 7) ex_g2 = Ok g' /\ gGet "means_1"%string g' = Throw NotFoundError) /\
  (exists g', gRename 5 "stddevs_1"%string "width"%string ex_g2 = Ok g' /\ std_name g' 1 = "width"%string).
Proof.
  split; [exact (gr_new _ _ _ _ ex_g2_new)|]. split; [reflexivity|]. split; [vm_compute; tauto|]. split; [vm_compute; reflexivity|]. split.
  - eexists. split; [vm_compute; reflexivity|vm_compute; reflexivity].
  - eexists. split; [vm_compute; reflexivity|vm_compute; reflexivity].
Qed.
Example C52_nonvacuous : cdf_like ex_U /\ sized ex_g2 /\ positive_widths ex_g2 /\ a_box 2 [0; 1] [qz 2; qz 4] /\ box_within 2 [1; 1] [qz 2; qz 4] [0; 1] [qz 2; qz 4].
Proof. exact nonvac_pkg. Qed.
Example C78_nonvacuous : exists v, vIntegral ex_U (sset "stddevs_0"%string (fun x => Ok (1 + nth 0 x 0)) sempty) ex_g2 [0; 1] [qz 9; qz 9] [qz 2; 1] = Ok v.
Proof. eexists. vm_compute. reflexivity. Qed.
