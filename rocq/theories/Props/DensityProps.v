(** C86 *)
From Coq Require Import Reals.
From Verif Require Import Base.Res Base.Num Base.RNum Base.SMap Model.Axis Model.Hist Model.Gauss Model.Density Spec.GaussSpec Spec.DensitySpec Proofs.GaussP Proofs.DensityP Props.SmearProps.
Local Open Scope R_scope.

(** the product over the dimensions of the normal densities *)
Theorem C86_density (g : gauss) (x : list Qc) : sized g -> positive_widths g -> List.length x = gND g -> gDensity g x = Ok (density_at g (coord x)).
Proof. exact (density_pkg g x). Qed.
Print Assumptions C86_density.
(** positive, and smaller further from the mean *)
Theorem C86_order (g : gauss) (x y : list Qc) : sized g -> positive_widths g -> List.length x = gND g -> List.length y = gND g -> no_further g x y ->
  exists dx dy, gDensity g x = Ok dx /\ gDensity g y = Ok dy /\ 0 < dy <= dx /\
    (dy = dx <-> forall i, (i < gND g)%nat -> Rabs (coord x i - qr (mean_of g i)) = Rabs (coord y i - qr (mean_of g i))).
Proof. exact (order_pkg g x y). Qed.
Print Assumptions C86_order.
(** greatest at the mean and nowhere else *)
Theorem C86_maximum (g : gauss) (x : list Qc) : sized g -> positive_widths g -> List.length x = gND g ->
  exists d top, gDensity g x = Ok d /\ gDensity g (gMeans g) = Ok top /\ 0 < d <= top /\ (d = top <-> x = gMeans g) /\
    top = rprod (gND g) (fun i => 1 / (qr (std_of g i) * sqrt (2 * PI))).
Proof. exact (max_pkg g x). Qed.
Print Assumptions C86_maximum.
Theorem C86_errors (g : gauss) (x : list Qc) : (List.length x <> gND g -> gDensity g x = Throw DimensionError) /\
  (sized g -> List.length x = gND g -> (exists i, (i < gND g)%nat /\ std_of g i = 0%Qc) -> gDensity g x = NonFinite).
Proof. exact (error_pkg g x). Qed.
Print Assumptions C86_errors.
(** a kernel built from it depends on the difference of the two points only *)
Theorem C86_jump (g : gauss) (x x2 d : list Qc) : sized g -> positive_widths g -> List.length x = gND g -> List.length x2 = gND g -> List.length d = gND g ->
  jDensity (Some g) x x2 = Ok (density_at g (fun i => coord x i - coord x2 i)) /\
  jDensity (Some g) (translate x d) (translate x2 d) = jDensity (Some g) x x2.
Proof. exact (jump_density_pkg g x x2 d). Qed.
Print Assumptions C86_jump.
(** a varying kernel has the parameters its dependences give at the second point, whatever points it was asked about before *)
Theorem C86_varying (fns : smap (list Qc -> res Qc)) (k : gauss) (x x2 : list Qc) (k1 : gauss) (v1 : R) : swf fns -> sized k -> vDensity fns k x x2 = Ok (k1, v1) ->
  sized k1 /\
  (forall i, (i < gND k)%nat -> match sfind (mean_name k i) fns with Some f => f x2 = Ok (mean_of k1 i) | None => mean_of k1 i = mean_of k i end) /\
  (forall i, (i < gND k)%nat -> match sfind (std_name k i) fns with Some f => f x2 = Ok (std_of k1 i) | None => std_of k1 i = std_of k i end) /\
  jDensity (Some k1) x x2 = Ok v1 /\
  (forall x' x2', vDensity fns k1 x' x2' = vDensity fns k x' x2').
Proof. exact (vary_density_pkg fns k x x2 k1 v1). Qed.
Print Assumptions C86_varying.
(** SquareRootScale: gradient times the square root of the size of the first value *)
Theorem C86_square_root (grad x : Qc) (rest : list Qc) :
  sqrtScale grad [] = Throw std_out_of_range /\
  exists r, sqrtScale grad (x :: rest) = Ok r /\ r * r = qr grad * qr grad * Rabs (qr x) /\ (0 <= qr grad -> 0 <= r) /\ (qr grad <= 0 -> r <= 0) /\
    sqrtScale grad ((- x)%Qc :: rest) = Ok r.
Proof. exact (sqrt_pkg grad x rest). Qed.
Print Assumptions C86_square_root.

Lemma ex_dg_exists : exists g, newGauss [qz 1; qz 2] [qz 3; qz 4] "g" = Ok g.
Proof. eexists. vm_compute. reflexivity. Qed.
Example C86_nonvacuous : (exists g, newGauss [qz 1; qz 2] [qz 3; qz 4] "g" = Ok g /\ sized g /\ positive_widths g /\ gND g = 2%nat /\ no_further g [qz 1; qz 1] [qz 5; qz 3]) /\
  sized ex_g1 /\ swf ex_fns /\ exists v, vDensity ex_fns ex_g1 [qz 2] [qz 3] = Ok (withStds ex_g1 [qz 3], v).
Proof.
  split.
  - destruct ex_dg_exists as [g E]. exists g. split; [exact E|]. destruct (newGauss_sized _ _ _ _ E) as [A B]. split; [exact A|]. split; [exact B|]. vm_compute in E. injection E as <-. split; [reflexivity|].
    intros i Hi. unfold coord. rewrite <- !qr_minus.
    destruct i as [|[|i]]; [| |exfalso; cbn in Hi; apply Nat.lt_nge in Hi; apply Hi; do 2 apply le_n_S; apply Nat.le_0_l].
    + replace (nth 0 [qz 1; qz 1] 0 - _)%Qc with (qz 0) by (apply Qc_is_canon; vm_compute; reflexivity). rewrite qr_z, Rabs_R0. apply Rabs_pos.
    + replace (nth 1 [qz 1; qz 1] 0 - _)%Qc with (qz (-1)) by (apply Qc_is_canon; vm_compute; reflexivity).
      replace (nth 1 [qz 5; qz 3] 0 - _)%Qc with (qz 1) by (apply Qc_is_canon; vm_compute; reflexivity). rewrite !qr_z. change (IZR (-1)) with (- IZR 1). rewrite Rabs_Ropp. apply Rle_refl.
  - split; [exact (proj1 (newGauss_sized _ _ _ _ ex_g1_new))|]. split; [exact ex_fns_ok|]. eexists. reflexivity.
Qed.
