From Coq Require Import ZArith.
From Verif Require Import Base.Res Base.Num Base.SMap Model.Axis Model.Hist Model.Param Model.Gauss Spec.GaussSpec Proofs.AxisP Proofs.HistP Proofs.GaussP Proofs.GaussP2 Proofs.GaussP3 Proofs.GaussP4.
From Coq Require Import Lia.
Local Open Scope Qc_scope.
Local Open Scope res_scope.

Lemma get_refuted_pkg n g : sized g -> (Z.of_nat (gND g) < 2 ^ 63)%Z ->
  (forall i, (0 < i < gND g)%nat -> mean_name g i = n -> (forall j, (j < i)%nat -> mean_name g j <> n) -> gGet n g = Throw NotFoundError) /\
  (forall i, (0 < i < gND g)%nat -> ~ In n (gMN g) -> std_name g i = n -> (forall j, (j < i)%nat -> std_name g j <> n) -> gGet n g = Throw NotFoundError).
Proof.
  intros Hs Hz. split; intros i Hi; destruct (get_pkg n g Hs ltac:(lia) Hz) as [_ [_ [_ [A B]]]]; eauto.
Qed.
Lemma rename_stmt_pkg old new g : sized g ->
  (~ In old (gNames g) -> forall fuel, gRename fuel old new g = Throw NotFoundError) /\
  (In old (gNames g) -> old <> new -> exists N, forall fuel, (N <= fuel)%nat -> exists g', gRename fuel old new g = Ok g' /\
     gName g' = gName g /\ gCut g' = gCut g /\ gND g' = gND g /\ gMeans g' = gMeans g /\ gStds g' = gStds g /\
     gMN g' = map (fun x => if String.eqb x old then new else x) (gMN g) /\
     gSN g' = map (fun x => if String.eqb x old then new else x) (gSN g)).
Proof.
  intros Hs. destruct (rename_pkg old new g Hs) as [A B]. split; [exact A|]. intros I N. destruct (B I N) as [K H]. exists K. intros f Hf.
  eexists. split; [apply H, Hf|]. repeat split.
Qed.
Lemma qprod_fold l : qprod l = fold_right Qcmult 1 l.
Proof. induction l as [|x l IH]; cbn; [reflexivity|]. now rewrite <- IH. Qed.
Lemma product_pkg U g lo hi : sized g -> positive_widths g -> List.length lo = gND g -> List.length hi = gND g ->
  exists fs, List.length fs = gND g /\ gIntegral U g lo hi = Ok (fold_right Qcmult 1 fs) /\
    forall i, (i < gND g)%nat -> exists a b, gCdf U g i (nth i lo 0) = Ok a /\ gCdf U g i (nth i hi 0) = Ok b /\ nth i fs 0 = b - a.
Proof.
  intros Hs Hp L1 L2. pose proof (width_nz _ Hp) as W. exists (map (wid U g lo hi) (seq 0 (gND g))). split; [now rewrite map_length, seq_length|].
  split; [rewrite <- qprod_fold; now apply integral_ok|]. intros i Hi. do 2 eexists. split; [apply cdf_ok; auto|]. split; [apply cdf_ok; auto|].
  rewrite (nth_indep _ 0 (wid U g lo hi 0)) by (rewrite map_length, seq_length; exact Hi). rewrite map_nth, seq_nth by exact Hi. reflexivity.
Qed.
Lemma new_pkg m s name :
  (List.length m <> List.length s -> newGauss m s name = Throw DimensionError) /\
  (List.length m = List.length s -> (exists x, In x s /\ x <= 0) -> newGauss m s name = Throw ValueError) /\
  (List.length m = List.length s -> (forall x, In x s -> 0 < x) -> exists g, newGauss m s name = Ok g /\ gND g = List.length m /\
     gMeans g = m /\ gStds g = s /\ gCut g = qz 6 /\ positive_widths g).
Proof.
  unfold newGauss. split; [|split].
  - intros H. apply Nat.eqb_neq in H. now rewrite H.
  - intros -> [x [I L]]. rewrite Nat.eqb_refl. cbn [negb]. rewrite (proj2 (existsb_exists _ s)); [reflexivity|]. exists x. split; [exact I|]. now apply qleb_le.
  - intros E P. rewrite E, Nat.eqb_refl. cbn [negb]. destruct (existsb _ s) eqn:X.
    + apply existsb_exists in X. destruct X as [x [I L]]. apply qleb_le in L. specialize (P x I). qlra.
    + eexists. split; [reflexivity|]. repeat split. intros i Hi. cbn in Hi. unfold std_of. cbn. apply P, nth_In. exact Hi.
Qed.
(** a piecewise linear distribution function *)
Definition ex_U (x : Qc) : Qc := if qltb x (- qz 2) then 0 else if qltb (qz 2) x then 1 else (x + qz 2) * Q2Qc (1 # 4).
Lemma ex_U_cdf : cdf_like ex_U.
Proof.
  assert (R : forall z, - qz 2 <= z -> z <= qz 2 -> 0 <= (z + qz 2) * Q2Qc (1 # 4) /\ (z + qz 2) * Q2Qc (1 # 4) <= 1).
  { intros z A B. split.
    - apply mul_pos; [qlra|discriminate].
    - replace 1 with (qz 4 * Q2Qc (1 # 4)) by (apply Qc_is_canon; reflexivity). apply Qcmult_le_compat_r; [|discriminate].
      replace (qz 4) with (qz 2 + qz 2) by (apply Qc_is_canon; reflexivity). qlra. }
  assert (B : forall x, 0 <= ex_U x /\ ex_U x <= 1).
  { intros x. unfold ex_U. destruct (qltb x (- qz 2)) eqn:A; [split; discriminate|]. destruct (qltb (qz 2) x) eqn:C; [split; discriminate|].
    apply qltb_ge in A. apply qltb_ge in C. now apply R. }
  split; [|exact B]. intros x y H. pose proof (B x) as Bx. pose proof (B y) as By. unfold ex_U in *.
  destruct (qltb x (- qz 2)) eqn:A; [apply By|]. destruct (qltb y (- qz 2)) eqn:A'.
  { apply qltb_ge in A. apply qltb_lt in A'. qlra. }
  destruct (qltb (qz 2) y) eqn:C'; [apply Bx|]. destruct (qltb (qz 2) x) eqn:C.
  { apply qltb_ge in C'. apply qltb_lt in C. qlra. }
  apply Qcmult_le_compat_r; [qlra|discriminate].
Qed.
Lemma negative_pkg : exists g g' U lo hi p, newGauss [0] [1] ""%string = Ok g /\ gSet "stddevs_0"%string (- (1)) g = Ok g' /\
  cdf_like U /\ a_box 1 lo hi /\ gIntegral U g' lo hi = Ok p /\ p < 0.
Proof.
  do 2 eexists. exists ex_U, [0], [1]. eexists. split; [reflexivity|]. split; [reflexivity|]. split; [exact ex_U_cdf|]. split.
  - split; [reflexivity|]. split; [reflexivity|]. intros [|i] Hi; [discriminate|lia].
  - split; [vm_compute; reflexivity|vm_compute; reflexivity].
Qed.
Definition ex_g2 : gauss := match newGauss [1; qz 2] [qz 3; qhalf] "g"%string with Ok g => g | _ => mkGauss ""%string [] [] 0 0 [] [] end.
Lemma nonvac_pkg : cdf_like ex_U /\ sized ex_g2 /\ positive_widths ex_g2 /\ a_box 2 [0; 1] [qz 2; qz 4] /\ box_within 2 [1; 1] [qz 2; qz 4] [0; 1] [qz 2; qz 4].
Proof.
  split; [exact ex_U_cdf|]. split; [repeat split|]. split; [|split].
  - intros [|[|i]] Hi; cbn in Hi; try lia; vm_compute; reflexivity.
  - split; [reflexivity|]. split; [reflexivity|]. intros [|[|i]] Hi; try lia; vm_compute; discriminate.
  - intros [|[|i]] Hi; try lia; vm_compute; split; discriminate.
Qed.
