(** C53.  [u], [us k] are values of the uniform generator, in [0, 1). *)
From Coq Require Import ZArith.
From Verif Require Import Base.Res Base.Num Model.Rand Proofs.RandP.
Local Open Scope Qc_scope.
Local Open Scope res_scope.

Theorem C53_shoot (n : Z) (u : Qc) : (0 < n)%Z -> 0 <= u -> u < 1 -> (0 <= rShoot n u < n)%Z.
Proof. exact (shoot_pkg n u). Qed.
Print Assumptions C53_shoot.
(** each of the n values is drawn for one nth of the uniforms *)
Theorem C53_shoot_exact (n : Z) (u : Qc) (k : Z) : (0 < n)%Z -> 0 <= u -> u < 1 -> (rShoot n u = k <-> qz k <= qz n * u /\ qz n * u < qz (k + 1)).
Proof. exact (shoot_exact_pkg n u k). Qed.
Print Assumptions C53_shoot_exact.
Theorem C53_uniform_range (lo hi u : Qc) : lo < hi -> 0 <= u -> u < 1 ->
  lo < rUniformRange lo hi u /\ rUniformRange lo hi u <= hi /\ (0 < u -> rUniformRange lo hi u < hi).
Proof. exact (range_pkg lo hi u). Qed.
Print Assumptions C53_uniform_range.
Theorem C53_uniform_range_onto (lo hi x : Qc) : lo < hi -> lo < x -> x <= hi -> exists u, 0 <= u /\ u < 1 /\ rUniformRange lo hi u = x.
Proof. exact (range_onto_pkg lo hi x). Qed.
Print Assumptions C53_uniform_range_onto.
Theorem C53_von_neumann_arguments (fuel nDims : nat) (f : Qc -> res Qc) (xMin xMax yMax : Qc) (us : nat -> Qc) :
  (xMax <= xMin -> rVonNeumann fuel nDims f xMin xMax yMax us = Throw ValueError) /\
  (yMax <= 0 -> rVonNeumann fuel nDims f xMin xMax yMax us = Throw ValueError) /\
  (nDims <> 1%nat -> rVonNeumann fuel nDims f xMin xMax yMax us = Throw ValueError).
Proof. exact (vn_errors_pkg fuel nDims f xMin xMax yMax us). Qed.
Print Assumptions C53_von_neumann_arguments.
(** the sampler is broken: whatever the function and the random numbers, it returns 0 without looking at either *)
Theorem C53_von_neumann_refuted (fuel : nat) (f : Qc -> res Qc) (xMin xMax yMax : Qc) (us : nat -> Qc) :
  xMin < xMax -> 0 < yMax -> rVonNeumann fuel 1 f xMin xMax yMax us = Ok 0.
Proof. exact (vn_zero_pkg fuel f xMin xMax yMax us). Qed.
Print Assumptions C53_von_neumann_refuted.
(** also when 0 is outside the range asked for *)
Theorem C53_von_neumann_outside_refuted : exists xMin xMax yMax, xMin < xMax /\ 0 < yMax /\
  forall fuel f us x, rVonNeumann fuel 1 f xMin xMax yMax us = Ok x -> ~ (xMin <= x /\ x < xMax).
Proof. exact vn_outside_pkg. Qed.
Print Assumptions C53_von_neumann_outside_refuted.
(** the rejection loop itself, were it entered, would return the first draw in the range that is accepted: one whose ordinate,
    the next uniform times yMax, does not exceed f there *)
Theorem C53_rejection_loop_partial (f : Qc -> res Qc) (a b y : Qc) (us : nat -> Qc) : a < b -> (forall k, 0 <= us k /\ us k < 1) ->
  forall fuel k draw fx val x, fx < val -> vnLoop fuel f a b y us k draw fx val = Ok x ->
  a <= x /\ x < b /\ exists j fv, x = us (k + 2 * j)%nat * (b - a) + a /\ f x = Ok fv /\ us (k + 2 * j + 1)%nat * y <= fv /\
    (forall i, (i < j)%nat -> exists fi, f (us (k + 2 * i)%nat * (b - a) + a) = Ok fi /\ fi < us (k + 2 * i + 1)%nat * y).
Proof. exact (vn_loop_pkg f a b y us). Qed.
Print Assumptions C53_rejection_loop_partial.

Example C53_nonvacuous : rShoot 6 qhalf = 3%Z /\ rUniformRange (qz 2) (qz 4) qhalf = qz 3 /\
  (exists x, vnLoop 3 (fun x => Ok x) 0 1 1 (fun k => if Nat.eqb k 0 then Q2Qc (1 # 4) else if Nat.eqb k 2 then Q2Qc (3 # 4) else qhalf) 0 0 0 1 = Ok x /\ x = Q2Qc (3 # 4)).
Proof.
  split; [vm_compute; reflexivity|]. split; [apply Qc_is_canon; vm_compute; reflexivity|]. eexists. split; [vm_compute; reflexivity|]. apply Qc_is_canon. reflexivity.
Qed.
