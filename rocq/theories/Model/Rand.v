(** Model of /repo/src/rand/Rand.cpp.  The values of TRandom3::Rndm() (documented range (0,1)) are inputs. *)
From Coq Require Import ZArith.
From Verif Require Import Base.Res Base.Num Model.Axis Model.Hist Model.Shrink.
Local Open Scope Qc_scope.
Local Open Scope res_scope.

(** conversion of a double to an integer type, by truncation towards zero *)
Definition qtrunc (q : Qc) : Z := Z.quot (Qnum (this q)) (Zpos (Qden (this q))).
(** Rand.cpp:10-14 Uniform(max) *)
Definition rUniform (max u : Qc) : Qc := max * u.
(** Rand.cpp:16-20 UniformRange(min, max) *)
Definition rUniformRange (lo hi u : Qc) : Qc := hi - (hi - lo) * u.
(** Rand.cpp:22-25 Shoot(int max) with Uniform() = Uniform(1), Rand.h *)
Definition rShoot (max : Z) (u : Qc) : Z := qtrunc (qz max * rUniform 1 u).
(** Rand.cpp:62-72 the rejection loop: [us k] is the k-th uniform drawn, [fuel] bounds the turns looked at *)
Fixpoint vnLoop (fuel : nat) (f : Qc -> res Qc) (xMin xMax yMax : Qc) (us : nat -> Qc) (k : nat) (draw fOfX val : Qc) : res Qc :=
  if qltb fOfX val then
    match fuel with
    | O => Diverge
    | S n => let draw' := rUniform 1 (us k) * (xMax - xMin) + xMin in
             do y <- f draw';
             vnLoop n f xMin xMax yMax us (S (S k)) draw' y (rUniform 1 (us (S k)) * yMax)
    end
  else Ok draw.
(** Rand.cpp:47-73 VonNeumannSample of a function of [nDims] variables *)
Definition rVonNeumann (fuel nDims : nat) (f : Qc -> res Qc) (xMin xMax yMax : Qc) (us : nat -> Qc) : res Qc :=
  if qleb xMax xMin then Throw ValueError
  else if qleb yMax 0 then Throw ValueError
  else if negb (Nat.eqb nDims 1) then Throw ValueError
  else vnLoop fuel f xMin xMax yMax us 0 0 1 0.
