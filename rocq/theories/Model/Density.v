(** Model of the densities of /repo/src/function/Gaussian.cpp, JumpPDF.cpp, VaryingCDF.cpp and of SquareRootScale's value.
    Simplifications: arguments and parameters are exact rationals; exp, sqrt and pi are those of the reals and do not overflow or round;
    a division by 0 is NonFinite. *)
From Coq Require Import Reals.
From Verif Require Import Base.Res Base.Num Base.RNum Base.SMap Model.Axis Model.Hist Model.Gauss.
Local Open Scope Qc_scope.
Local Open Scope res_scope.

(** Gaussian.cpp:184-195: the sum of squared deviations *)
Definition gExponent (g : gauss) (vals : list Qc) : res Qc :=
  foldM (fun e i => do mean <- vat (gMeans g) i;
                    do sd <- vat (gStds g) i;
                    do v <- vat vals i;
                    do nDevs <- qdiv (v - mean) sd;
                    Ok (e + nDevs * nDevs)) (seq 0 (gND g)) 0.
(** Gaussian.cpp:197-199 *)
Definition gNorm (g : gauss) : res R :=
  foldM (fun n i => do sd <- vat (gStds g) i; Ok (n * (sqrt (2 * PI) * qr sd))%R) (seq 0 (gND g)) 1%R.
(** Gaussian.cpp:178-202 operator() *)
Definition gDensity (g : gauss) (vals : list Qc) : res R :=
  if negb (Nat.eqb (List.length vals) (gND g)) then Throw DimensionError
  else do e <- gExponent g vals;
       do n <- gNorm g;
       Ok (exp (- (1 / 2) * qr e) / n)%R.
(** JumpPDF.cpp:78-87 ConditionalProbability *)
Definition jDensity (pdf : option gauss) (x x2 : list Qc) : res R :=
  match pdf with
  | None => Throw NULLPointerAccessError
  | Some g => do d <- jDiff x x2; gDensity g d
  end.
(** VaryingCDF.cpp:68-76 ConditionalProbability: the kernel keeps the parameters it was given *)
Definition vDensity (fns : smap (list Qc -> res Qc)) (kernel : gauss) (x x2 : list Qc) : res (gauss * R) :=
  do d <- vSetup fns x2;
  do k <- gSetAll d kernel;
  do v <- jDensity (Some k) x x2;
  Ok (k, v).
(** SquareRootScale.cpp:8-11 operator(): at() reads the first value; abs is the one on doubles, as math.h is included (SquareRootScale.h:15) *)
Definition sqrtScale (grad : Qc) (vals : list Qc) : res R :=
  do v <- vat vals 0; Ok (qr grad * sqrt (Rabs (qr v)))%R.
