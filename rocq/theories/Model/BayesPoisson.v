(** Model of /repo/src/interval/BayesIntervalCalc.cpp, the counting version.  Doubles are real numbers here and
    gsl_sf_gamma_inc_P(n + 1, x) is its exact value for a whole number n >= 0 and x >= 0,
    1 - e^-x (1 + x + ... + x^n / n!); GSL's error handling for arguments outside that range is not modelled. *)
From Coq Require Import Reals.
From Verif Require Import Base.Res.
Local Open Scope R_scope.

Fixpoint expSeries (n : nat) (x : R) : R := match n with O => 1 | S m => expSeries m x + x ^ n / INR (fact n) end.
Definition gammaP (n : nat) (x : R) : R := 1 - exp (- x) * expSeries n x.

(** BayesIntervalCalc.cpp:49-53 OneSidedUpperInterval *)
Definition oneSided (expected : R) (observed : nat) (edge : R) : R :=
  (gammaP observed (expected + edge) - gammaP observed expected) / (1 - gammaP observed expected).

(** BayesIntervalCalc.cpp:60-65, the loop; [fuel] bounds the number of turns looked at *)
Fixpoint poissonLoop (fuel : nat) (expected : R) (observed : nat) (cl tol currentCL limit : R) : res R :=
  if Rlt_dec tol (Rabs (currentCL - cl)) then
    match fuel with
    | O => Diverge
    | S n => poissonLoop n expected observed cl tol (oneSided expected observed (limit + tol)) (limit + tol)
    end
  else Ok limit.
(** BayesIntervalCalc.cpp:55-66 UpperBound(double, int, double, double) *)
Definition poissonUpper (fuel : nat) (expected : R) (observed : nat) (cl tol : R) : res R :=
  poissonLoop fuel expected observed cl tol 0 0.
