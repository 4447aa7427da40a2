(** Model of /repo/src/optimise/SigmoidBoundary.{h,hpp}: a penalty added to an energy.  Doubles are real numbers here:
    log and exp are those of the reals and do not overflow. *)
From Coq Require Import Reals.
From Verif Require Import Base.Res Base.Num Base.RNum Base.SMap.
Local Open Scope R_scope.

(** operator[] on fParams (SigmoidBoundary.hpp:22, 28): 0 for a missing key *)
Definition rget (k : string) (p : smap R) : R := match sfind k p with Some v => v | None => 0 end.
(** SigmoidBoundary.hpp:19-24, one sum over the minima *)
Fixpoint lowTerms (mu : R) (p : smap R) (minima : smap R) (acc : R) : R :=
  match minima with
  | [] => acc
  | (k, m) :: t => lowTerms mu p t (acc + ln (1 + exp (- mu * (rget k p - m))))
  end.
(** SigmoidBoundary.hpp:26-30, the sum over the maxima *)
Fixpoint highTerms (mu : R) (p : smap R) (maxima : smap R) (acc : R) : R :=
  match maxima with
  | [] => acc
  | (k, m) :: t => highTerms mu p t (acc + ln (1 + exp (mu * (rget k p - m))))
  end.
(** SigmoidBoundary.hpp:4-9 SetParameters followed by 11-32 Evaluate *)
Definition sigmoidEval (energy : smap R -> res R) (mu : R) (minima maxima p : smap R) : res R :=
  bind (energy p) (fun e => Ok (highTerms mu p maxima (lowTerms mu p minima e))).
