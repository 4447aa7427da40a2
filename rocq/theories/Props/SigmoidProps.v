(** C76: the soft walls of SigmoidBoundary. *)
From Coq Require Import Reals.
From Verif Require Import Base.Res Base.Num Base.RNum Base.SMap Model.Sigmoid Spec.SigmoidSpec Proofs.SigmoidP.
From Coq Require Import Lra.
Local Open Scope R_scope.

(** The penalised energy lies between energy + mu * (total distance outside the walls) and that plus ln 2 per wall; in
    particular inside the walls it is at most ln 2 per wall above the energy, never below it. *)
Theorem C76_penalty energy mu mi ma p e : 0 <= mu -> energy p = Ok e ->
  exists v, sigmoidEval energy mu mi ma p = Ok v /\
    e + mu * (below_walls p mi + above_walls p ma) <= v /\
    v <= e + mu * (below_walls p mi + above_walls p ma) + INR (List.length mi + List.length ma) * ln 2 /\
    (within_walls p mi ma -> e <= v /\ v <= e + INR (List.length mi + List.length ma) * ln 2).
Proof. exact (eval_pkg energy mu mi ma p e). Qed.
Print Assumptions C76_penalty.

Theorem C76_failure energy mu mi ma p : (forall e, energy p <> Ok e) -> forall v, sigmoidEval energy mu mi ma p <> Ok v.
Proof. exact (fail_pkg energy mu mi ma p). Qed.
Print Assumptions C76_failure.

Theorem C76_no_walls energy mu p : sigmoidEval energy mu [] [] p = energy p.
Proof. exact (none_pkg energy mu p). Qed.
Print Assumptions C76_no_walls.

(** one parameter at 3 outside the walls [0, 1], mu = 10: the distance is 2 and the penalty at least 20; at 1/2, none *)
Example C76_nonvacuous : let mi := [("a"%string, 0)] in let ma := [("a"%string, 1)] in
  below_walls [("a"%string, 3)] mi + above_walls [("a"%string, 3)] ma = 2 /\ within_walls [("a"%string, /2)] mi ma /\
  (exists v, sigmoidEval (fun _ => Ok 5) 10 mi ma [("a"%string, 3)] = Ok v /\ 25 <= v).
Proof.
  cbv zeta. assert (D : below_walls [("a"%string, 3)] [("a"%string, 0)] + above_walls [("a"%string, 3)] [("a"%string, 1)] = 2).
  { cbn [below_walls above_walls]. change (coord "a" [("a"%string, 3)]) with 3. rewrite Rmax_left by lra. rewrite Rmax_right by lra. lra. }
  split; [exact D|]. split.
  - split; intros k m [[= <- <-]|[]]; change (coord "a" [("a"%string, /2)]) with (/2); lra.
  - destruct (C76_penalty (fun _ => Ok 5) 10 [("a"%string, 0)] [("a"%string, 1)] [("a"%string, 3)] 5 ltac:(lra) eq_refl) as [v [E [L _]]].
    exists v. split; [exact E|]. rewrite D in L. lra.
Qed.
