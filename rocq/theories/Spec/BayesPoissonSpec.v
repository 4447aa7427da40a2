(** Independent vocabulary for C77: a Poisson count with known background. *)
From Coq Require Import Reals.
Local Open Scope R_scope.
(** probability of exactly k, and of at most n, counts when mu are expected *)
Definition exactly (k : nat) (mu : R) : R := exp (- mu) * mu ^ k / INR (fact k).
Definition at_most (n : nat) (mu : R) : R := sum_f_R0 (fun k => exactly k mu) n.
(** posterior probability (flat prior on s >= 0) that the signal is below u, given n counts and background b:
    the function that is 0 at u = 0, whose derivative is the likelihood over its integral [at_most n b] *)
Definition posterior_below (b : R) (n : nat) (u : R) : R := 1 - at_most n (b + u) / at_most n b.
