(** Independent vocabulary for C47-C49. *)
From Coq Require Import ZArith.
From Verif Require Import Base.Res Base.Num Base.SMap Model.HMC.
Local Open Scope Qc_scope.

(** value of a parameter (0 when absent) *)
Definition val (k : string) (m : smap Qc) : Qc := match sfind k m with Some v => v | None => 0 end.
(** all momenta reversed *)
Definition negated (ps : smap Qc) : smap Qc := map (fun e => (fst e, - snd e)) ps.
(** every position has a momentum *)
Definition has_momenta (s : smap Qc * smap Qc) : Prop := forall k, In k (skeys (fst s)) -> In k (skeys (snd s)).
(** every position has a mass, and it is not zero *)
Definition has_masses (masses qs : smap Qc) : Prop := forall k, In k (skeys qs) -> exists m, sfind k masses = Some m /\ m <> 0.
(** n applications of a step *)
Fixpoint iterate {A} (f : A -> res A) (n : nat) (s : A) : res A :=
  match n with O => Ok s | S m => bind (f s) (fun s1 => iterate f m s1) end.
(** kinetic energy: sum of p^2 / 2m *)
Definition energy_of (masses ps : smap Qc) : Qc := qsum (map (fun e => snd e * snd e / qz 2 / val (fst e) masses) ps).
(** as a function of the coordinate k alone, through x, f is a*v^2 + b*v + c *)
Definition quadratic_in (f : smap Qc -> res Qc) (x : smap Qc) (k : string) (a b c : Qc) : Prop :=
  forall v, f (sset k v x) = Ok (a * v * v + b * v + c).
Definition cubic_in (f : smap Qc -> res Qc) (x : smap Qc) (k : string) (d a b c : Qc) : Prop :=
  forall v, f (sset k v x) = Ok (d * v * v * v + a * v * v + b * v + c).

(** velocity of a parameter *)
Definition vel (masses ps : smap Qc) (k : string) : Qc := val k ps / val k masses.
(** position at time t of a particle that starts at q and is never reflected *)
Definition free (masses qs ps : smap Qc) (k : string) (t : Qc) : Qc := val k qs + t * vel masses ps k.
(** the closed box *)
Definition inside (minima maxima qs : smap Qc) : Prop :=
  forall k, In k (skeys qs) -> exists lo hi, sfind k minima = Some lo /\ sfind k maxima = Some hi /\ lo <= val k qs /\ val k qs <= hi.
(** a parameter on a wall is not moving out through that wall *)
Definition not_leaving (masses minima maxima qs ps : smap Qc) : Prop :=
  forall k, In k (skeys qs) -> (0 < vel masses ps k -> val k qs < val k maxima) /\ (vel masses ps k < 0 -> val k minima < val k qs).
(** the particle without walls is, at time t, at one of the mirror images of the two walls of parameter k *)
Definition at_wall (masses minima maxima qs ps : smap Qc) (k : string) (t : Qc) : Prop :=
  exists z : Z, free masses qs ps k t = val k minima + qz z * (val k maxima - val k minima).
(** no two moving parameters reach a wall at the same time during (0, eps) *)
Definition no_corner (masses minima maxima qs ps : smap Qc) (eps : Qc) : Prop :=
  forall a b t, In a (skeys qs) -> In b (skeys qs) -> a <> b -> vel masses ps a <> 0 -> vel masses ps b <> 0 ->
    0 < t -> t < eps -> at_wall masses minima maxima qs ps a t -> at_wall masses minima maxima qs ps b t -> False.
(** where the free position u is folded to when the box [lo,hi] is mirrored z times, and the sign of the velocity there *)
Definition folded (lo hi u : Qc) (z : Z) : Qc :=
  if Z.even z then u - qz z * (hi - lo) else lo + hi - (u - qz z * (hi - lo)).
Definition turned (z : Z) (p : Qc) : Qc := if Z.even z then p else - p.
(** billiard motion for a time eps *)
Definition billiard (masses minima maxima qs ps : smap Qc) (eps : Qc) (qs' ps' : smap Qc) : Prop :=
  skeys qs' = skeys qs /\ skeys ps' = skeys ps /\
  (forall k, In k (skeys ps) -> ~ In k (skeys qs) -> sfind k ps' = sfind k ps) /\
  forall k, In k (skeys qs) -> exists z : Z,
    let lo := val k minima in let hi := val k maxima in let u := free masses qs ps k eps in
    lo + qz z * (hi - lo) <= u /\ u <= lo + qz (z + 1) * (hi - lo) /\
    (0 < eps -> 0 < vel masses ps k -> lo + qz z * (hi - lo) < u) /\
    (0 < eps -> vel masses ps k < 0 -> u < lo + qz (z + 1) * (hi - lo)) /\
    (vel masses ps k = 0 -> z = 0%Z) /\
    sfind k qs' = Some (folded lo hi u z) /\ sfind k ps' = Some (turned z (val k ps)).

(** momenta after a push c along minus the gradient g *)
Definition pushed (c : Qc) (g ps : smap Qc) : smap Qc := map (fun e => (fst e, snd e - c * val (fst e) g)) ps.
(** a state of the reflecting integrator from which one step meets neither a corner nor starts out through a wall;
    [qs] inside the walls, one momentum and one non-zero mass per parameter, no parameter with an empty name *)
Definition well_formed (masses : smap Qc) (s : smap Qc * smap Qc) : Prop :=
  swf (fst s) /\ swf (snd s) /\ has_momenta s /\ has_masses masses (fst s) /\ ~ In ""%string (skeys (fst s)).
Definition generic (differ : smap Qc -> res (smap Qc)) (eps : Qc) (masses minima maxima : smap Qc) (s : smap Qc * smap Qc) : Prop :=
  exists g, differ (fst s) = Ok g /\
    not_leaving masses minima maxima (fst s) (pushed (eps / qz 2) g (snd s)) /\
    no_corner masses minima maxima (fst s) (pushed (eps / qz 2) g (snd s)) eps.
