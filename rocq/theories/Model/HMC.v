(** Model of /repo/src/optimise/LeapFrog.{h,hpp,cpp}, HamiltonianSampler.{h,hpp}, HMCEnergy.hpp and Gradient.{h,hpp}.
    Simplifications: doubles are exact rationals; the gradient functor of LeapFrog and the statistic of Gradient are
    functions of the point they are given; an int number of steps below zero behaves as zero, so it is a nat here. *)
From Verif Require Import Base.Res Base.Num Base.SMap Model.Hist Model.MCMC.
Local Open Scope Qc_scope.
Local Open Scope res_scope.

(** operator[] on a map that is thrown away afterwards (grad in LeapFrog.hpp): 0 for a missing key *)
Definition gget (k : string) (m : smap Qc) : Qc := match sfind k m with Some v => v | None => 0 end.

(** LeapFrog.hpp:10-11, 18-19, 29-30, 42-43, 49-50, 67-69, 102-104: ps -= c * grad *)
Definition kick (c : Qc) (grad ps : smap Qc) : smap Qc := map (fun e => (fst e, snd e - c * gget (fst e) grad)) ps.

(** LeapFrog.hpp:13-14, 36-37, 84-85, 97-99: qs += c * ps / masses; operator[] on ps_ inserts 0 for a missing key *)
Fixpoint drift (c : Qc) (masses qs ps : smap Qc) : res (smap Qc * smap Qc) :=
  match qs with
  | [] => Ok ([], ps)
  | (k, q) :: t =>
      let (p, ps1) := sget0 k ps in
      do m <- sat k masses;
      do d <- qdiv (c * p) m;
      do r <- drift c masses t ps1;
      Ok ((k, q + d) :: fst r, snd r)
  end.

(** LeapFrog.hpp:2-20 Hamiltonian, one step *)
Definition lfStep (differ : smap Qc -> res (smap Qc)) (eps : Qc) (masses : smap Qc) (s : smap Qc * smap Qc)
    : res (smap Qc * smap Qc) :=
  do g <- differ (fst s);
  do r <- drift eps masses (fst s) (kick (eps / qz 2) g (snd s));
  do g2 <- differ (fst r);
  Ok (fst r, kick (eps / qz 2) g2 (snd r)).

(** LeapFrog.hpp:22-51 Hamiltonian, several steps *)
Definition lfSteps (differ : smap Qc -> res (smap Qc)) (eps : Qc) (masses : smap Qc) (n : nat) (s : smap Qc * smap Qc)
    : res (smap Qc * smap Qc) :=
  do g <- differ (fst s);
  do r <- foldM (fun r i =>
                   do r1 <- drift eps masses (fst r) (snd r);
                   if negb (Nat.eqb i (n - 1))
                   then do g1 <- differ (fst r1); Ok (fst r1, kick eps g1 (snd r1))
                   else Ok r1) (seq 0 n) (fst s, kick (eps / qz 2) g (snd s));
  do g2 <- differ (fst r);
  Ok (fst r, kick (eps / qz 2) g2 (snd r)).

(** LeapFrog.cpp:3-7 IntersectionTime, 9-44 FirstIntersectionTime.  A velocity of zero gives infinite or NaN times,
    which the comparisons with 0 and epsilon refuse. *)
Definition hitTime (wall pos vel : Qc) : option Qc := if qeqb vel 0 then None else Some ((wall - pos) / vel).
Definition crossed (time : option Qc) (eps : Qc) (inside : bool) : bool :=
  match time with Some t => qltb 0 t && qltb t eps && inside | None => false end.
Definition hit1 (ps masses minima maxima : smap Qc) (eps : Qc) (best : string * Qc) (e : string * Qc) : res (string * Qc) :=
  let (k, q) := e in
  do p <- sat k ps;
  do m <- sat k masses;
  do vel <- qdiv p m;
  do lo <- sat k minima;
  do hi <- sat k maxima;
  let mintime := hitTime lo q vel in
  let maxtime := hitTime hi q vel in
  let mincrossed := crossed mintime eps (qltb lo q) in
  let maxcrossed := crossed maxtime eps (qltb q hi) in
  match (if mincrossed then mintime else if maxcrossed then maxtime else None) with
  | None => Ok best
  | Some time => if qeqb (snd best) (- (1)) || qltb time (snd best) then Ok (k, time) else Ok best
  end.
Definition firstHit (qs ps masses minima maxima : smap Qc) (eps : Qc) : res (string * Qc) :=
  foldM (hit1 ps masses minima maxima eps) qs (""%string, - (1)).

(** LeapFrog.hpp:71-93, the while loop over the reflections; [fuel] bounds the number of turns looked at *)
Fixpoint reflLoop (fuel : nat) (masses minima maxima : smap Qc) (eps t0 : Qc) (qs ps : smap Qc)
    : res (smap Qc * smap Qc * Qc) :=
  do h <- firstHit qs ps masses minima maxima (eps - t0);
  if String.eqb (fst h) "" then Ok (qs, ps, t0)
  else match fuel with
       | O => Diverge
       | S n =>
           do r <- drift (snd h) masses qs ps;
           do p <- sat (fst h) (snd r);
           reflLoop n masses minima maxima eps (t0 + snd h) (fst r) (sset (fst h) (- p) (snd r))
       end.

(** LeapFrog.hpp:64-105, one step of the reflecting version, and 53-106 all of it *)
Definition reflStep (fuel : nat) (differ : smap Qc -> res (smap Qc)) (eps : Qc) (masses minima maxima : smap Qc)
    (s : smap Qc * smap Qc) : res (smap Qc * smap Qc) :=
  do g <- differ (fst s);
  do l <- reflLoop fuel masses minima maxima eps 0 (fst s) (kick (eps / qz 2) g (snd s));
  do r <- drift (eps - snd l) masses (fst (fst l)) (snd (fst l));
  do g2 <- differ (fst r);
  Ok (fst r, kick (eps / qz 2) g2 (snd r)).
Fixpoint reflSteps (fuel : nat) (differ : smap Qc -> res (smap Qc)) (eps : Qc) (masses minima maxima : smap Qc)
    (n : nat) (s : smap Qc * smap Qc) : res (smap Qc * smap Qc) :=
  match n with
  | O => Ok s
  | S n' => do s1 <- reflStep fuel differ eps masses minima maxima s;
            reflSteps fuel differ eps masses minima maxima n' s1
  end.

(** HamiltonianSampler.hpp:73-82 KineticEnergy *)
Definition kinetic (masses momenta : smap Qc) : res Qc :=
  foldM (fun acc e => do m <- sat (fst e) masses; do d <- qdiv (snd e * snd e / qz 2) m; Ok (acc + d)) momenta 0.

(** HamiltonianSampler.hpp:19-46 Draw; [gauss k] is the number drawn for parameter k; returns the proposal and fCorr
    (what CorrectAccParam, 84-89, gives).  fMasses[k] inserts a mass of 0 for a parameter without one. *)
Definition hmcDraw (fuel : nat) (differ : smap Qc -> res (smap Qc)) (eps : Qc) (n : nat) (masses minima maxima : smap Qc)
    (gauss : string -> Qc) (cur : smap Qc) : res (smap Qc * Qc) :=
  let masses1 := fold_left (fun ms e => snd (sget0 (fst e) ms)) cur masses in
  let momenta := fold_left (fun mo e => sset (fst e) (gauss (fst e)) mo) cur sempty in
  do k0 <- kinetic masses1 momenta;
  do s <- (if negb (Nat.eqb (List.length minima) 0) && negb (Nat.eqb (List.length maxima) 0)
           then reflSteps fuel differ eps masses1 minima maxima n (cur, momenta)
           else lfSteps differ eps masses1 n (cur, momenta));
  do k1 <- kinetic masses1 (snd s);
  Ok (fst s, k0 - k1).

(** HMCEnergy.hpp:1-6 Evaluate *)
Definition hmcEnergy (ll : smap Qc -> res Qc) (p : smap Qc) : res Qc := do v <- ll p; Ok (- v).

(** Gradient.hpp:3-27 operator() *)
Definition gradient (f : smap Qc -> res Qc) (eps : Qc) (x0 : smap Qc) : res (smap Qc) :=
  foldM (fun grad (e : string * Qc) =>
           let (k, v) := e in
           do hv <- f (sset k (v + eps) x0);
           do lv <- f (sset k (v - eps) x0);
           do g <- qdiv ((hv - lv) / qz 2) eps;
           Ok (sset k g grad)) x0 sempty.
