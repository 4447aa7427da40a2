(** Independent vocabulary for C44-C46, C74, C75. *)
From Coq Require Import ZArith.
From Verif Require Import Base.Res Base.Num Base.SMap Model.Axis Model.Hist Model.HistTools Model.MCMC Spec.AxisSpec Spec.HistSpec.
Local Open Scope Qc_scope.

(** one logged step: point, value, accepted *)
Definition entry : Type := smap Qc * Qc * bool.
Definition eP (e : entry) : smap Qc := fst (fst e).
Definition eV (e : entry) : Qc := snd (fst e).
Definition eA (e : entry) : bool := snd e.

(** the logged steps form a Markov chain started at (cur, val): an accepted step is the i-th proposal and
    carries its value, a rejected one repeats the previous point and value *)
Fixpoint chain_ok (draw : nat -> smap Qc -> res (smap Qc)) (value : smap Qc -> res Qc)
    (i : nat) (cur : smap Qc) (val : Qc) (log : list entry) : Prop :=
  match log with
  | [] => True
  | e :: t =>
      (if eA e then draw i cur = Ok (eP e) /\ value (eP e) = Ok (eV e) else eP e = cur /\ eV e = val) /\
      chain_ok draw value (S i) (eP e) (eV e) t
  end.

(** the point has, for every listed parameter, a value between its minimum and its maximum *)
Definition in_box (minima maxima : smap Qc) (keys : list string) (p : smap Qc) : Prop :=
  forall k, In k keys -> exists v lo hi,
    sfind k p = Some v /\ sfind k minima = Some lo /\ sfind k maxima = Some hi /\ lo <= v /\ v <= hi.

(** all points visited: the start and every logged step *)
Definition visited (start : smap Qc) (v0 : Qc) (log : list entry) (p : smap Qc) (v : Qc) : Prop :=
  (p = start /\ v = v0) \/ exists a, In (p, v, a) log.

(** step number i is past burn-in and on the thinning grid *)
Definition kept (burn thin i : nat) : bool := Nat.ltb burn i && Nat.eqb (i mod thin) 0.
(** the entries recorded when the step counter stands at [i] before the first of them *)
Fixpoint recorded (burn thin i : nat) (log : list entry) : list entry :=
  match log with
  | [] => []
  | e :: t => (if kept burn thin i then [e] else []) ++ recorded burn thin (S i) t
  end.
Definition n_accepted (log : list entry) : nat := List.length (filter eA log).

(** a histogram filled with a list of points, weight one each *)
Definition filled (h : hist) (ps : list (smap Qc)) : hist :=
  fold_left (fun x p => fst (fill_map x p 1)) ps h.

(** a history of MCMCSamples::Fill calls *)
Definition fill_calls (guess : nat -> nat -> nat) (minima maxima : smap Qc) (maxIter : nat) (s : samples) (log : list entry)
    : res samples :=
  foldM (fun s e => sFill guess minima maxima maxIter s (eP e) (eV e) (eA e)) log s.

(** the last n elements of a list *)
Definition lastn {A} (n : nat) (l : list A) : list A := skipn (List.length l - n) l.

(** the limits of every named parameter are known *)
Definition has_limits (m : mcmc) (names : list string) : Prop :=
  forall n, In n names -> exists lo hi, sfind n (mMinima m) = Some lo /\ sfind n (mMaxima m) = Some hi.
(** the point MCMC::Optimise starts from: the initial trial, or a random point in the box *)
Definition starts_at (u0 : string -> Qc) (names : list string) (m : mcmc) (start : smap Qc) : Prop :=
  (mInit m <> [] /\ start = mInit m) \/
  (mInit m = [] /\ forall n,
     (~ In n names -> sfind n start = sfind n (mCur m)) /\
     (In n names -> exists lo hi, sfind n (mMinima m) = Some lo /\ sfind n (mMaxima m) = Some hi /\
        sfind n start = Some (lo + u0 n * (hi - lo)))).
(** the limit kept for n; one that was never set counts as zero *)
Definition or0 (d : smap Qc) (n : string) : Qc := match sfind n d with Some v => v | None => 0 end.
(** value of the statistic the chain works with *)
Definition chain_value (f : smap Qc -> res Qc) (m : mcmc) (p : smap Qc) : res Qc :=
  match f p with
  | Ok v => Ok (if mFlip m then - v else v)
  | r => r
  end.

(** the chain starts inside the box: from a user supplied point inside it, or from the random start with
    uniform numbers in [0,1] on an object that has no current step yet *)
Definition box_start (u0 : string -> Qc) (names : list string) (m : mcmc) : Prop :=
  (mInit m <> [] /\ in_box (mMinima m) (mMaxima m) (skeys (mInit m)) (mInit m)) \/
  (mInit m = [] /\ mCur m = [] /\ forall n, In n names -> 0 <= u0 n /\ u0 n <= 1 /\
     exists lo hi, sfind n (mMinima m) = Some lo /\ sfind n (mMaxima m) = Some hi /\ lo <= hi).

(** arithmetic mean *)
Definition mean_of (w : list Qc) : Qc := qsum w / qn (List.length w).
(** the value i places before the newest one *)
Definition back (vs : list Qc) (i : nat) : Qc := nth i (rev vs) 0.
(** what value number k of the history vs adds to the covariance and to the variance sum of lag i, when the
    means are taken over a sliding window of the last n values seen so far *)
Definition lag_term (n : nat) (vs : list Qc) (i k : nat) : Qc :=
  let seen := firstn (S k) vs in
  let mu := mean_of (lastn n seen) in
  if Nat.ltb i (Nat.min n (S k)) then (back seen 0 - mu) * (back seen i - mu) else 0.
Definition norm_term (n : nat) (vs : list Qc) (i k : nat) : Qc :=
  let seen := firstn (S k) vs in
  let mu := mean_of (lastn n seen) in
  if Nat.ltb i (Nat.min n (S k)) then (back seen 0 - mu) * (back seen 0 - mu) else 0.
