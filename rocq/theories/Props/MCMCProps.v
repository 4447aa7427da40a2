(** C44, C45, C46, C74, C75: the Metropolis-Hastings chain. *)
From Coq Require Import ZArith.
From Verif Require Import Base.Res Base.Num Base.SMap Model.Axis Model.Hist Model.HistTools Model.Shrink Model.MCMC
  Spec.AxisSpec Spec.HistSpec Spec.HistToolsSpec Spec.MCMCSpec Proofs.AxisP Proofs.MCMCP2 Proofs.MCMCP4 Proofs.MCMCP5 Proofs.MCMCP6.
Local Open Scope nat_scope.

(** * C44 *)
(** A run makes exactly the requested number of steps from the initial trial (or the random start); an accepted
    step is that iteration's proposal with its value, a rejected step repeats the current point and value. *)
Theorem C44_chain guess f ex draw corr unif u0 names m m' : mInit m <> [] \/ has_limits m names ->
  mOptimise guess f ex draw corr unif u0 names m = Ok m' ->
  exists start v0 log, starts_at u0 names m start /\ chain_value f m start = Ok v0 /\
    sLog (mSamples m') = sLog (mSamples m) ++ log /\ List.length log = mMaxIter m /\
    chain_ok draw (chain_value f m) 0 start v0 log.
Proof. exact (chain_pkg guess f ex draw corr unif u0 names m m'). Qed.
Print Assumptions C44_chain.

(** Started inside the box, every step is inside, whatever is proposed and whatever the uniform numbers are. *)
Theorem C44_in_box guess f ex draw corr unif u0 names m m' : box_start u0 names m ->
  mOptimise guess f ex draw corr unif u0 names m = Ok m' ->
  exists start log, starts_at u0 names m start /\ sLog (mSamples m') = sLog (mSamples m) ++ log /\ List.length log = mMaxIter m /\
    (mInit m = [] -> forall n, In n (skeys start) <-> In n names) /\
    in_box (mMinima m) (mMaxima m) (skeys start) start /\
    Forall (fun e => in_box (mMinima m) (mMaxima m) (skeys start) (eP e)) log.
Proof. exact (box_pkg guess f ex draw corr unif u0 names m m'). Qed.
Print Assumptions C44_in_box.

(** Under Metropolis proposals the parameter set never changes and fixed parameters keep their starting value. *)
Theorem C44_fixed guess f ex sigmas fixed g corr unif u0 names m m' : mInit m <> [] \/ has_limits m names ->
  mOptimise guess f ex (fun i => metroDraw sigmas fixed (g i)) corr unif u0 names m = Ok m' ->
  exists start log, starts_at u0 names m start /\ sLog (mSamples m') = sLog (mSamples m) ++ log /\ List.length log = mMaxIter m /\
    Forall (fun e => skeys (eP e) = skeys start) log /\
    forall n, In n fixed -> Forall (fun e => sfind n (eP e) = sfind n start) log.
Proof. exact (fixed_pkg guess f ex sigmas fixed g corr unif u0 names m m'). Qed.
Print Assumptions C44_fixed.

(** One Metropolis proposal: same parameters, fixed ones unchanged, the others shifted by their own random number. *)
Theorem C44_metropolis_draw sigmas fixed g cur p : swf cur -> metroDraw sigmas fixed g cur = Ok p ->
  skeys p = skeys cur /\ (forall n, In n fixed -> sfind n p = sfind n cur) /\
  (forall n v s, sfind n cur = Some v -> ~ In n fixed -> sfind n sigmas = Some s -> sfind n p = Some (v + g n s)%Qc).
Proof. exact (metro_draw_pkg sigmas fixed g cur p). Qed.
Print Assumptions C44_metropolis_draw.

(** Limits or an initial trial of the wrong size are refused. *)
Theorem C44_size_mismatch guess f ex draw corr unif u0 names m :
  (List.length (mMaxima m) <> List.length names \/ List.length (mMinima m) <> List.length names \/
   (mInit m <> [] /\ List.length (mInit m) <> List.length names)) ->
  mOptimise guess f ex draw corr unif u0 names m = Throw LogicError.
Proof. exact (opt_reject guess f ex draw corr unif u0 names m). Qed.
Print Assumptions C44_size_mismatch.

(** Limits that were never set: with the right number of limits, but for other parameters, the missing ones count as zero - the random start of a
    parameter lies between what was set and zero - and from then on they are limits like the others. *)
Theorem C44_missing_limit u0 names m n : mInit m = [] -> In n names -> let m1 := startPoint u0 names m in
  sfind n (mCur m1) = Some (or0 (mMinima m) n + u0 n * (or0 (mMaxima m) n - or0 (mMinima m) n))%Qc /\
  sfind n (mMinima m1) = Some (or0 (mMinima m) n) /\ sfind n (mMaxima m1) = Some (or0 (mMaxima m) n).
Proof. exact (start_any_pkg u0 names m n). Qed.
Print Assumptions C44_missing_limit.
(** the limits were set for "b" only: "a" starts at 0, and so on *)
Example C44_missing_limit_nonvacuous : let m := mkMcmc 1 false false 0 0 [] [] samples0 [("b"%string, qz 3)] [("b"%string, 1%Qc)] [] in
  startPoint (fun _ => qhalf) ["a"%string] m = mkMcmc 1 false false 0 0 [] [("a"%string, 0%Qc)] samples0 [("a"%string, 0%Qc); ("b"%string, qz 3)] [("a"%string, 0%Qc); ("b"%string, 1%Qc)] [] /\
  startPoint (fun _ => qhalf) ["b"%string] m = mkMcmc 1 false false 0 0 [] [("b"%string, qz 2)] samples0 [("b"%string, qz 3)] [("b"%string, 1%Qc)] [].
Proof.
  cbv zeta. assert (E1 : (0 + qhalf * (0 - 0))%Qc = 0%Qc) by (apply Qc_is_canon; vm_compute; reflexivity). assert (E2 : (1 + qhalf * (qz 3 - 1))%Qc = qz 2) by (apply Qc_is_canon; vm_compute; reflexivity).
  split; cbn [startPoint mInit fold_left sget0 sfind mMinima mMaxima String.eqb Ascii.eqb Bool.eqb mCur sset mMaxIter mLogged mFlip mMaxVal mCurVal mBest mSamples].
  - rewrite E1. reflexivity.
  - rewrite E2. reflexivity.
Qed.

(** * C45 *)
(** The reported best fit was visited, is at least the value at the start and at every point left behind by an
    accepted step; the only visited value that may exceed it is that of the final current point. *)
Theorem C45_best_partial guess f ex draw corr unif u0 names m m' : mInit m <> [] \/ has_limits m names ->
  mOptimise guess f ex draw corr unif u0 names m = Ok m' ->
  exists start v0 log, starts_at u0 names m start /\ chain_value f m start = Ok v0 /\
    sLog (mSamples m') = sLog (mSamples m) ++ log /\ List.length log = mMaxIter m /\
    visited start v0 log (mBest m') (mMaxVal m') /\
    (v0 <= mMaxVal m')%Qc /\
    (forall l1 e l2, log = l1 ++ e :: l2 -> eA e = true -> forall x, In x l1 -> (eV x <= mMaxVal m')%Qc) /\
    (forall p v, visited start v0 log p v -> (v <= mMaxVal m')%Qc \/ v = mCurVal m').
Proof. exact (best_pkg guess f ex draw corr unif u0 names m m'). Qed.
Print Assumptions C45_best_partial.

(** a climbing chain: the statistic is the parameter itself, each proposal is one higher *)
Definition ex_stat (p : smap Qc) : res Qc := sat "a" p.
Definition ex_draw (i : nat) : smap Qc -> res (smap Qc) := metroDraw [("a"%string, 1%Qc)] [] (fun _ s => s).
Definition ex_samples (full : bool) : samples := mkSamples full ac_empty 0 0 0 1 false [] [] hist0 (acalc0 2) [].
Definition ex_mcmc (full : bool) (n : nat) : mcmc :=
  mkMcmc n false false 0 0 [] [] (ex_samples full) [("a"%string, qz 10)] [("a"%string, 0%Qc)] [("a"%string, 1%Qc)].
Definition ex_run (full : bool) (n : nat) : res mcmc :=
  mOptimise (fun _ _ => 2) ex_stat (fun q => Fin q) ex_draw (fun _ => 0%Qc) (fun _ => qhalf) (fun _ => qhalf) ["a"%string] (ex_mcmc full n).

Fixpoint map_eqb (a b : smap Qc) : bool :=
  match a, b with
  | [], [] => true
  | (k, v) :: s, (l, w) :: t => String.eqb k l && qeqb v w && map_eqb s t
  | _, _ => false
  end.
Lemma map_eqb_refl a : map_eqb a a = true.
Proof. induction a as [|[k v] a IH]; cbn [map_eqb]; [reflexivity|]. rewrite String.eqb_refl, IH, (proj2 (qeqb_eq v v) eq_refl). reflexivity. Qed.

Definition misses_best (r : res mcmc) : bool :=
  match r with
  | Ok m' => match nth_error (sLog (mSamples m')) 2 with
             | Some (p, v, a) => qltb (mMaxVal m') v && negb (map_eqb (mBest m') p)
             | None => false end
  | _ => false end.
Lemma misses_best_spec r : misses_best r = true -> exists m' p v a,
  r = Ok m' /\ In (p, v, a) (sLog (mSamples m')) /\ (mMaxVal m' < v)%Qc /\ mBest m' <> p.
Proof.
  destruct r as [m'| | | |]; cbn [misses_best]; try discriminate.
  destruct (nth_error (sLog (mSamples m')) 2) as [[[p v] a]|] eqn:En; [|discriminate]. intros K.
  apply andb_prop in K. destruct K as [K1 K2]. exists m', p, v, a. split; [reflexivity|].
  split; [exact (nth_error_In _ _ En)|]. split; [now apply qltb_lt|].
  intros C. rewrite C, map_eqb_refl in K2. discriminate.
Qed.
Lemma ex_run_misses : misses_best (mOptimise (fun _ _ => 2) ex_stat (fun q => Fin q) ex_draw (fun _ => 0%Qc) (fun _ => qhalf) (fun _ => qhalf) ["a"%string] (ex_mcmc true 3)) = true.
Proof. vm_compute. reflexivity. Qed.

(** The best fit reported need not be the largest value visited: when the last step is an improvement it is missed. *)
Theorem C45_best_refuted : exists guess f ex draw corr unif u0 names m m' p v a,
  mOptimise guess f ex draw corr unif u0 names m = Ok m' /\ has_limits m names /\
  In (p, v, a) (sLog (mSamples m')) /\ (mMaxVal m' < v)%Qc /\ mBest m' <> p.
Proof.
  destruct (misses_best_spec _ ex_run_misses) as [m' [p [v [a [E [H1 [H2 H3]]]]]]].
  exists (fun _ _ => 2), ex_stat, (fun q => Fin q), ex_draw, (fun _ => 0%Qc), (fun _ => qhalf), (fun _ => qhalf), ["a"%string], (ex_mcmc true 3), m', p, v, a.
  split; [exact E|]. split; [|auto]. intros n [<-|[]]. do 2 eexists. split; reflexivity.
Qed.
Print Assumptions C45_best_refuted.

(** * C46 *)
(** Totals and rates after any history of Fill calls. *)
Theorem C46_rates guess minima maxima maxIter log s s' : fill_calls guess minima maxima maxIter s log = Ok s' ->
  sTot s' = sTot s + List.length log /\ sAcc s' = sAcc s + n_accepted log /\
  (sTot s + List.length log <> 0 ->
     acceptanceRate s' = Ok (qn (sAcc s + n_accepted log) / qn (sTot s + List.length log))%Qc /\
     rejectionRate s' = Ok (1 - qn (sAcc s + n_accepted log) / qn (sTot s + List.length log))%Qc).
Proof. exact (counts_pkg guess minima maxima maxIter log s s'). Qed.
Print Assumptions C46_rates.

(** Fresh samples after a history of Fill calls: the histograms hold exactly the points of the steps i with
    burnIn < i and i divisible by the thinning factor, weight one each, and there are
    (steps-1)/thin - burnIn/thin of them. *)
Theorem C46_recorded guess minima maxima maxIter s log s' burn thin : swf minima -> minima <> [] -> ac_reach (sAxes s) ->
  sInit s = false -> sTot s = 0 -> sBurn s = Z.of_nat burn -> sThin s = Z.of_nat thin -> thin <> 0 -> log <> [] ->
  fill_calls guess minima maxima maxIter s log = Ok s' ->
  let pts := map eP (recorded burn thin 0 log) in
  let k := (List.length log - 1) / thin - burn / thin in
  List.length pts = k /\
  (forall p, In p pts <-> exists i e, nth_error log i = Some e /\ eP e = p /\ burn < i /\ i mod thin = 0) /\
  (sFull s = true -> exists axes, ac_reach axes /\ List.length (acAxes axes) = List.length minima /\
     (acAxes (sAxes s) <> [] -> axes = sAxes s) /\ (acAxes (sAxes s) = [] -> map aName (acAxes axes) = skeys minima) /\
     sHist s' = filled (mk_hist axes) pts /\ integral (sHist s') = Ok (qn k)) /\
  (sFull s = false ->
     (forall n, In n (skeys (s1D s')) <-> In n (skeys minima)) /\
     (forall n h, sfind n (s1D s') = Some h -> names_of h = [n] /\ integral h = Ok (qn k) /\
        exists h0, all_zero h0 /\ same_axes h h0 /\ h = filled h0 pts) /\
     (forall n h, sfind n (s2D s') = Some h -> integral h = Ok (qn k) /\
        exists h0 p, distinct_pair (skeys minima) p /\ n = (fst p ++ "_" ++ snd p)%string /\ names_of h = [fst p; snd p] /\
          all_zero h0 /\ same_axes h h0 /\ h = filled h0 pts) /\
     (forall a b, In a (skeys minima) -> In b (skeys minima) -> a <> b ->
        In (a ++ "_" ++ b)%string (skeys (s2D s')) \/ In (b ++ "_" ++ a)%string (skeys (s2D s')))).
Proof. exact (fresh_pkg guess minima maxima maxIter s log s' burn thin). Qed.
Print Assumptions C46_recorded.

(** The same after a Clear, whatever was filled before: counters and histograms start again, the settings stay. *)
Theorem C46_clear guess minima maxima maxIter s0 log s' burn thin : swf minima -> minima <> [] -> ac_reach (sAxes s0) ->
  sBurn s0 = Z.of_nat burn -> sThin s0 = Z.of_nat thin -> thin <> 0 -> log <> [] ->
  fill_calls guess minima maxima maxIter (sClear s0) log = Ok s' ->
  (sTot s' = List.length log /\ sAcc s' = n_accepted log) /\
  let pts := map eP (recorded burn thin 0 log) in
  let k := (List.length log - 1) / thin - burn / thin in
  List.length pts = k /\
  (forall p, In p pts <-> exists i e, nth_error log i = Some e /\ eP e = p /\ burn < i /\ i mod thin = 0) /\
  (sFull s0 = true -> exists axes, ac_reach axes /\ List.length (acAxes axes) = List.length minima /\
     (acAxes (sAxes s0) <> [] -> axes = sAxes s0) /\ (acAxes (sAxes s0) = [] -> map aName (acAxes axes) = skeys minima) /\
     sHist s' = filled (mk_hist axes) pts /\ integral (sHist s') = Ok (qn k)) /\
  (sFull s0 = false ->
     (forall n, In n (skeys (s1D s')) <-> In n (skeys minima)) /\
     (forall n h, sfind n (s1D s') = Some h -> names_of h = [n] /\ integral h = Ok (qn k) /\
        exists h0, all_zero h0 /\ same_axes h h0 /\ h = filled h0 pts) /\
     (forall n h, sfind n (s2D s') = Some h -> integral h = Ok (qn k) /\
        exists h0 p, distinct_pair (skeys minima) p /\ n = (fst p ++ "_" ++ snd p)%string /\ names_of h = [fst p; snd p] /\
          all_zero h0 /\ same_axes h h0 /\ h = filled h0 pts) /\
     (forall a b, In a (skeys minima) -> In b (skeys minima) -> a <> b ->
        In (a ++ "_" ++ b)%string (skeys (s2D s')) \/ In (b ++ "_" ++ a)%string (skeys (s2D s')))).
Proof. exact (clear_pkg guess minima maxima maxIter s0 log s' burn thin). Qed.
Print Assumptions C46_clear.
(** Samples nobody has configured: a burn-in of 1000 steps, then every step. *)
Theorem C46_defaults guess minima maxima maxIter log s' : swf minima -> minima <> [] -> log <> [] ->
  fill_calls guess minima maxima maxIter samples0 log = Ok s' ->
  sTot s' = List.length log /\ sAcc s' = n_accepted log /\
  (forall p, In p (map eP (recorded 1000 1 0 log)) <-> exists i e, nth_error log i = Some e /\ eP e = p /\ 1000 < i) /\
  (forall n h, sfind n (s1D s') = Some h -> integral h = Ok (qn (List.length log - 1 - 1000)) /\
     exists h0, all_zero h0 /\ same_axes h h0 /\ h = filled h0 (map eP (recorded 1000 1 0 log))).
Proof. exact (defaults_pkg guess minima maxima maxIter log s'). Qed.
Print Assumptions C46_defaults.

(** A whole run feeds its steps, in order, to the samples, and the acceptance rate is accepted/total. *)
Theorem C46_run guess f ex draw corr unif u0 names m m' : mInit m <> [] \/ has_limits m names ->
  mOptimise guess f ex draw corr unif u0 names m = Ok m' ->
  exists log, sLog (mSamples m') = sLog (mSamples m) ++ log /\ List.length log = mMaxIter m /\
    fill_calls guess (mMinima m) (mMaxima m) (mMaxIter m) (mSamples m) log = Ok (mSamples m') /\
    (sTot (mSamples m) = 0 -> sAcc (mSamples m) = 0 -> mMaxIter m <> 0 ->
       acceptanceRate (mSamples m') = Ok (qn (n_accepted log) / qn (mMaxIter m))%Qc /\
       rejectionRate (mSamples m') = Ok (1 - qn (n_accepted log) / qn (mMaxIter m))%Qc).
Proof. exact (counts_opt_pkg guess f ex draw corr unif u0 names m m'). Qed.
Print Assumptions C46_run.

(** A thinning factor of zero is accepted by the setter and is undefined behaviour at the first step past burn-in. *)
Theorem C46_zero_thinning_refuted guess minima maxima maxIter s p v a :
  sInit s = true -> sThin s = 0%Z -> (sBurn s < Z.of_nat (sTot s))%Z ->
  sFill guess minima maxima maxIter s p v a = UB.
Proof. exact (zero_thin_pkg guess minima maxima maxIter s p v a). Qed.
Print Assumptions C46_zero_thinning_refuted.

(** A burn-in of 2^31 becomes negative: the very first step is recorded. *)
Theorem C46_huge_burn_in_refuted b m : Z.of_nat b = 2147483648%Z ->
  sInit (mSamples m) = true -> sTot (mSamples m) = 0 -> sThin (mSamples m) = 1%Z ->
  sBurn (mSamples (setBurnIn m b)) = (-2147483648)%Z /\ recordStep (mSamples (setBurnIn m b)) = Ok true.
Proof. exact (burn_wrap b m). Qed.
Print Assumptions C46_huge_burn_in_refuted.

(** * C74 *)
(** The decision on one proposal: outside the box it is refused; inside, with uniform number u < 1, it is accepted
    exactly when u <= min(1, r), r the ratio of the two values (exp of the difference plus the sampler's correction
    for a logged statistic); an infinite r is accepted. *)
Theorem C74_acceptance_rule f ex corr u m prop : (u < 1)%Qc ->
  (in_box (mMinima m) (mMaxima m) (skeys (mCur m)) prop -> forall pv, chain_value f m prop = Ok pv ->
   exists m' acc, stepAccepted f ex corr u m prop = Ok (m', acc) /\
     (mCur m', mCurVal m') = (if acc then (prop, pv) else (mCur m, mCurVal m)) /\
     (mLogged m = true -> forall r, ex (pv - mCurVal m + corr)%Qc = Fin r -> (acc = true <-> (u <= qmin 1 r)%Qc)) /\
     (mLogged m = true -> ex (pv - mCurVal m + corr)%Qc = PInf -> acc = true) /\
     (mLogged m = false -> mCurVal m <> 0%Qc -> (acc = true <-> (u <= qmin 1 (pv / mCurVal m))%Qc)) /\
     (mLogged m = false -> mCurVal m = 0%Qc -> (acc = true <-> pv <> 0%Qc))) /\
  (forall m' acc, stepAccepted f ex corr u m prop = Ok (m', acc) -> acc = true ->
     in_box (mMinima m) (mMaxima m) (skeys (mCur m)) prop).
Proof. exact (rule_pkg f ex corr u m prop). Qed.
Print Assumptions C74_acceptance_rule.

(** Detailed balance for two positive values x and y of an un-logged statistic: the acceptance thresholds satisfy
    x * A(x->y) = y * A(y->x). *)
Theorem C74_detailed_balance ex c x y : (0 < x)%Qc -> (0 < y)%Qc -> exists axy ayx,
  (forall u, (u < 1)%Qc -> (accepts (accParam ex false y x c) u = true <-> (u <= axy)%Qc)) /\
  (forall u, (u < 1)%Qc -> (accepts (accParam ex false x y c) u = true <-> (u <= ayx)%Qc)) /\
  (0 < axy)%Qc /\ (axy <= 1)%Qc /\ (0 < ayx)%Qc /\ (ayx <= 1)%Qc /\ (x * axy = y * ayx)%Qc.
Proof. exact (balance_pkg ex c x y). Qed.
Print Assumptions C74_detailed_balance.

(** * C75 *)
(** The auto-correlation estimate after any history of recorded values: one number per lag, lag i being the sum of
    (newest - mean)(value i back - mean) over the sum of (newest - mean)^2, means over the last n values; lag 0 is 1. *)
Theorem C75_autocorrelation n vs : n <> 0 -> exists c, foldM cFill vs (acalc0 n) = Ok c /\
  ((forall i, i < n -> qsum (map (norm_term n vs i) (seq 0 (List.length vs))) <> 0%Qc) ->
     cGet c = Ok (map (fun i => (qsum (map (lag_term n vs i) (seq 0 (List.length vs))) / qsum (map (norm_term n vs i) (seq 0 (List.length vs))))%Qc) (seq 0 n))) /\
  (forall l, cGet c = Ok l -> List.length l = n /\ nth 0 l 0%Qc = 1%Qc).
Proof. exact (corr_pkg n vs). Qed.
Print Assumptions C75_autocorrelation.

(** ** the hypotheses are met *)
Example C44_nonvacuous : box_start (fun _ => qhalf) ["a"%string] (ex_mcmc false 12) /\
  (match ex_run false 12 with
   | Ok m' => Nat.eqb (List.length (sLog (mSamples m'))) 12 && Nat.eqb (n_accepted (sLog (mSamples m'))) 9 && map_eqb (mCur m') [("a"%string, qz 10)]
   | _ => false end) = true.
Proof.
  split; [|vm_compute; reflexivity].
  left. split; [discriminate|]. intros k [<-|[]]. exists 1%Qc, 0%Qc, (qz 10). repeat split; vm_compute; discriminate.
Qed.
Example C46_nonvacuous : swf (mMinima (ex_mcmc true 12)) /\ ac_reach (sAxes (mSamples (ex_mcmc true 12))) /\
  (match ex_run true 12 with
   | Ok m' => match integral (sHist (mSamples m')) with Ok q => qeqb q (qz 11) | _ => false end
   | _ => false end) = true /\
  (match ex_run false 12 with
   | Ok m' => match sfind "a" (s1D (mSamples m')) with
              | Some h => match integral h with Ok q => qeqb q (qz 11) | _ => false end
              | None => false end
   | _ => false end) = true.
Proof. split; [repeat constructor|]. split; [constructor|]. split; vm_compute; reflexivity. Qed.
Example C46_nonvacuous_zero :
  match ex_run true 3 with
  | Ok m' => sFill (fun _ _ => 2) [] [] 0 (mSamples (setThin m' 0)) [] 0%Qc true = UB
  | _ => False end.
Proof. vm_compute; reflexivity. Qed.
Example C74_nonvacuous : let m := ex_mcmc true 1 in
  let m1 := mkMcmc 1 false false (qz 2) (qz 2) [("a"%string, qz 2)] [("a"%string, qz 2)] (mSamples m) (mMaxima m) (mMinima m) (mInit m) in
  in_box (mMinima m1) (mMaxima m1) (skeys (mCur m1)) [("a"%string, 1%Qc)] /\
  chain_value ex_stat m1 [("a"%string, 1%Qc)] = Ok 1%Qc /\
  match stepAccepted ex_stat (fun q => Fin q) 0 qhalf m1 [("a"%string, 1%Qc)] with Ok (_, b) => b = true | _ => False end /\
  match stepAccepted ex_stat (fun q => Fin q) 0 (qq 3 4) m1 [("a"%string, 1%Qc)] with Ok (_, b) => b = false | _ => False end.
Proof.
  cbv zeta. split; [|split; [|split]].
  - intros k [<-|[]]. exists 1%Qc, 0%Qc, (qz 10). repeat split; vm_compute; discriminate.
  - reflexivity.
  - vm_compute. reflexivity.
  - vm_compute. reflexivity.
Qed.
Example C75_nonvacuous :
  (forall i, i < 2 -> qsum (map (norm_term 2 [qz 1; qz 3; qz 2; qz 5] i) (seq 0 4)) <> 0%Qc) /\
  (match foldM cFill [qz 1; qz 3; qz 2; qz 5] (acalc0 2) with
  | Ok c => match cGet c with Ok [a; b] => qeqb a 1 && qeqb b (- (1))%Qc | _ => false end
  | _ => false end) = true.
Proof.
  split; [|vm_compute; reflexivity]. intros i Hi C. apply (f_equal this) in C.
  destruct i as [|[|i]]; [vm_compute in C; discriminate..|]. do 2 apply Nat.succ_lt_mono in Hi. inversion Hi.
Qed.
(** the samples of a run of 12 steps, cleared and filled with two of its steps again: one is recorded (step 0 is not) *)
Example C46_clear_nonvacuous :
  match ex_run false 12 with
  | Ok m' => let s0 := mSamples m' in negb (Nat.eqb (sTot s0) 0) &&
      match fill_calls (fun _ _ => 2) (mMinima m') (mMaxima m') 2 (sClear s0) (firstn 2 (sLog s0)) with
      | Ok s' => Nat.eqb (sTot s') 2 && match sfind "a" (s1D s') with Some h => match integral h with Ok q => qeqb q 1 | _ => false end | None => false end
      | _ => false end
  | _ => false end = true.
Proof. vm_compute. reflexivity. Qed.
(** 1003 steps with the default settings: the last two are recorded *)
Example C46_defaults_nonvacuous :
  match fill_calls (fun _ _ => 2) [("a"%string, 0%Qc)] [("a"%string, qz 4)] 1003 samples0 (repeat ([("a"%string, 1%Qc)], 1%Qc, true) 1003) with
  | Ok s' => Nat.eqb (sTot s') 1003 && match sfind "a" (s1D s') with Some h => match integral h with Ok q => qeqb q (qz 2) | _ => false end | None => false end
  | _ => false end = true.
Proof. vm_compute. reflexivity. Qed.
