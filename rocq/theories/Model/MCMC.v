(** Model of /repo/src/optimise/MCMC.{h,cpp}, MCMCSamples.{h,cpp}, AutoCorrelationCalc.{h,cpp} and
    MetropolisSampler.{h,cpp}.
    Simplifications: doubles are exact rationals; the counters fAcceptedSteps and fTotalSteps are not
    bounded by INT_MAX; the test statistic is a function of the parameters it is given (None of its
    own state survives between evaluations) and yields finite values or an outcome that ends the run;
    printing is dropped; the TTree of SetSaveChain is not modelled (off, as by default); an exception
    that leaves Optimise leaves the outcome only, not the half-updated object.
    Random numbers: the i-th iteration's proposal, correction term and uniform number are arbitrary
    functions of i ([draw], [corr], [unif]), so every stream is covered.  exp of the C library is an
    arbitrary function [ex] whose result may be infinite or NaN. *)
From Coq Require Import ZArith.
From Verif Require Import Base.Res Base.Num Base.SMap Model.Axis Model.Hist Model.HistTools Model.Shrink.
Local Open Scope Qc_scope.
Local Open Scope res_scope.

(** a long double: finite, infinite or NaN *)
Inductive xval := Fin (q : Qc) | PInf | NInf | NaN.

(** AutoCorrelationCalc.h:22-25 fields; fQLen = number of entries of the vectors *)
Record acalc := mkACalc { cValues : list Qc; cDiffs : list Qc; cNorms : list Qc; cQLen : nat }.
(** AutoCorrelationCalc.h:9-13 constructor *)
Definition acalc0 (n : nat) : acalc := mkACalc [] (repeat 0 n) (repeat 0 n) n.
(** AutoCorrelationCalc.cpp:37-41 Mean *)
Definition cMean (vals : list Qc) : res Qc := qdiv (fold_left Qcplus vals 0) (qn (List.length vals)).
(** AutoCorrelationCalc.cpp:4-21 Fill *)
Definition cFill (c : acalc) (v : Qc) : res acalc :=
  let vals0 := cValues c ++ [v] in
  let vals := if Nat.ltb (cQLen c) (List.length vals0) then tl vals0 else vals0 in
  do mean <- cMean vals;
  match rev vals with
  | [] => UB
  | newest :: _ =>
      do dn <- foldM (fun dn i =>
                        do older <- vidx (rev vals) i;
                        do d <- vidx (fst dn) i;
                        do n <- vidx (snd dn) i;
                        Ok (upd (fst dn) i (d + (newest - mean) * (older - mean)),
                            upd (snd dn) i (n + (newest - mean) * (newest - mean))))
                     (seq 0 (List.length vals)) (cDiffs c, cNorms c);
      Ok (mkACalc vals (fst dn) (snd dn) (cQLen c))
  end.
(** AutoCorrelationCalc.cpp:23-35 Get *)
Definition cGet (c : acalc) : res (list Qc) :=
  mapM (fun i => do d <- vidx (cDiffs c) i; do n <- vidx (cNorms c) i; qdiv d n) (seq 0 (List.length (cDiffs c))).

(** MCMCSamples.h:54-72, the fields in use.  [sLog] is not a field of the class: it lists the arguments
    of every Fill call so far, in order. *)
Record samples := mkSamples {
  sFull : bool; sAxes : axcol; sAcc : nat; sTot : nat; sBurn : Z; sThin : Z; sInit : bool;
  s1D : smap hist; s2D : smap hist; sHist : hist; sCorr : acalc;
  sLog : list (smap Qc * Qc * bool) }.
(** MCMCSamples.h:14-19 constructor *)
Definition samples0 : samples :=
  mkSamples false ac_empty 0 0 1000 1 false [] [] hist0 (acalc0 1000) [].

(** MCMCSamples.cpp:43-46 GetAcceptanceRate and 37-40 GetRejectionRate *)
Definition acceptanceRate (s : samples) : res Qc := qdiv (qn (sAcc s)) (qn (sTot s)).
Definition rejectionRate (s : samples) : res Qc := do a <- acceptanceRate s; Ok (1 - a).

(** MCMCSamples.cpp:58-129 InitialiseHistograms.  [guess maxIter n] stands for int(pow(maxIter, 1./n)). *)
Definition initHists (guess : nat -> nat -> nat) (minima maxima : smap Qc) (maxIter : nat) (s : samples) : res samples :=
  let names := skeys minima in
  do axes <- (if negb (Nat.eqb (acNDims (sAxes s)) 0)
              then if negb (Nat.eqb (acNDims (sAxes s)) (List.length minima)) then Throw DimensionError
                   else Ok (sAxes s)
              else foldM (fun ac n =>
                            do mx <- sat n maxima;
                            do mn <- sat n minima;
                            let mx' := if qeqb mx mn then mx + qq 1 100 else mx in
                            do a <- mk_equal n mn mx' (guess maxIter (List.length minima)) "";
                            addAxis ac a) names ac_empty);
  if sFull s
  then Ok (mkSamples (sFull s) (sAxes s) (sAcc s) (sTot s) (sBurn s) (sThin s) true (s1D s) (s2D s)
                     (mk_hist axes) (sCorr s) (sLog s))
  else
    do h2 <- makeHists2 axes (allCombsNoDiag names);
    do h1 <- makeHists1 axes names;
    Ok (mkSamples (sFull s) (sAxes s) (sAcc s) (sTot s) (sBurn s) (sThin s) true h1 h2 (sHist s) (sCorr s) (sLog s)).

(** the condition of MCMCSamples.cpp:137: fTotalSteps > fBurnIn && !(fTotalSteps % fThinFactor) *)
Definition recordStep (s : samples) : res bool :=
  if negb (sBurn s <? Z.of_nat (sTot s))%Z then Ok false
  else if (sThin s =? 0)%Z then UB
  else Ok (Z.rem (Z.of_nat (sTot s)) (sThin s) =? 0)%Z.

(** run FillAllHists and keep the map (FillProjections, MCMCSamples.cpp:27-34) *)
Definition fillRet (hs : smap hist) (p : smap Qc) : res (smap hist) :=
  match fillAllHists hs p with (hs', o) => do u <- o; Ok hs' end.

(** MCMCSamples.cpp:131-167 Fill *)
Definition sFill (guess : nat -> nat -> nat) (minima maxima : smap Qc) (maxIter : nat)
    (s : samples) (p : smap Qc) (v : Qc) (accepted : bool) : res samples :=
  do s1 <- (if sInit s then Ok s else initHists guess minima maxima maxIter s);
  do rc <- recordStep s1;
  do s2 <- (if rc
            then
              do hs <- (if sFull s1
                        then do h <- ret (fill_map (sHist s1) p 1); Ok (h, s1D s1, s2D s1)
                        else do a <- fillRet (s1D s1) p; do b <- fillRet (s2D s1) p; Ok (sHist s1, a, b));
              do c <- cFill (sCorr s1) v;
              Ok (mkSamples (sFull s1) (sAxes s1) (sAcc s1) (sTot s1) (sBurn s1) (sThin s1) (sInit s1)
                            (snd (fst hs)) (snd hs) (fst (fst hs)) c (sLog s1))
            else Ok s1);
  Ok (mkSamples (sFull s2) (sAxes s2) (if accepted then S (sAcc s2) else sAcc s2) (S (sTot s2))
                (sBurn s2) (sThin s2) (sInit s2) (s1D s2) (s2D s2) (sHist s2) (sCorr s2)
                (sLog s2 ++ [(p, v, accepted)])).

(** MCMCSamples.cpp:219-229 Clear *)
Definition sClear (s : samples) : samples :=
  mkSamples (sFull s) (sAxes s) 0 0 (sBurn s) (sThin s) false [] []
            (fst (empty_bins (sHist s))) (acalc0 (cQLen (sCorr s))) (sLog s).

(** MCMC.h:64-85, the fields in use *)
Record mcmc := mkMcmc {
  mMaxIter : nat; mLogged : bool; mFlip : bool; mMaxVal : Qc; mCurVal : Qc;
  mBest : smap Qc; mCur : smap Qc; mSamples : samples;
  mMaxima : smap Qc; mMinima : smap Qc; mInit : smap Qc }.
(** MCMC.h:13-22 constructor *)
Definition mcmc0 : mcmc := mkMcmc (Z.to_nat 100000) false false 0 0 [] [] samples0 [] [] [].

(** MCMC.cpp:28-31 and 39-42 with MCMCSamples.cpp:204-217: unsigned converted to int *)
Definition setBurnIn (m : mcmc) (b : nat) : mcmc :=
  let s := mSamples m in
  mkMcmc (mMaxIter m) (mLogged m) (mFlip m) (mMaxVal m) (mCurVal m) (mBest m) (mCur m)
    (mkSamples (sFull s) (sAxes s) (sAcc s) (sTot s) (s32 (Z.of_nat b)) (sThin s) (sInit s) (s1D s) (s2D s) (sHist s) (sCorr s) (sLog s))
    (mMaxima m) (mMinima m) (mInit m).
Definition setThin (m : mcmc) (t : nat) : mcmc :=
  let s := mSamples m in
  mkMcmc (mMaxIter m) (mLogged m) (mFlip m) (mMaxVal m) (mCurVal m) (mBest m) (mCur m)
    (mkSamples (sFull s) (sAxes s) (sAcc s) (sTot s) (sBurn s) (s32 (Z.of_nat t)) (sInit s) (s1D s) (s2D s) (sHist s) (sCorr s) (sLog s))
    (mMaxima m) (mMinima m) (mInit m).

(** one value of the test statistic after SetParameters, with the sign flip of MCMC.cpp:174-177, 222-228 *)
Definition statValue (f : smap Qc -> res Qc) (flip : bool) (p : smap Qc) : res Qc :=
  do v <- f p; Ok (if flip then - v else v).

(** MCMC.cpp:214-220: the box check, over the parameters of the current step *)
Fixpoint insideBox (minima maxima : smap Qc) (cur prop : smap Qc) : res bool :=
  match cur with
  | [] => Ok true
  | (k, _) :: t =>
      do p <- sat k prop;
      do lo <- sat k minima;
      if qltb p lo then Ok false
      else
        do hi <- sat k maxima;
        if qltb hi p then Ok false else insideBox minima maxima t prop
  end.

(** MCMC.cpp:236-246: the acceptance parameter and the decision.  Division by a current value of zero
    gives an infinity with the sign of the numerator, or NaN. *)
Definition accParam (ex : Qc -> xval) (logged : bool) (prop cur corr : Qc) : xval :=
  if logged then ex (prop - cur + corr)
  else if qeqb cur 0
       then (if qeqb prop 0 then NaN else if qltb 0 prop then PInf else NInf)
       else Fin (prop / cur).
Definition accepts (a : xval) (u : Qc) : bool :=
  match a with
  | Fin r => qltb 1 r || qleb u r
  | PInf | NInf => true
  | NaN => false
  end.

(** MCMC.cpp:212-255 StepAccepted *)
Definition stepAccepted (f : smap Qc -> res Qc) (ex : Qc -> xval) (corr u : Qc) (m : mcmc) (prop : smap Qc)
    : res (mcmc * bool) :=
  do inside <- insideBox (mMinima m) (mMaxima m) (mCur m) prop;
  if negb inside then Ok (m, false)
  else
    do pv <- statValue f (mFlip m) prop;
    let better := qltb (mMaxVal m) (mCurVal m) in
    let mv := if better then mCurVal m else mMaxVal m in
    let bf := if better then mCur m else mBest m in
    let acc := accepts (accParam ex (mLogged m) pv (mCurVal m) corr) u in
    Ok (mkMcmc (mMaxIter m) (mLogged m) (mFlip m) mv (if acc then pv else mCurVal m) bf
               (if acc then prop else mCur m) (mSamples m) (mMaxima m) (mMinima m) (mInit m), acc).

(** MCMC.cpp:193-200, one iteration *)
Definition mIter (guess : nat -> nat -> nat) (f : smap Qc -> res Qc) (ex : Qc -> xval)
    (draw : nat -> smap Qc -> res (smap Qc)) (corr unif : nat -> Qc) (m : mcmc) (i : nat) : res mcmc :=
  do prop <- draw i (mCur m);
  do ma <- stepAccepted f ex (corr i) (unif i) m prop;
  let m1 := fst ma in
  do s <- sFill guess (mMinima m1) (mMaxima m1) (mMaxIter m1) (mSamples m1) (mCur m1) (mCurVal m1) (snd ma);
  Ok (mkMcmc (mMaxIter m1) (mLogged m1) (mFlip m1) (mMaxVal m1) (mCurVal m1) (mBest m1) (mCur m1) s
             (mMaxima m1) (mMinima m1) (mInit m1)).

(** operator[] on a map: inserts 0 for a missing key *)
Definition sget0 (k : string) (m : smap Qc) : Qc * smap Qc :=
  match sfind k m with Some v => (v, m) | None => (0, sset k 0 m) end.

(** MCMC.cpp:155-167: the starting point; [u0 n] is the uniform number drawn for parameter n *)
Definition startPoint (u0 : string -> Qc) (names : list string) (m : mcmc) : mcmc :=
  match mInit m with
  | _ :: _ => mkMcmc (mMaxIter m) (mLogged m) (mFlip m) (mMaxVal m) (mCurVal m) (mBest m) (mInit m) (mSamples m)
                     (mMaxima m) (mMinima m) (mInit m)
  | [] =>
      fold_left (fun m n =>
                   let (lo, mins) := sget0 n (mMinima m) in
                   let (hi, maxs) := sget0 n (mMaxima m) in
                   mkMcmc (mMaxIter m) (mLogged m) (mFlip m) (mMaxVal m) (mCurVal m) (mBest m)
                          (sset n (lo + u0 n * (hi - lo)) (mCur m)) (mSamples m) maxs mins (mInit m))
                names m
  end.

(** MCMC.cpp:135-210 Optimise.  [names] are the parameter names of the test statistic.
    The fit result reported is (mBest, mMaxVal) of the object afterwards. *)
Definition mOptimise (guess : nat -> nat -> nat) (f : smap Qc -> res Qc) (ex : Qc -> xval)
    (draw : nat -> smap Qc -> res (smap Qc)) (corr unif : nat -> Qc) (u0 : string -> Qc)
    (names : list string) (m : mcmc) : res mcmc :=
  let n := List.length names in
  if (negb (Nat.eqb (List.length (mInit m)) n) && negb (Nat.eqb (List.length (mInit m)) 0))
     || negb (Nat.eqb (List.length (mMaxima m)) n) || negb (Nat.eqb (List.length (mMinima m)) n)
  then Throw LogicError
  else
    let m1 := startPoint u0 names m in
    do v <- statValue f (mFlip m1) (mCur m1);
    let m2 := mkMcmc (mMaxIter m1) (mLogged m1) (mFlip m1) v v (mCur m1) (mCur m1) (mSamples m1)
                     (mMaxima m1) (mMinima m1) (mInit m1) in
    foldM (mIter guess f ex draw corr unif) (seq 0 (mMaxIter m2)) m2.

(** MetropolisSampler.cpp:25-38 Draw; [g n s] is the number Rand::Gaus(0, s) gives for parameter n *)
Fixpoint metroDraw (sigmas : smap Qc) (fixed : list string) (g : string -> Qc -> Qc) (cur : smap Qc) : res (smap Qc) :=
  match cur with
  | [] => Ok []
  | (k, v) :: t =>
      do v' <- (if existsb (String.eqb k) fixed then Ok v else do s <- sat k sigmas; Ok (v + g k s));
      do t' <- metroDraw sigmas fixed g t;
      Ok ((k, v') :: t')
  end.
