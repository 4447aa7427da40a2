(** Model of /repo/src/optimise/Minuit.{h,cpp}, MinuitFCN.{h,cpp} and FitResult.{h,cpp}.
    ROOT's Minuit2 is a function [minimiser] from the problem it is given to its answer; the statistic is its parameter names
    and a function from parameter values to the outcome of SetParameters + Evaluate.  Simplifications: doubles are exact
    rationals; failing asserts are UB; FitResult's text output, samples and projections are not modelled;
    when the minimiser throws, fSetParameters is left as it was before. *)
From Coq Require Import ZArith.
From Verif Require Import Base.Res Base.Num Base.SMap Model.Axis Model.Hist Model.Matrix Model.Grid.
Local Open Scope Qc_scope.
Local Open Scope res_scope.

Record stat := mkStat { tsNames : list string; tsEval : smap Qc -> res Qc }.
(** what Minuit2 is told: parameters in order, with their limits if any, positions to fix, the error definition, the function *)
Record problem := mkProblem { pbMethod : string; pbVals : list Qc; pbErrs : list Qc; pbLimits : list (option (Qc * Qc)); pbFixed : list nat;
                              pbUp : Qc; pbStrategy : Z; pbMaxCalls : Z; pbTol : Qc; pbFCN : list Qc -> res Qc }.
(** what it answers: all parameters, the minimum, validity, packed covariance; and the point it evaluated last, if any *)
Record answer := mkAnswer { anParams : list Qc; anFval : Qc; anValid : bool; anCov : list Qc; anLast : option (list Qc) }.

(** FitResult.h:51-66, without samples, projections and print precision *)
Record fitres := mkFit { frBest : smap Qc; frExtreme : Qc; frValid : bool; frCov : smat; frSpace : option hist }.
(** FitResult.h:19 *)
Definition fit0 : fitres := mkFit sempty 0 true mat_empty None.
(** FitResult.cpp:56-70 copy constructor *)
Definition fitCopy (o : fitres) : fitres := mkFit (frBest o) (frExtreme o) (frValid o) (frCov o) (frSpace o).
(** FitResult.cpp:38-54 operator=: whether the space is copied depends on the target's own pointer *)
Definition fitAssign (self o : fitres) : res fitres :=
  match frSpace self with
  | None => Ok (mkFit (frBest o) (frExtreme o) (frValid o) (frCov o) None)
  | Some _ => match frSpace o with
              | None => UB
              | Some h => Ok (mkFit (frBest o) (frExtreme o) (frValid o) (frCov o) (Some h))
              end
  end.
(** FitResult.cpp:26-29, 31-35 *)
Definition fitSetSpace (h : hist) (f : fitres) : fitres := mkFit (frBest f) (frExtreme f) (frValid f) (frCov f) (Some h).
Definition fitGetSpace (f : fitres) : res hist := match frSpace f with Some h => Ok h | None => UB end.

(** Minuit.h:62-85 with MinuitFCN.h:33-37: mUp, mFlip, mSet are fMinuitFCN's fUp, fFlipSign, fSetParameters *)
Record minuit := mkMinuit { mVals : smap Qc; mErrs : smap Qc; mMin : smap Qc; mMax : smap Qc; mFixed : list string; mMaxCalls : Z; mTol : Qc;
                            mStrategy : Z; mMethod : string; mMaximising : bool; mUp : Qc; mFlip : bool; mSet : smap Qc;
                            mNames : list string; mFit : fitres }.
(** Minuit.h:25-30, MinuitFCN.h:14 *)
Definition newMinuit : minuit :=
  mkMinuit sempty sempty sempty sempty [] 0 (Q2Qc (1 # 10)) 2 "Migrad" false qhalf false sempty [] fit0.
(** Minuit.cpp:41-70: the setters *)
Definition setInitialErrors (d : smap Qc) (m : minuit) := mkMinuit (mVals m) d (mMin m) (mMax m) (mFixed m) (mMaxCalls m) (mTol m) (mStrategy m) (mMethod m) (mMaximising m) (mUp m) (mFlip m) (mSet m) (mNames m) (mFit m).
Definition setInitialValues (d : smap Qc) (m : minuit) := mkMinuit d (mErrs m) (mMin m) (mMax m) (mFixed m) (mMaxCalls m) (mTol m) (mStrategy m) (mMethod m) (mMaximising m) (mUp m) (mFlip m) (mSet m) (mNames m) (mFit m).
Definition setMinima (d : smap Qc) (m : minuit) := mkMinuit (mVals m) (mErrs m) d (mMax m) (mFixed m) (mMaxCalls m) (mTol m) (mStrategy m) (mMethod m) (mMaximising m) (mUp m) (mFlip m) (mSet m) (mNames m) (mFit m).
Definition setMaxima (d : smap Qc) (m : minuit) := mkMinuit (mVals m) (mErrs m) (mMin m) d (mFixed m) (mMaxCalls m) (mTol m) (mStrategy m) (mMethod m) (mMaximising m) (mUp m) (mFlip m) (mSet m) (mNames m) (mFit m).
Definition setUpperContourEdge (x : Qc) (m : minuit) := mkMinuit (mVals m) (mErrs m) (mMin m) (mMax m) (mFixed m) (mMaxCalls m) (mTol m) (mStrategy m) (mMethod m) (mMaximising m) x (mFlip m) (mSet m) (mNames m) (mFit m).
Definition setMaximising (b : bool) (m : minuit) := mkMinuit (mVals m) (mErrs m) (mMin m) (mMax m) (mFixed m) (mMaxCalls m) (mTol m) (mStrategy m) (mMethod m) b (mUp m) (mFlip m) (mSet m) (mNames m) (mFit m).
Definition setMethod (s : string) (m : minuit) := mkMinuit (mVals m) (mErrs m) (mMin m) (mMax m) (mFixed m) (mMaxCalls m) (mTol m) (mStrategy m) s (mMaximising m) (mUp m) (mFlip m) (mSet m) (mNames m) (mFit m).
Definition setMaxCalls (z : Z) (m : minuit) := mkMinuit (mVals m) (mErrs m) (mMin m) (mMax m) (mFixed m) z (mTol m) (mStrategy m) (mMethod m) (mMaximising m) (mUp m) (mFlip m) (mSet m) (mNames m) (mFit m).
Definition setTolerance (x : Qc) (m : minuit) := mkMinuit (mVals m) (mErrs m) (mMin m) (mMax m) (mFixed m) (mMaxCalls m) x (mStrategy m) (mMethod m) (mMaximising m) (mUp m) (mFlip m) (mSet m) (mNames m) (mFit m).
Definition setStrategy (z : Z) (m : minuit) := mkMinuit (mVals m) (mErrs m) (mMin m) (mMax m) (mFixed m) (mMaxCalls m) (mTol m) z (mMethod m) (mMaximising m) (mUp m) (mFlip m) (mSet m) (mNames m) (mFit m).
Definition withFixed (l : list string) (m : minuit) := mkMinuit (mVals m) (mErrs m) (mMin m) (mMax m) l (mMaxCalls m) (mTol m) (mStrategy m) (mMethod m) (mMaximising m) (mUp m) (mFlip m) (mSet m) (mNames m) (mFit m).
(** Minuit.cpp:139-147 Fix, Release: a std::set *)
Definition fix_ (n : string) (m : minuit) := withFixed (sset_add n (mFixed m)) m.
Definition release (n : string) (m : minuit) := withFixed (filter (fun x => negb (String.eqb x n)) (mFixed m)) m.

(** map[k] in an expression: 0, and k is inserted, when it is absent *)
Definition sub (k : string) (d : smap Qc) : smap Qc * Qc := match sfind k d with Some v => (d, v) | None => (sset k 0 d, 0) end.
(** ContainerTools.hpp:50-63 GetValues(map, keys) *)
Definition getValues (d : smap Qc) (ks : list string) : res (list Qc) := mapM (fun k => sat k d) ks.
(** ContainerTools.hpp:83-100 SetValues *)
Definition setValues (d : smap Qc) (ks : list string) (vs : list Qc) : res (smap Qc) :=
  if negb (Nat.eqb (List.length vs) (List.length ks)) then UB
  else Ok (fold_left (fun m e => sset (fst e) (snd e) m) (combine ks vs) d).
(** MinuitFCN.cpp:3-16 operator() *)
Definition fcn (ts : stat) (flip : bool) (set : smap Qc) (names : list string) (vals : list Qc) : res Qc :=
  do d <- setValues set names vals;
  do v <- tsEval ts d;
  Ok (if flip then - (1) * v else v).
(** Minuit.cpp:117-125: limits, one parameter after the other *)
Fixpoint limits (names : list string) (mn mx : smap Qc) : smap Qc * smap Qc * list (option (Qc * Qc)) :=
  match names with
  | [] => (mn, mx, [])
  | n :: t => let '(mn', lo) := sub n mn in
              let '(mx', hi) := sub n mx in
              let '(a, b, l) := limits t mn' mx' in (a, b, Some (lo, hi) :: l)
  end.
(** Minuit.cpp:71-137 Initialise; pbFixed is filled in by Optimise *)
Definition mInit (ts : stat) (m : minuit) : minuit * res problem :=
  if negb (hasSameKeys (mMin m) (mMax m)) then (m, Throw LogicError)
  else if negb (hasSameKeys (mErrs m) (mVals m)) then (m, Throw LogicError)
  else if existsb (fun e => qleb (snd (sub (fst e) (mMax m))) (snd e)) (mMin m) then (m, Throw LogicError)
  else
    let names := skeys (mErrs m) in
    let flip := mMaximising m in
    let '(mn, mx, lims) := if andb (negb (Nat.eqb (List.length (mMin m)) 0)) (negb (Nat.eqb (List.length (mMax m)) 0))
                           then limits names (mMin m) (mMax m) else (mMin m, mMax m, map (fun _ => None) names) in
    let m' := mkMinuit (mVals m) (mErrs m) mn mx (mFixed m) (mMaxCalls m) (mTol m) (mStrategy m) (mMethod m) (mMaximising m) qhalf flip (mSet m) names (mFit m) in
    (m', do vs <- getValues (mVals m) names;
         do es <- getValues (mErrs m) names;
         if String.eqb (mMethod m) "Migrad" || String.eqb (mMethod m) "Minimize" || String.eqb (mMethod m) "Simplex"
         then Ok (mkProblem (mMethod m) vs es lims [] qhalf (mStrategy m) (mMaxCalls m) (mTol m) (fcn ts flip (mSet m) names))
         else Throw ValueError).
(** Minuit.cpp:173-181: positions of the parameters to fix *)
Definition fixAll (names fixed : list string) : res (list nat) :=
  mapM (fun n => match Axis.index_of n names with Some i => Ok i | None => Throw LogicError end) fixed.
(** Minuit.cpp:239-249 CalcCovarianceMatrix *)
Definition calcCov (v : list Qc) : res smat :=
  let n := Z.to_nat ((Z.sqrt (8 * Z.of_nat (List.length v) + 1) - 1) / 2) in
  match m_setSymmetric (mat_zeros n n) v with
  | (c, Ok _) => Ok c
  | (_, Throw e) => Throw e | (_, UB) => UB | (_, NonFinite) => NonFinite | (_, Diverge) => Diverge
  end.
(** Minuit.cpp:160-202 Optimise *)
Definition mOptimise (minimiser : problem -> res answer) (ts : stat) (m : minuit) : minuit * res (problem * fitres) :=
  match mInit ts m with
  | (m1, Ok pb) =>
      if negb (keys_eqb (tsNames ts) (mNames m1)) then (m1, Throw LogicError)
      else
        match fixAll (mNames m1) (mFixed m1) with
        | Ok fixed =>
            let pb' := mkProblem (pbMethod pb) (pbVals pb) (pbErrs pb) (pbLimits pb) fixed (pbUp pb) (pbStrategy pb) (pbMaxCalls pb) (pbTol pb) (pbFCN pb) in
            match minimiser pb' with
            | Ok a =>
                let set' := match anLast a with
                            | Some v => match setValues (mSet m1) (mNames m1) v with Ok d => d | _ => mSet m1 end
                            | None => mSet m1
                            end in
                let r := do best <- setValues sempty (mNames m1) (anParams a);   (* ContainerTools.hpp:14-34 CreateMap *)
                         do cov <- calcCov (anCov a);
                         Ok (mkFit best (if mMaximising m1 then - anFval a else anFval a) (anValid a) cov (frSpace (mFit m1))) in
                let m2 f := mkMinuit (mVals m1) (mErrs m1) (mMin m1) (mMax m1) (mFixed m1) (mMaxCalls m1) (mTol m1) (mStrategy m1) (mMethod m1)
                              (mMaximising m1) (mUp m1) (mFlip m1) set' (mNames m1) f in
                match r with
                | Ok f => (m2 f, Ok (pb', f))
                | Throw e => (m2 (mFit m1), Throw e) | UB => (m2 (mFit m1), UB) | NonFinite => (m2 (mFit m1), NonFinite) | Diverge => (m2 (mFit m1), Diverge)
                end
            | Throw e => (m1, Throw e) | UB => (m1, UB) | NonFinite => (m1, NonFinite) | Diverge => (m1, Diverge)
            end
        | Throw e => (m1, Throw e) | UB => (m1, UB) | NonFinite => (m1, NonFinite) | Diverge => (m1, Diverge)
        end
  | (m1, Throw e) => (m1, Throw e) | (m1, UB) => (m1, UB) | (m1, NonFinite) => (m1, NonFinite) | (m1, Diverge) => (m1, Diverge)
  end.
