(** Model of /repo/src/interval/BayesIntervalCalc.cpp, the histogram version.  Doubles are exact rationals. *)
From Verif Require Import Base.Res Base.Num Base.SMap Model.Axis Model.Hist.
Local Open Scope Qc_scope.
Local Open Scope res_scope.

(** BayesIntervalCalc.cpp:30-39, the loop; [fuel] bounds the number of turns looked at (the caller gives enough) *)
Fixpoint upLoop (fuel : nat) (h : hist) (cl : Qc) (crit : nat) (sum : Qc) : res (nat * Qc) :=
  if qltb sum cl then
    match fuel with
    | O => Diverge
    | S n => do s <- foldM (fun acc i => do c <- getBinContent h i; Ok (acc + c)) (seq 0 crit) 0;
             upLoop n h cl (crit + 1) s
    end
  else Ok (crit, sum).

(** BayesIntervalCalc.cpp:8-47 UpperBound(Histogram, double) *)
Definition upperBound (h : hist) (cl : Qc) : res Qc :=
  do tot <- integral h;
  if qeqb tot 0 then Throw ValueError
  else if qleb cl 0 then Throw ValueError
  else if negb (Nat.eqb (hNDims h) 1) then Throw DimensionError
  else
    do post <- ret (normalise h);
    do r <- upLoop (hNBins h + 3) post cl 0 0;
    do hi <- binDim binHigh (hAxes post) (fst r) 0;
    do lo <- binDim binLow (hAxes post) (fst r) 0;
    do c <- getBinContent post (fst r);
    do d <- qdiv ((hi - lo) * (snd r - cl)) c;
    Ok (hi - d).
