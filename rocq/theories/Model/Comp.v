(** Model of /repo/src/dist/AnalyticED.cpp, CompositeED.cpp, the probabilities and names of BinnedED.cpp, and BinnedEDGenerator.cpp.
    Simplifications: doubles are exact rationals; an AnalyticED's function is a total description of PDF::operator() and its dimension
    (its fit parameters are not modelled); exception texts are dropped. *)
From Coq Require Import ZArith.
From Verif Require Import Base.Res Base.Num Base.SMap Model.Axis Model.Event Model.Hist Model.ED Model.Rand Model.Gen.
Local Open Scope Qc_scope.
Local Open Scope res_scope.

(** AnalyticED.h:44-47; [anFun] is fFunction->operator(), [anDims] fFunction->GetNDims() *)
Record aned := mkAned { anName : string; anObs : obsset; anFun : list Qc -> res Qc; anDims : nat; anNorm : Qc }.
(** AnalyticED.cpp:6-11 constructor; 71-74 SetObservables *)
Definition aned_new (n : string) (f : list Qc -> res Qc) (d : nat) : aned := mkAned n (mk_obsset []) f d 1.
Definition aned_setObs (a : aned) (o : obsset) : aned := mkAned (anName a) o (anFun a) (anDims a) (anNorm a).
(** EventDistribution.h:8-24: a BinnedED, an AnalyticED or a CompositeED with its name and parts *)
Inductive dist := DBin (b : bed) | DAna (a : aned) | DComp (n : string) (l : list dist).

(** BinnedED.cpp:98-102, 104-116 Probability; AnalyticED.cpp:32-57 Probability *)
Definition bed_probVals (b : bed) (vals : list Qc) : res Qc :=
  do i <- h_findBin (bdHist b) vals;
  do c <- getBinContent (bdHist b) i;
  do t <- integral (bdHist b);
  qdiv c t.
Definition bed_prob (b : bed) (e : event) : res Qc := do vals <- toObsSet e (bdObs b); bed_probVals b vals.
Definition aned_prob (a : aned) (e : event) : res Qc := do vals <- toObsSet e (anObs a); do y <- anFun a vals; qdiv y (anNorm a).
(** CompositeED.cpp:32-39 Probability *)
Fixpoint dprob (e : event) (d : dist) : res Qc :=
  match d with
  | DBin b => bed_prob b e
  | DAna a => aned_prob a e
  | DComp _ l => (fix go l p := match l with [] => Ok p | d :: t => do q <- dprob e d; go t (p * q) end) l 1
  end.
(** BinnedED.cpp:118-122; AnalyticED.cpp:60-64; CompositeED.cpp:47-54 Integral *)
Fixpoint dintegral (d : dist) : res Qc :=
  match d with
  | DBin b => integral (bdHist b)
  | DAna a => Ok (anNorm a)
  | DComp _ l => (fix go l p := match l with [] => Ok p | d :: t => do q <- dintegral d; go t (p * q) end) l 1
  end.
(** BinnedED.cpp:124-127; AnalyticED.cpp:66-69; CompositeED.cpp:41-45 Normalise *)
Fixpoint dnormalise (d : dist) : res dist :=
  match d with
  | DBin b => rmap DBin (bed_ret (bed_normalise b))
  | DAna a => Ok (DAna (mkAned (anName a) (anObs a) (anFun a) (anDims a) 1))
  | DComp n l => rmap (DComp n) (mapM dnormalise l)
  end.
(** BinnedED.cpp:172-176; AnalyticED.cpp:82-86; CompositeED.cpp:69-76 GetNDims *)
Fixpoint dndims (d : dist) : nat :=
  match d with
  | DBin b => hNDims (bdHist b)
  | DAna a => anDims a
  | DComp _ l => fold_left (fun n d => (n + dndims d)%nat) l 0%nat
  end.
(** GetName, SetName: BinnedED.cpp:72-81, AnalyticED.cpp:88-97, CompositeED.cpp:78-87 *)
Definition dname (d : dist) : string := match d with DBin b => bdName b | DAna a => anName a | DComp n _ => n end.
Definition dsetName (n : string) (d : dist) : dist :=
  match d with DBin b => DBin (bed_setName b n) | DAna a => DAna (mkAned n (anObs a) (anFun a) (anDims a) (anNorm a)) | DComp _ l => DComp n l end.
(** the name a composite gives itself, CompositeED.cpp:16-24 *)
Fixpoint starred (l : list string) : string :=
  match l with
  | [] => ""
  | [x] => x
  | x :: t => x ++ "*" ++ starred t
  end%string.
(** CompositeED.cpp:13-25 constructor from a list, with 56-61 Clone of each part: a composite is rebuilt under the name made of the names of its parts *)
Fixpoint dclone (d : dist) : dist :=
  match d with
  | DComp _ l => DComp (starred (map dname l)) (map dclone l)
  | _ => d
  end.
Definition compose (l : list dist) : dist := DComp (starred (map dname l)) (map dclone l).
(** CompositeED.cpp:6-11 constructor of two, 63-67 operator* *)
Definition dtimes (a b : dist) : dist := DComp (dname a ++ "*" ++ dname b) [dclone a; dclone b].

(** BinnedED.cpp:217-239 Marginalise *)
Definition bed_marginalise (b : bed) (names : list string) : res bed :=
  do h <- marginalise (bdHist b) names;
  Ok (mkBed (bdName b ++ String.concat "" (map (fun n => "_" ++ n) names) ++ "_proj")%string h (mk_obsset names)).

(** BinnedEDGenerator.h:8-12,18-19 *)
Record bgen := mkBgen { bgPdfs : list bed; bgRates : list Qc }.
(** std::lower_bound(first, last, v) as libstdc++ implements it *)
Fixpoint lbGo (fuel : nat) (l : list Qc) (v : Qc) (first len : nat) : nat :=
  match fuel with
  | O => first
  | S fuel' =>
      match len with
      | O => first
      | _ => let half := Nat.div2 len in
             if qltb (nth (first + half) l 0) v then lbGo fuel' l v (first + half + 1) (len - half - 1) else lbGo fuel' l v first half
      end
  end.
Definition lowerBound (l : list Qc) (v : Qc) : nat := lbGo (List.length l) l v 0 (List.length l).
(** BinnedEDGenerator.cpp:92-99: running sums *)
Fixpoint running (s : Qc) (l : list Qc) : list Qc := match l with [] => [] | x :: t => (s + x) :: running (s + x) t end.
(** BinnedEDGenerator.cpp:85-108 RandomBin; [u] is Rand::Uniform() *)
Definition randomBin (b : bed) (u : Qc) : res nat :=
  if Nat.eqb (hNDims (bdHist b)) 0 then Throw LogicError
  else
    do cs <- mapM (getBinContent (bdHist b)) (seq 0 (hNBins (bdHist b)));
    let sums := running 0 cs in
    do cdf <- mapM (fun x => qdiv x (last sums 0)) sums;
    Ok (lowerBound cdf (rUniform 1 u)).
(** BinnedEDGenerator.cpp:39-41, 78-80: [n] draws from one pdf, the k-th random number first *)
Fixpoint drawBins (b : bed) (n : nat) (us : nat -> Qc) (k : nat) (out : bed) : res bed :=
  match n with
  | O => Ok out
  | S m => do i <- randomBin b (us k); do out' <- bed_ret (bed_addBin out i 1); drawBins b m us (S k) out'
  end.
(** BinnedEDGenerator.cpp:36-42, 75-81: all pdfs; the conversion to unsigned of what does not fit in 32 bits is UB *)
Fixpoint drawAll (bs : list bed) (counts : list Z) (us : nat -> Qc) (k : nat) (out : bed) : res bed :=
  match bs, counts with
  | b :: bs', c :: cs' => if orb (Z.ltb c 0) (Z.leb (2 ^ 32) c) then UB
                          else do out' <- drawBins b (Z.to_nat c) us k out; drawAll bs' cs' us (k + Z.to_nat c) out'
  | _, _ => Ok out
  end.
(** BinnedEDGenerator.cpp:20-35, 59-74: the default name *)
Fixpoint joined (l : list string) : string :=
  match l with
  | [] => ""
  | [x] => x
  | x :: t => x ++ "_" ++ joined t
  end%string.
Definition genName (pre name : string) (bs : list bed) : string := if String.eqb name "" then (pre ++ joined (map bdName bs))%string else name.
Definition generate (g : bgen) (pre name : string) (counts : list Z) (us : nat -> Qc) : res bed :=
  if negb (Nat.eqb (List.length (bgPdfs g)) (List.length (bgRates g))) then Throw LogicError
  else
    match bgPdfs g with
    | [] => Throw LogicError
    | b :: _ => do out <- bed_ret (bed_empty (bed_setName b (genName pre name (bgPdfs g)))); drawAll (bgPdfs g) counts us 0 out
    end.
(** BinnedEDGenerator.cpp:9-45 ExpectedRatesED *)
Definition expectedRates (g : bgen) (name : string) (us : nat -> Qc) : res bed := generate g "Gen_Exp" name (map qround (bgRates g)) us.
(** BinnedEDGenerator.cpp:47-83 PoissonFluctuatedED; [pois] is what TRandom3::Poisson returns for each rate *)
Definition poissonED (g : bgen) (name : string) (pois : Qc -> Z) (us : nat -> Qc) : res bed := generate g "Gen_Poi" name (map pois (bgRates g)) us.
