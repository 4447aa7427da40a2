(** Model of /repo/src/histogram/BinAxis.{h,cpp} and AxisCollection.{h,cpp}.
    Simplifications: doubles are exact rationals; size_t is nat (no overflow of bin counts);
    std::cout messages dropped. *)
From Verif Require Import Base.Res Base.Num.
Local Open Scope Qc_scope.
Local Open Scope res_scope.

(** BinAxis.h:51-62, all fields *)
Record axis := mkAxis {
  aNBins : nat;
  aMin : Qc;
  aMax : Qc;
  aName : string;
  aLatex : string;
  aLow : list Qc;
  aHigh : list Qc;
  aCentre : list Qc;
  aWidth : list Qc
}.

(** BinAxis.cpp:6-34, equal bin widths *)
Definition mk_equal (name : string) (mn mx : Qc) (n : nat) (latex : string) : res axis :=
  if qleb mx mn || Nat.eqb n 0 then Throw LogicError
  else
    let w := (mx - mn) / qn n in
    Ok {| aNBins := n; aMin := mn; aMax := mx; aName := name;
          aLatex := if String.eqb latex "" then name else latex;
          aLow := map (fun i => mn + qn i * w) (seq 0 n);
          aHigh := map (fun i => mn + (qn i + 1) * w) (seq 0 n);
          aCentre := map (fun i => mn + (qn i + qhalf) * w) (seq 0 n);
          aWidth := repeat w n |}.

(** BinAxis.cpp:47-53, the ordering checks of the variable-width constructor, bin by bin *)
Fixpoint edges_ok (prev : option Qc) (lo hi : list Qc) : bool :=
  match lo, hi with
  | l :: lo', h :: hi' =>
      negb (match prev with Some p => qltb l p | None => false end)
      && negb (qltb h l) && edges_ok (Some l) lo' hi'
  | _, _ => true
  end.

(** BinAxis.cpp:36-72, variable bin widths *)
Definition mk_var (name : string) (lo hi : list Qc) (latex : string) : res axis :=
  if negb (Nat.eqb (List.length hi) (List.length lo)) || Nat.eqb (List.length lo) 0 then Throw LogicError
  else if negb (edges_ok None lo hi) then Throw LogicError
  else
    Ok {| aNBins := List.length lo; aMin := List.hd 0 lo; aMax := List.last hi 0; aName := name;
          aLatex := if String.eqb latex "" then name else latex;
          aLow := lo; aHigh := hi;
          aCentre := map (fun p => qhalf * (fst p + snd p)) (combine lo hi);
          aWidth := map (fun p => snd p - fst p) (combine lo hi) |}.

(** std::lower_bound(first,last,value,less_equal<double>) as libstdc++ implements it
    (bits/stl_algobase.h __lower_bound): bisection on [first, first+len).  Result: offset from begin.
    [fuel] bounds the loop; [len] halves every round so fuel = len suffices (lemma lower_bound_fuel). *)
Fixpoint lower_bound_go (fuel : nat) (l : list Qc) (v : Qc) (first len : nat) : nat :=
  match fuel with
  | 0%nat => first
  | S fuel' =>
      match len with
      | 0%nat => first
      | _ =>
          let half := Nat.div2 len in
          let mid := (first + half)%nat in
          if qleb (nth mid l 0) v
          then lower_bound_go fuel' l v (mid + 1) (len - half - 1)
          else lower_bound_go fuel' l v first half
      end
  end.
Definition lower_bound_le (l : list Qc) (v : Qc) : nat :=
  lower_bound_go (List.length l) l v 0 (List.length l).

(** BinAxis.cpp:74-81 *)
Definition findBin (a : axis) (v : Qc) : nat :=
  let i := lower_bound_le (aHigh a) v in
  if Nat.eqb i (aNBins a) then (i - 1)%nat else i.

(** BinAxis.h:31-34 *)
Definition binLow (a : axis) (i : nat) : res Qc := vat (aLow a) i.
Definition binHigh (a : axis) (i : nat) : res Qc := vat (aHigh a) i.
Definition binCentre (a : axis) (i : nat) : res Qc := vat (aCentre a) i.
Definition binWidth (a : axis) (i : nat) : res Qc := vat (aWidth a) i.

(** BinAxis.cpp:83-87 operator== : only the edges are compared *)
Fixpoint qlist_eqb (a b : list Qc) : bool :=
  match a, b with
  | [], [] => true
  | x :: a', y :: b' => qeqb x y && qlist_eqb a' b'
  | _, _ => false
  end.
Definition axis_eqb (a b : axis) : bool :=
  qlist_eqb (aLow a) (aLow b) && qlist_eqb (aHigh a) (aHigh b).

(** AxisCollection.h:46-53, all fields *)
Record axcol := mkAxcol {
  acAxes : list axis;
  acNames : list string;
  acNbins : list nat;
  acNDims : nat;
  acNBins : nat
}.
(** AxisCollection.h:18 default constructor *)
Definition ac_empty : axcol := mkAxcol [] [] [] 0 0.

(** AxisCollection.cpp:152-158 HasAxis *)
Definition hasAxis (ac : axcol) (name : string) : bool :=
  existsb (fun a => String.eqb name (aName a)) (acAxes ac).

(** AxisCollection.cpp:57-68 CountBins *)
Definition countBins (nd : nat) (nb : list nat) : nat :=
  if Nat.eqb nd 0 then 0%nat else fold_left Nat.mul (firstn nd nb) 1%nat.

(** AxisCollection.cpp:70-82 AddAxis *)
Definition addAxis (ac : axcol) (a : axis) : res axcol :=
  if hasAxis ac (aName a) then Throw ValueError
  else
    let nb := acNbins ac ++ [aNBins a] in
    let nd := S (acNDims ac) in
    Ok {| acAxes := acAxes ac ++ [a]; acNames := acNames ac ++ [aName a]; acNbins := nb;
          acNDims := nd; acNBins := countBins nd nb |}.

(** AxisCollection.cpp:84-88 AddAxes: the receiver keeps the axes added before a throw, so the
    result carries the final state next to the outcome *)
Fixpoint addAxes (ac : axcol) (l : list axis) : axcol * res unit :=
  match l with
  | [] => (ac, Ok tt)
  | a :: t =>
      match addAxis ac a with
      | Ok ac' => addAxes ac' t
      | Throw e => (ac, Throw e)
      | UB => (ac, UB) | NonFinite => (ac, NonFinite) | Diverge => (ac, Diverge)
      end
  end.

(** AxisCollection.cpp:18-33 GetAxis(index) *)
Definition getAxis (ac : axcol) (i : nat) : res axis :=
  match nth_error (acAxes ac) i with Some a => Ok a | None => Throw NotFoundError end.

Fixpoint index_of (n : string) (l : list string) : option nat :=
  match l with
  | [] => None
  | x :: t => if String.eqb x n then Some 0%nat else option_map S (index_of n t)
  end.
(** AxisCollection.cpp:41-49 GetAxisIndex (std::find over the names) *)
Definition getAxisIndex (ac : axcol) (n : string) : res nat :=
  match index_of n (acNames ac) with Some i => Ok i | None => Throw NotFoundError end.
(** AxisCollection.cpp:35-39 GetAxis(name) *)
Definition getAxisByName (ac : axcol) (n : string) : res axis :=
  do i <- getAxisIndex ac n; vat (acAxes ac) i.

(** AxisCollection.cpp:90-109 FlattenIndices.  With zero dimensions, back() of an empty vector: UB.
    The subscripts indices_[i] and fAxisNbins[j] are inside the vectors (sizes checked). *)
Definition flatten (ac : axcol) (idx : list nat) : res nat :=
  if negb (Nat.eqb (List.length idx) (acNDims ac)) then Throw DimensionError
  else if Nat.eqb (acNDims ac) 1 then vat idx 0
  else if Nat.eqb (acNDims ac) 0 then UB
  else
    Ok (fold_left
          (fun index i => index + fold_left Nat.mul (skipn (i + 1) (firstn (acNDims ac) (acNbins ac))) (nth i idx 0%nat))%nat
          (seq 0 (acNDims ac - 1))
          (last idx 0%nat)).

(** AxisCollection.cpp:125-141 UnflattenIndex *)
Definition unflatten (ac : axcol) (index dim : nat) : res nat :=
  if Nat.eqb (acNDims ac) 1 then Ok index
  else if Nat.leb (acNBins ac) index then Throw NotFoundError
  else
    let x := fold_left Nat.mul (skipn (dim + 1) (firstn (acNDims ac) (acNbins ac))) 1%nat in
    match nth_error (acNbins ac) dim with
    | None => UB
    | Some nb => if Nat.eqb nb 0 || Nat.eqb x 0 then UB else Ok ((index / x) mod nb)%nat
    end.

(** AxisCollection.cpp:143-150 UnpackIndices *)
Definition unpack (ac : axcol) (index : nat) : res (list nat) :=
  mapM (fun i => unflatten ac index i) (seq 0 (acNDims ac)).

(** AxisCollection.cpp:111-123 FindBin *)
Definition ac_findBin (ac : axcol) (vals : list Qc) : res nat :=
  if negb (Nat.eqb (List.length vals) (acNDims ac)) then Throw DimensionError
  else
    do idx <- mapM (fun i => do a <- vat (acAxes ac) i; Ok (findBin a (nth i vals 0)))
                   (seq 0 (acNDims ac));
    flatten ac idx.

(** AxisCollection.cpp:160-209 GetBinLowEdges / GetBinHighEdges / GetBinCentres (output vector of
    the right size given, as BinAxis/Histogram callers do).  [get] is the per-axis accessor. *)
Definition binVec (get : axis -> nat -> res Qc) (ac : axcol) (bin : nat) : res (list Qc) :=
  if Nat.ltb (acNBins ac) bin then Throw NotFoundError
  else mapM (fun i => do a <- vidx (acAxes ac) i; do u <- unflatten ac bin i; get a u)
            (seq 0 (acNDims ac)).
Definition binLowEdges := binVec binLow.
Definition binHighEdges := binVec binHigh.
Definition binCentres := binVec binCentre.

(** AxisCollection.cpp:211-258 GetBinLowEdge / HighEdge / Centre / Width (bin, dim) *)
Definition binDim (get : axis -> nat -> res Qc) (ac : axcol) (bin dim : nat) : res Qc :=
  if Nat.leb (acNDims ac) dim then Throw NotFoundError
  else if Nat.leb (acNBins ac) bin then Throw NotFoundError
  else do a <- vat (acAxes ac) dim; do u <- unflatten ac bin dim; get a u.

(** AxisCollection.cpp:260-263 operator== *)
Fixpoint axes_eqb (l m : list axis) : bool :=
  match l, m with
  | [], [] => true
  | a :: l', b :: m' => axis_eqb a b && axes_eqb l' m'
  | _, _ => false
  end.
Definition ac_eqb (a b : axcol) : bool := axes_eqb (acAxes a) (acAxes b).
