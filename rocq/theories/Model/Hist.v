(** Model of /repo/src/histogram/Histogram.{h,cpp}.
    Simplifications: doubles are exact rationals; size_t is nat except where wrap-around matters
    (GetLatticePointValues, modelled modulo 2^64); std::cout messages dropped.
    A member function that changes the object returns the object after the call next to the outcome,
    so that "leaves the histogram unchanged" is visible. *)
From Coq Require Import ZArith.
From Verif Require Import Base.Res Base.Num Base.SMap Model.Axis.
Local Open Scope Qc_scope.
Local Open Scope res_scope.

(** Histogram.h:75-78, all fields *)
Record hist := mkHist { hAxes : axcol; hCont : list Qc; hNBins : nat; hNDims : nat }.

(** outcome of a mutating member function: the object afterwards and the outcome of the call *)
Definition hres (A : Type) : Type := (hist * res A)%type.

(** Histogram.h:18 *)
Definition hist0 : hist := mkHist ac_empty [] 0 0.
(** std::vector::resize(n, 0) *)
Definition vresize (l : list Qc) (n : nat) : list Qc :=
  firstn n l ++ repeat 0 (n - List.length l).
(** Histogram.cpp:16-22 SetAxes: resize keeps the old contents *)
Definition setAxes (h : hist) (ac : axcol) : hist :=
  mkHist ac (vresize (hCont h) (acNBins ac)) (acNBins ac) (acNDims ac).
(** Histogram.cpp:11-14 constructor *)
Definition mk_hist (ac : axcol) : hist := setAxes hist0 ac.

(** Histogram.cpp:30-37 Integral *)
Definition integral (h : hist) : res Qc :=
  foldM (fun s i => do c <- vidx (hCont h) i; Ok (s + c)) (seq 0 (hNBins h)) 0.

(** Histogram.cpp:99-107 FindBin(double) *)
Definition h_findBin1 (h : hist) (v : Qc) : res nat :=
  if negb (Nat.eqb (hNDims h) 1) then Throw DimensionError
  else do a <- getAxis (hAxes h) 0; Ok (findBin a v).
(** Histogram.cpp:93-97 FindBin(vector) *)
Definition h_findBin (h : hist) (vals : list Qc) : res nat := ac_findBin (hAxes h) vals.

(** Histogram.cpp:39-53 Integral(min,max) *)
Definition integral_range (h : hist) (mn mx : Qc) : res Qc :=
  if negb (Nat.eqb (hNDims h) 1) then Throw DimensionError
  else if qleb mx mn then Ok 0
  else
    do low <- h_findBin1 h mn;
    do high <- h_findBin1 h mx;
    foldM (fun s i => do c <- vidx (hCont h) i; Ok (s + c)) (seq low (S high - low)) 0.

(** a loop "for i < fNBins: fBinContents[i] = f i fBinContents[i]" *)
Definition map_bins (f : nat -> Qc -> res Qc) (h : hist) : hres unit :=
  match foldM (fun c i => do x <- vidx c i; do y <- f i x; Ok (upd c i y)) (seq 0 (hNBins h)) (hCont h) with
  | Ok c => (mkHist (hAxes h) c (hNBins h) (hNDims h), Ok tt)
  | Throw e => (h, Throw e) | UB => (h, UB) | NonFinite => (h, NonFinite) | Diverge => (h, Diverge)
  end.

(** floating point division: by zero gives inf or nan *)
Definition qdiv (x y : Qc) : res Qc := if qeqb y 0 then NonFinite else Ok (x / y).

(** Histogram.cpp:55-60 Normalise *)
Definition normalise (h : hist) : hres unit :=
  match integral h with
  | Ok s => map_bins (fun _ x => qdiv x s) h
  | Throw e => (h, Throw e) | UB => (h, UB) | NonFinite => (h, NonFinite) | Diverge => (h, Diverge)
  end.
(** Histogram.cpp:62-66 Scale *)
Definition scale (h : hist) (s : Qc) : hres unit := map_bins (fun _ x => Ok (x * s)) h.
(** Histogram.cpp:147-151 Empty *)
Definition empty_bins (h : hist) : hres unit := map_bins (fun _ _ => Ok 0) h.

(** fBinContents[bin] = v, out of bounds undefined *)
Definition put (h : hist) (bin : nat) (v : Qc) : hres unit :=
  if Nat.ltb bin (List.length (hCont h))
  then (mkHist (hAxes h) (upd (hCont h) bin v) (hNBins h) (hNDims h), Ok tt)
  else (h, UB).
(** fBinContents[bin] += w *)
Definition add_at (h : hist) (bin : nat) (w : Qc) : hres unit :=
  put h bin (nth bin (hCont h) 0 + w).

(** Histogram.cpp:68-74 Fill(vector) *)
Definition fill (h : hist) (vals : list Qc) (w : Qc) : hres unit :=
  if negb (Nat.eqb (List.length vals) (hNDims h)) then (h, Throw DimensionError)
  else match h_findBin h vals with
       | Ok b => add_at h b w
       | Throw e => (h, Throw e) | UB => (h, UB) | NonFinite => (h, NonFinite) | Diverge => (h, Diverge)
       end.
(** ContainerTools.hpp:48-64 GetValues(map, keys) *)
Definition getValues {V : Type} (m : smap V) (keys : list string) : res (list V) :=
  mapM (fun k => sat k m) keys.
(** Histogram.cpp:76-86 Fill(map): std::out_of_range becomes NotFoundError *)
Definition fill_map (h : hist) (m : smap Qc) (w : Qc) : hres unit :=
  match getValues m (acNames (hAxes h)) with
  | Ok vals =>
      match fill h vals w with
      | (h', Throw std_out_of_range) => (h', Throw NotFoundError)
      | r => r
      end
  | Throw std_out_of_range => (h, Throw NotFoundError)
  | Throw e => (h, Throw e)
  | UB => (h, UB) | NonFinite => (h, NonFinite) | Diverge => (h, Diverge)
  end.
(** Histogram.cpp:88-91 Fill(double) *)
Definition fill1 (h : hist) (v w : Qc) : hres unit := fill h [v] w.

(** Histogram.cpp:109-117 GetBinContent: the check is [bin > fNBins] *)
Definition getBinContent (h : hist) (bin : nat) : res Qc :=
  if Nat.ltb (hNBins h) bin then Throw NotFoundError else vidx (hCont h) bin.
(** Histogram.cpp:119-126 AddBinContent *)
Definition addBinContent (h : hist) (bin : nat) (w : Qc) : hres unit :=
  if Nat.ltb (hNBins h) bin then (h, Throw NotFoundError) else add_at h bin w.
(** Histogram.cpp:128-133 SetBinContent *)
Definition setBinContent (h : hist) (bin : nat) (w : Qc) : hres unit :=
  if Nat.ltb (hNBins h) bin then (h, Throw NotFoundError) else put h bin w.

(** Histogram.cpp:170-178 SetBinContents *)
Definition setBinContents (h : hist) (d : list Qc) : hres unit :=
  if negb (Nat.eqb (List.length d) (hNBins h)) then (h, Throw DimensionError)
  else (mkHist (hAxes h) d (List.length d) (hNDims h), Ok tt).

(** Histogram.cpp:180-188 Means (the sums are not divided by the integral) *)
Definition means (h : hist) : res (list Qc) :=
  foldM (fun ms ij =>
           do c <- vat (hCont h) (fst ij);
           do x <- binDim binCentre (hAxes h) (fst ij) (snd ij);
           do m <- vidx ms (snd ij);
           Ok (upd ms (snd ij) (m + c * x)))
        (flat_map (fun i => map (pair i) (seq 0 (hNDims h))) (seq 0 (hNBins h)))
        (repeat 0 (hNDims h)).
(** Histogram.cpp:190-207 Variances *)
Definition variances (h : hist) : res (list Qc) :=
  do v <- foldM (fun ms ij =>
           do x <- binDim binCentre (hAxes h) (fst ij) (snd ij);
           do c <- vat (hCont h) (fst ij);
           do m <- vidx ms (snd ij);
           Ok (upd ms (snd ij) (m + x * x * c)))
        (flat_map (fun i => map (pair i) (seq 0 (hNDims h))) (seq 0 (hNBins h)))
        (repeat 0 (hNDims h));
  do ms <- means h;
  mapM (fun i => do vi <- vidx v i; do m <- vat ms i; Ok (vi - m * m)) (seq 0 (hNDims h)).

(** run a mutating step inside a function that returns the object *)
Definition ret (r : hres unit) : res hist := match r with (h, o) => do u <- o; Ok h end.

(** Histogram.cpp:209-261 Marginalise *)
Definition marginalise (h : hist) (names : list string) : res hist :=
  let allNames := acNames (hAxes h) in
  do u <- mapM (fun n => if in_dec string_dec n allNames then Ok tt else Throw NotFoundError) names;
  do indices <- mapM (getAxisIndex (hAxes h)) names;
  do newAxes <- foldM (fun ac n => do a <- getAxisByName (hAxes h) n; addAxis ac a) names ac_empty;
  foldM (fun m bin =>
           do old <- mapM (fun i => unflatten (hAxes h) bin i) (seq 0 (hNDims h));
           do new <- mapM (fun i => vat old i) indices;
           do nb <- flatten (hAxes m) new;
           do c <- vat (hCont h) bin;
           ret (addBinContent m nb c))
        (seq 0 (hNBins h)) (mk_hist newAxes).

(** Histogram.cpp:263-296 Recurse: the coordinate tuples in the order they are appended.
    [free] is the list of (free axis position, its number of bins), read from the end, so that
    the last free axis is the outermost loop. [coords[free_ax[..]] = i] is operator[]. *)
Fixpoint recurse (revfree : list (nat * nat)) (coords : list nat) : list (list nat) :=
  match revfree with
  | [] => [coords]
  | (pos, n) :: rest => flat_map (fun i => recurse rest (upd coords pos i)) (seq 0 n)
  end.

(** Histogram.cpp:298-397 GetSlice *)
Definition getSlice (h : hist) (fixed : smap nat) : res hist :=
  let allNames := acNames (hAxes h) in
  do u <- mapM (fun kv => if in_dec string_dec (fst kv) allNames then Ok tt else Throw NotFoundError) fixed;
  if Nat.leb (hNDims h) (List.length fixed) then Throw DimensionError
  else
    let freeNames := filter (fun n => negb (shas n fixed)) allNames in
    do freeIdx <- mapM (getAxisIndex (hAxes h)) freeNames;
    do fr <- foldM (fun (st : axcol * list nat) (ni : string * nat) =>
                      do a <- getAxis (hAxes h) (snd ni);
                      do ac <- addAxis (fst st) a;
                      do b <- getAxisByName ac (fst ni);
                      Ok (ac, snd st ++ [aNBins b]))
                   (combine freeNames freeIdx) (ac_empty, []);
    do coords <- mapM (fun i =>
                         do n <- vat allNames i;
                         match sfind n fixed with Some b => Ok b | None => Ok 0%nat end)
                      (seq 0 (hNDims h));
    do ' (s, _) <-
       foldM (fun (st : hist * nat) idx =>
                do old <- flatten (hAxes h) idx;
                do c <- vat (hCont h) old;
                do s' <- ret (addBinContent (fst st) (snd st) c);
                Ok (s', S (snd st)))
             (recurse (rev (combine freeIdx (snd fr))) coords) (mk_hist (fst fr), 0%nat);
    Ok s.

(** Histogram.cpp:432-457 Add / Multiply / Divide.  Both loops run over this histogram's bins. *)
Definition pointwise (f : Qc -> Qc -> res Qc) (h o : hist) : hres unit :=
  if negb (ac_eqb (hAxes o) (hAxes h)) then (h, Throw ValueError)
  else map_bins (fun i x => do y <- getBinContent o i; f x y) h.
Definition h_add (h o : hist) (w : Qc) : hres unit := pointwise (fun x y => Ok (x + y * w)) h o.
Definition h_multiply (h o : hist) : hres unit := pointwise (fun x y => Ok (x * y)) h o.
Definition h_divide (h o : hist) : hres unit := pointwise qdiv h o.

(** Histogram.cpp:471-482 AddPadding *)
Definition addPadding (h : hist) (p : Qc) : hist :=
  mkHist (hAxes h) (map (fun x => if qeqb x 0 then p else x) (hCont h)) (hNBins h) (hNDims h).

(** size_t arithmetic *)
Definition w64 (z : Z) : Z := Z.modulo z (2 ^ 64).
(** AxisCollection.cpp:90-109 FlattenIndices on size_t values that may have wrapped around:
    sums and products modulo 2^64.  Defined for at least one dimension. *)
Definition flattenW (ac : axcol) (idx : list Z) : res Z :=
  if negb (Nat.eqb (List.length idx) (acNDims ac)) then Throw DimensionError
  else if Nat.eqb (acNDims ac) 1 then vat idx 0
  else if Nat.eqb (acNDims ac) 0 then UB
  else
    Ok (fold_left
          (fun index i =>
             w64 (index + fold_left (fun x n => w64 (x * Z.of_nat n))
                            (skipn (i + 1) (firstn (acNDims ac) (acNbins ac))) (nth i idx 0%Z))%Z)
          (seq 0 (acNDims ac - 1))
          (last idx 0%Z)).

(** Histogram.cpp:484-535 GetLatticePointValues: (bin centre positions, values) of the 2^N lattice
    points, in the order of the lattice index.  The 20-dimension check comes after an (unused)
    1 << fNDims.  GetBinContent and GetBinCentres take the wrapped flat index. *)
Definition latticePoint (h : hist) (idxs : list nat) (larger : list bool) (latt : nat) : res (list Qc * Qc) :=
  do bins <- mapM (fun dim =>
                     do i <- vat idxs dim;
                     do g <- vat larger dim;
                     Ok (w64 (Z.of_nat i + Z.b2z (Nat.testbit latt dim) + Z.b2z g - 1)%Z))
                  (seq 0 (hNDims h));
  do b <- flattenW (hAxes h) bins;
  do v <- (if Z.ltb (Z.of_nat (hNBins h)) b then Throw NotFoundError else getBinContent h (Z.to_nat b));
  do loc <- binCentres (hAxes h) (Z.to_nat b);
  Ok (loc, v).
Definition latticeValues (h : hist) (vals : list Qc) : res (list (list Qc * Qc)) :=
  do b <- h_findBin h vals;
  do idxs <- unpack (hAxes h) b;
  do cs <- binCentres (hAxes h) b;
  do larger <- mapM (fun d => do v <- vat vals d; do c <- vat cs d; Ok (qleb c v)) (seq 0 (hNDims h));
  if Nat.ltb 20 (hNDims h) then Throw DimensionError
  else mapM (latticePoint h idxs larger) (seq 0 (2 ^ hNDims h)).
