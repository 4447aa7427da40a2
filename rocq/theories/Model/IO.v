(** Model of /repo/src/data/IO.cpp: name lists, HDF5 data sets and HDF5 histograms.
    An HDF5 file is the contents of its one data set plus its attributes.  Simplifications: hsize_t/size_t arithmetic
    and the int nSlabs do not overflow (that takes more than 2*10^13 values); the 32-bit arithmetic of LoadDataSet
    is modelled.  A fixed-length (64) string attribute keeps the first 64 bytes of the string and is read back up to
    the first NUL (H5T_C_S1 of size 64, Attribute::write/read of the HDF5 C++ library); a read outside the extent
    throws (std_logic_error stands for the H5 exception).  Printing and Reserve dropped; the ROOT formats
    (SaveDataSetROOT, SaveHistogramROOT) are not modelled. *)
From Coq Require Import ZArith Ascii.
From Verif Require Import Base.Res Base.Num Base.SMap Model.Axis Model.Event Model.Hist Model.Shrink Model.Data.
Local Open Scope res_scope.

(** IO.cpp:16 *)
Definition ioDelim : ascii := ":"%char.
(** IO.cpp:266-278 FlattenStringVector *)
Definition flattenNames (l : list string) : string :=
  match l with
  | [] => EmptyString
  | s :: t => fold_left (fun acc x => (acc ++ String ioDelim x)%string) t s
  end.
(** IO.cpp:283-289: the number of delimiters *)
Fixpoint countDelim (s : string) : nat :=
  match s with
  | EmptyString => 0
  | String c t => (if Ascii.eqb c ioDelim then 1 else 0) + countDelim t
  end.
(** IO.cpp:290-297: strs[currentStr] += str_[i] *)
Fixpoint unpackLoop (s : string) (strs : list string) (cur : nat) : res (list string) :=
  match s with
  | EmptyString => Ok strs
  | String c t =>
      if Ascii.eqb c ioDelim then unpackLoop t strs (S cur)
      else do x <- vidx strs cur; unpackLoop t (upd strs cur (x ++ String c EmptyString)%string) cur
  end.
(** IO.cpp:280-300 UnpackString *)
Definition unpackString (s : string) : res (list string) := unpackLoop s (repeat EmptyString (countDelim s + 1)) 0.
(** IO.cpp:18-25 GetExt: what follows the last '.' *)
Fixpoint lastDot (s : string) : option string :=
  match s with
  | EmptyString => None
  | String c t => match lastDot t with
                  | Some e => Some e
                  | None => if Ascii.eqb c "."%char then Some t else None
                  end
  end.
Definition getExt (p : string) : res string := match lastDot p with Some e => Ok e | None => Throw IOError end.

(** fixed-length string attribute of 64 bytes *)
Fixpoint cut_nul (s : string) : string :=
  match s with EmptyString => EmptyString | String c t => if Ascii.eqb c Ascii.zero then EmptyString else String c (cut_nul t) end.
Definition attr64 (s : string) : string := cut_nul (substring 0 64 s).

(** the file of SaveDataSetH5: data set "observations", attributes "observed_quantities" and "n_observables" *)
Record h5file := mkH5 { f5Data : list Qc; f5Names : string; f5NObs : Z }.
(** writing / reading a hyperslab of consecutive elements *)
Definition h5write (flat : list Qc) (off : Z) (data : list Qc) : list Qc :=
  firstn (Z.to_nat off) flat ++ data ++ skipn (Z.to_nat off + List.length data) flat.
Definition h5read (flat : list Qc) (off cnt : Z) : res (list Qc) :=
  if (Z.of_nat (List.length flat) <? off + cnt)%Z then Throw std_logic_error
  else Ok (firstn (Z.to_nat cnt) (skipn (Z.to_nat off) flat)).

Local Open Scope Z_scope.
(** IO.cpp:133-155: slab i of nSlabs; a throw leaves a partly written file *)
Definition slabStart (nEntries nSlabs i : Z) : Z := i * (nEntries / nSlabs).
Definition slabStop (nEntries nSlabs i : Z) : Z := if i =? nSlabs - 1 then nEntries else (i + 1) * (nEntries / nSlabs).
Definition saveSlab (d : dset) (nSlabs : Z) (flat : list Qc) (i : nat) : res (list Qc) :=
  let nEntries := Z.of_nat (ds_n d) in
  let start := slabStart nEntries nSlabs (Z.of_nat i) in
  let stop := slabStop nEntries nSlabs (Z.of_nat i) in
  do evs <- mapM (fun j => rmap dvObs (ds_get d j)) (seq (Z.to_nat start) (Z.to_nat (stop - start)));
  match List.concat evs with
  | [] => Throw std_out_of_range
  | data => Ok (h5write flat (start * Z.of_nat (dNObs d)) data)
  end.
(** IO.cpp:81-157 SaveDataSetH5 *)
Definition saveData (d : dset) : res h5file :=
  let nEntries := Z.of_nat (ds_n d) in
  let nObs := Z.of_nat (dNObs d) in
  let nData := nObs * nEntries in
  if negb (Nat.eqb (List.length (dNames d)) (dNObs d)) then Throw IOError
  else
    let nSlabs := nData / 10000 + 1 in
    do flat <- foldM (saveSlab d nSlabs) (seq 0 (Z.to_nat nSlabs)) (repeat (Q2Qc 0) (Z.to_nat nData));
    Ok (mkH5 flat (attr64 (flattenNames (dNames d))) nObs).

(** IO.cpp:203-210, 232-239, 253-259: events i = 0..n-1 of a flat array; the object under construction has address a *)
Definition loadEvent (a : nat) (flat : list Qc) (nObs : nat) (d : dset) (i : nat) : res dset :=
  do obs <- mapM (fun j => vat flat (i * nObs + j)) (seq 0 nObs);
  match ds_add a d obs with (d', Ok _) => Ok d' | (_, Throw e) => Throw e | (_, UB) => UB | (_, NonFinite) => NonFinite | (_, Diverge) => Diverge end.
Definition loadEvents (a : nat) (flat : list Qc) (nObs n : nat) (d : dset) : res dset := foldM (loadEvent a flat nObs) (seq 0 n) d.
(** IO.cpp:225-241: chunk i; i * 100000 * nObs and 100000 * nObs are computed in unsigned *)
Definition chunkLen (nObs : Z) : Z := u32 (100000 * nObs).
Definition chunkOff (nObs i : Z) : Z := u32 (u32 (i * 100000) * nObs).
Definition loadChunk (a : nat) (f : h5file) (d : dset) (i : nat) : res dset :=
  do flat <- h5read (f5Data f) (chunkOff (f5NObs f) (Z.of_nat i)) (chunkLen (f5NObs f));
  loadEvents a flat (Z.to_nat (f5NObs f)) (Z.to_nat 100000) d.
(** IO.cpp:159-264 LoadDataSet *)
Definition loadData (a : nat) (f : h5file) : res dset :=
  do names <- unpackString (f5Names f);
  let d0 := ds_setNames ds_new names in
  let nData := Z.of_nat (List.length (f5Data f)) in
  let nObs := f5NObs f in
  if nObs =? 0 then UB
  else
  let nEntries := nData / nObs in
  if nEntries <? 1000000 then
    match f5Data f with
    | [] => Throw std_out_of_range
    | _ => loadEvents a (f5Data f) (Z.to_nat nObs) (Z.to_nat nEntries) d0
    end
  else if chunkLen nObs =? 0 then Throw std_out_of_range
  else
    do d1 <- foldM (loadChunk a f) (seq 0 (Z.to_nat (u32 (nEntries / 100000)))) d0;
    let nLeft := nEntries mod 100000 in
    if nLeft =? 0 then Ok d1
    else do flat <- h5read (f5Data f) (100000 * (nEntries / 100000) * nObs) (nObs * nLeft);
         loadEvents a flat (Z.to_nat nObs) (Z.to_nat nLeft) d1.

(** IO.cpp:335-400 SaveHistogramH5: the attributes i_lows, i_highs are listed by axis *)
Record h5hist := mkH5h { f5Cont : list Qc; f5Axes : string; f5Latex : string; f5NDims : nat; f5NBins : nat; f5Edges : list (list Qc * list Qc) }.
Definition saveHist (h : hist) : res h5hist :=
  do axes <- mapM (getAxis (hAxes h)) (seq 0 (hNDims h));
  Ok (mkH5h (hCont h) (attr64 (flattenNames (map aName axes))) (attr64 (flattenNames (map aLatex axes))) (hNDims h) (hNBins h)
        (map (fun x => (aLow x, aHigh x)) axes)).
(** IO.cpp:402-480 LoadHistogram *)
Definition loadHist (f : h5hist) : res hist :=
  do names <- unpackString (f5Axes f);
  do latex <- unpackString (f5Latex f);
  do ac <- foldM (fun ac i => do e <- vat (f5Edges f) i; do n <- vat names i; do l <- vat latex i;
                    do x <- mk_var n (fst e) (snd e) l; addAxis ac x) (seq 0 (f5NDims f)) ac_empty;
  match setBinContents (mk_hist ac) (f5Cont f) with (h, Ok _) => Ok h | (_, Throw e) => Throw e | (_, UB) => UB | (_, NonFinite) => NonFinite | (_, Diverge) => Diverge end.

(** IO.cpp:27-39 SaveDataSet and IO.cpp:302-313 SaveHistogram choose the format from the extension; IO.cpp:315-333
    SaveHistogramROOT writes one- and two-dimensional histograms only.  [SavedRoot] = a ROOT file (contents not modelled);
    for a data set without names SaveDataSetROOT writes nothing (IO.cpp:45-49). *)
Inductive saved (A : Type) := SavedH5 (f : A) | SavedRoot | SavedNothing.
Arguments SavedH5 {A}. Arguments SavedRoot {A}. Arguments SavedNothing {A}.
Definition saveDataSet (d : dset) (path : string) : res (saved h5file) :=
  do ext <- getExt path;
  if String.eqb ext "h5" then do f <- saveData d; Ok (SavedH5 f)
  else if String.eqb ext "root" then Ok (match dNames d with [] => SavedNothing | _ => SavedRoot end)
  else Throw IOError.
Definition saveHistogram (h : hist) (path : string) : res (saved h5hist) :=
  do ext <- getExt path;
  if String.eqb ext "h5" then do f <- saveHist h; Ok (SavedH5 f)
  else if String.eqb ext "root" then if Nat.eqb (hNDims h) 1 || Nat.eqb (hNDims h) 2 then Ok SavedRoot else Throw IOError
  else Throw IOError.
