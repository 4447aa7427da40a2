(** Model of /repo/src/histogram/HistTools.{h,hpp,cpp} and /repo/src/core/Combinations.{hpp,cpp}.
    Simplifications: reserve calls are dropped except for the integer division totalNBins / axisNBins,
    which is undefined for a zero divisor. *)
From Verif Require Import Base.Res Base.Num Base.SMap Model.Axis Model.Hist.
Local Open Scope nat_scope.
Local Open Scope res_scope.

(** operator< of std::pair<std::string,std::string> as a three-way comparison *)
Definition pcompare (p q : string * string) : comparison :=
  match String.compare (fst p) (fst q) with
  | Eq => String.compare (snd p) (snd q)
  | c => c
  end.
(** std::set<std::pair<..>>::insert *)
Fixpoint pset_add (p : string * string) (s : list (string * string)) : list (string * string) :=
  match s with
  | [] => [p]
  | q :: t => match pcompare p q with
              | Lt => p :: q :: t
              | Eq => q :: t
              | Gt => q :: pset_add p t
              end
  end.

(** Combinations.hpp:12-30 AllCombsNoDiag: for it1, for it2 < it1: insert (it1, it2) *)
Fixpoint combs_loop (before after : list string) (s : list (string * string)) : list (string * string) :=
  match after with
  | [] => s
  | x :: t => combs_loop (before ++ [x]) t (fold_left (fun acc y => pset_add (x, y) acc) before s)
  end.
Definition allCombsNoDiag (names : list string) : list (string * string) := combs_loop [] names [].

(** Combinations.cpp:9-25 RecursiveCombinations: the vectors in the order they are appended;
    maxes[depth-1] and vec[depth-1] are operator[] *)
Fixpoint recursiveCombinations (depth : nat) (vec maxes : list nat) : res (list (list nat)) :=
  match depth with
  | 0 => Ok [vec]
  | S d =>
      do m <- vidx maxes d;
      do ls <- mapM (fun i => if Nat.ltb d (List.length vec)
                              then recursiveCombinations d (upd vec d i) maxes else UB) (seq 0 m);
      Ok (List.concat ls)
  end.

(** HistTools.hpp:36-51 MakeAllHists, names version *)
Definition makeHists1 (ac : axcol) (names : list string) : res (smap hist) :=
  foldM (fun hs n =>
           do a <- getAxisByName ac n;
           do axes <- addAxis ac_empty a;
           Ok (sset n (mk_hist axes) hs)) names sempty.

(** HistTools.cpp:5-23 MakeAllHists, set of pairs version *)
Definition pairKey (p : string * string) : string := (fst p ++ "_" ++ snd p)%string.
Definition makeHists2 (ac : axcol) (pairs : list (string * string)) : res (smap hist) :=
  foldM (fun hs p =>
           do a <- getAxisByName ac (fst p);
           do axes <- addAxis ac_empty a;
           do b <- getAxisByName ac (snd p);
           do axes2 <- addAxis axes b;
           Ok (sset (pairKey p) (mk_hist axes2) hs)) pairs sempty.

(** HistTools.cpp:25-31 FillAllHists: weight 1 (the default); histograms already filled stay filled
    when a later one throws *)
Fixpoint fillAllHists (hs : smap hist) (vals : smap Qc) : smap hist * res unit :=
  match hs with
  | [] => ([], Ok tt)
  | (k, h) :: t =>
      match fill_map h vals 1%Qc with
      | (h', Ok _) => let (t', o) := fillAllHists t vals in ((k, h') :: t', o)
      | (h', o) => ((k, h') :: t, o)
      end
  end.

(** HistTools.hpp:53-85 GetVisualisableProjections *)
Definition visProjections (h : hist) : res (list hist) :=
  let names := acNames (hAxes h) in
  do ones <- mapM (fun i => do n <- vat names i; marginalise h [n]) (seq 0 (List.length names));
  do twos <- (if Nat.ltb 2 (hNDims h)
              then mapM (fun p => marginalise h [fst p; snd p]) (allCombsNoDiag names)
              else Ok []);
  Ok (ones ++ twos).

(** HistTools.hpp:87-137 Get1DSlices *)
Definition get1DSlices (h : hist) (name : string) : res (list hist) :=
  let names := acNames (hAxes h) in
  let fixed := filter (fun n => negb (String.eqb n name)) names in
  do maxes <- mapM (fun n => do a <- getAxisByName (hAxes h) n; Ok (aNBins a)) fixed;
  do a <- getAxisByName (hAxes h) name;
  if Nat.eqb (aNBins a) 0 then UB
  else
    do combs <- recursiveCombinations (List.length fixed) (repeat 0 (List.length fixed)) maxes;
    mapM (fun c =>
            do m <- foldM (fun m i =>
                             do n <- vat fixed i;
                             do b <- vat c i;
                             Ok (sset n b m)) (seq 0 (hNDims h - 1)) sempty;
            getSlice h m) combs.
