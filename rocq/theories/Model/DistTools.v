(** Model of /repo/src/dist/DistTools.cpp and of the part of ROOT's TH1D/TH2D/TH3D it uses.
    Simplifications: doubles are exact rationals; a ROOT histogram is its bin edges per axis, its axis titles and a map from
    per-axis bin numbers (0 = underflow, 1..n, n+1 = overflow) to contents; its entry count, errors and statistics are not modelled.
    The global bin number h.GetBin(i,j,k) is modelled by the tuple [i;j;k] itself. *)
From Coq Require Import ZArith.
From Verif Require Import Base.Res Base.Num Base.SMap Model.Axis Model.Hist Model.ED Model.Comp.
Local Open Scope Qc_scope.
Local Open Scope res_scope.

(** DistTools.cpp:14-33 ToHist(PDF, axes); [nd] is PDF::GetNDims and [integ] PDF::Integral *)
Definition pdfToHist (nd : nat) (integ : list Qc -> list Qc -> res Qc) (ac : axcol) : res hist :=
  if negb (Nat.eqb nd (acNDims ac)) then Throw DimensionError
  else foldM (fun h bin => do lo <- binLowEdges ac bin;
                           do hi <- binHighEdges ac bin;
                           do v <- integ lo hi;
                           ret (addBinContent h bin v))
             (seq 0 (acNBins ac)) (mk_hist ac).

(** a ROOT histogram: TAxis edges (n+1 of them for n bins) and titles, one per axis, and TArrayD contents *)
Record th := mkTh { thEdges : list (list Qc); thTitles : list string; thCont : list nat -> Qc }.
(** TAxis::GetNbins *)
Definition thNb (edges : list Qc) : nat := (List.length edges - 1)%nat.
(** TAxis::FindFixBin for variable bins: 0 below, n+1 from the last edge on, else 1 + TMath::BinarySearch *)
Definition binarySearch (edges : list Qc) (x : Qc) : Z :=
  let p := lowerBound edges x in
  if Nat.ltb p (List.length edges) && qeqb (nth p edges 0) x then Z.of_nat p else (Z.of_nat p - 1)%Z.
Definition thFind (edges : list Qc) (x : Qc) : nat :=
  if qltb x (hd 0 edges) then 0%nat
  else if negb (qltb x (last edges 0)) then S (thNb edges)
  else Z.to_nat (1 + binarySearch edges x).
(** TH1::SetBinContent and AddBinContent on the tuple of bin numbers *)
Definition thPut (t : th) (k : list nat) (v : Qc) : th := mkTh (thEdges t) (thTitles t) (fun j => if list_eq_dec Nat.eq_dec j k then v else thCont t j).
(** TH2::Fill(x,y,w), TH3::Fill(x,y,z,w) *)
Definition thFill (t : th) (xs : list Qc) (w : Qc) : th :=
  let k := map (fun p => thFind (fst p) (snd p)) (combine (thEdges t) xs) in thPut t k (thCont t k + w).

(** DistTools.cpp:59-80 ToTH1D(Histogram) (35-57, for a BinnedED, is the same code on GetAxes and GetBinContent).
    [last hi] is highEdges.back(), UB for an axis without bins, which no constructor makes *)
Definition toTH1D (h : hist) (wc : bool) : res th :=
  if negb (Nat.eqb (hNDims h) 1) then Throw DimensionError
  else
    do a <- getAxis (hAxes h) 0;
    foldM (fun t bin => do c <- getBinContent h bin;
                        do v <- (if wc then do w <- binWidth a bin; qdiv c w else Ok c);
                        Ok (thPut t [S bin] v))
          (seq 0 (aNBins a)) (mkTh [aLow a ++ [last (aHigh a) 0]] [aLatex a] (fun _ => 0)).
(** DistTools.cpp:82-113 ToTH2D and 124-163 ToTH3D (115-122, 165-172 forward a BinnedED's histogram): the same code for [n] = 2, 3 axes *)
Definition toTHn (n : nat) (h : hist) : res th :=
  if negb (Nat.eqb (hNDims h) n) then Throw DimensionError
  else
    do axs <- mapM (getAxis (hAxes h)) (seq 0 n);
    foldM (fun t i => do xs <- mapM (binDim binCentre (hAxes h) i) (seq 0 n);
                      do c <- getBinContent h i;
                      Ok (thFill t xs c))
          (seq 0 (hNBins h)) (mkTh (map (fun a => aLow a ++ [aMax a]) axs) (map aLatex axs) (fun _ => 0)).
Definition toTH2D : hist -> res th := toTHn 2.
Definition toTH3D : hist -> res th := toTHn 3.

(** DistTools.cpp:177-183, 197-210, 231-251: the axes; GetBinLowEdge(1) is the first edge and GetBinUpEdge(n) the last *)
Definition thAxes (t : th) : res axcol :=
  foldM (fun ac et => do a <- mk_equal (snd et) (nth 0 (fst et) 0) (nth (thNb (fst et)) (fst et) 0) (thNb (fst et)) "";
                      addAxis ac a)
        (combine (thEdges t) (thTitles t)) ac_empty.
(** DistTools.cpp:174-192 ToHist(TH1D) *)
Definition ofTH1D (t : th) : res hist :=
  do ac <- thAxes t;
  foldM (fun h i => ret (setBinContent h (i - 1) (thCont t [i]))) (seq 1 (thNb (nth 0 (thEdges t) []))) (mk_hist ac).
(** the loops "for i = 1..nx, for j = 1..ny[, for k = 1..nz]", outermost first *)
Fixpoint nested (ns : list nat) : list (list nat) :=
  match ns with
  | [] => [[]]
  | n :: ns' => flat_map (fun i => map (cons i) (nested ns')) (seq 1 n)
  end.
(** DistTools.cpp:194-226 ToHist(TH2D), 228-271 ToHist(TH3D) *)
Definition ofTHn (t : th) : res hist :=
  do ac <- thAxes t;
  foldM (fun h ix => do k <- flatten (hAxes h) (map (fun i => (i - 1)%nat) ix);
                     ret (setBinContent h k (thCont t ix)))
        (nested (map thNb (thEdges t))) (mk_hist ac).
