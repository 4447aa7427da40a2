(** Model of /repo/src/function/Gaussian.cpp, GaussianFitter.cpp, JumpPDF.cpp and VaryingCDF.cpp (with a Gaussian kernel).
    Simplifications: doubles are exact rationals; [U] is GSL's unit Gaussian cdf gsl_cdf_ugaussian_P, of which
    gsl_cdf_gaussian_P(x, sigma) is the value at x / sigma; the density operator() is in Model/Density.v. *)
From Coq Require Import ZArith.
From Verif Require Import Base.Res Base.Num Base.SMap Model.Axis Model.Hist Model.Param.
Local Open Scope Qc_scope.
Local Open Scope res_scope.

Record gauss := mkGauss { gName : string; gMeans : list Qc; gStds : list Qc; gCut : Qc; gND : nat;
                          gMN : list string; gSN : list string (* GaussianFitter's names *) }.

(** GaussianFitter.cpp:13-26, the default names *)
Definition defNames (prefix : string) (n : nat) : list string := map (fun i => (prefix ++ dec i)%string) (seq 0 n).
(** Gaussian.cpp:32-37, 60-72, 136-149: constructor from means and standard deviations *)
Definition newGauss (means stds : list Qc) (name : string) : res gauss :=
  if negb (Nat.eqb (List.length means) (List.length stds)) then Throw DimensionError
  else if existsb (fun s => qleb s 0) stds then Throw ValueError
  else Ok (mkGauss (if String.eqb name "" then "gaussian"%string else name) means stds (qz 6) (List.length means)
             (defNames "means_"%string (List.length means)) (defNames "stddevs_"%string (List.length means))).
(** Gaussian.cpp:17-30, the other constructors *)
Definition newGaussN (n : nat) (name : string) : res gauss := newGauss (repeat 0 n) (repeat 1 n) name.
(** Gaussian.cpp:39-46 copy constructor, 48-58 operator= and GaussianFitter.cpp:28-38 *)
Definition copyGauss (g : gauss) : res gauss :=
  if negb (Nat.eqb (List.length (gMN g)) (List.length (gSN g))) then Throw OXSXException
  else Ok (mkGauss (gName g ++ "_copy")%string (gMeans g) (gStds g) (gCut g) (gND g) (gMN g) (gSN g)).

(** Gaussian.cpp:84-108 GetMean, GetStDev: the index is a size_t *)
Definition atZ (l : list Qc) (i : Z) : res Qc :=
  if (i <? Z.of_nat (List.length l))%Z then Ok (nth (Z.to_nat i) l 0) else Throw NotFoundError.
(** Gaussian.cpp:110-118 SetMean, SetStDev: unchecked operator[] *)
Definition putAt (l : list Qc) (i : nat) (v : Qc) : res (list Qc) := if Nat.ltb i (List.length l) then Ok (upd l i v) else UB.
Definition withMeans (g : gauss) (m : list Qc) := mkGauss (gName g) m (gStds g) (gCut g) (gND g) (gMN g) (gSN g).
Definition withStds (g : gauss) (s : list Qc) := mkGauss (gName g) (gMeans g) s (gCut g) (gND g) (gMN g) (gSN g).
Definition withNames (g : gauss) (m s : list string) := mkGauss (gName g) (gMeans g) (gStds g) (gCut g) (gND g) m s.
Definition setMean (g : gauss) (i : nat) (v : Qc) : res gauss := do m <- putAt (gMeans g) i v; Ok (withMeans g m).
Definition setStDev (g : gauss) (i : nat) (v : Qc) : res gauss := do s <- putAt (gStds g) i v; Ok (withStds g s).
(** Gaussian.cpp:120-128 SetMeans, SetStDevs, 163-166 SetCdfCutOff *)
Definition setMeans := withMeans.
Definition setStDevs := withStds.
Definition setCut (g : gauss) (c : Qc) := mkGauss (gName g) (gMeans g) (gStds g) c (gND g) (gMN g) (gSN g).

(** GaussianFitter.cpp:76-81 and 82-87: write at every position whose name matches *)
Definition setNamed (names : list string) (name : string) (v : Qc) (l : list Qc) : res (list Qc) :=
  foldM (fun l i => if String.eqb (nth i names ""%string) name then putAt l i v else Ok l) (seq 0 (List.length names)) l.
(** GaussianFitter.cpp:73-88 SetParameter *)
Definition gSet (name : string) (v : Qc) (g : gauss) : res gauss :=
  do m <- setNamed (gMN g) name v (gMeans g);
  do s <- setNamed (gSN g) name v (gStds g);
  Ok (withStds (withMeans g m) s).
(** GaussianFitter.cpp:109-115 SetParameters *)
Definition gSetAll (d : smap Qc) (g : gauss) : res gauss := foldM (fun g e => gSet (fst e) (snd e) g) d g.
(** GaussianFitter.cpp:90-107 GetParameter: std::distance(it, begin) is minus the index, as a size_t *)
Definition gGet (name : string) (g : gauss) : res Qc :=
  match index_of name (gMN g) with
  | Some i => atZ (gMeans g) (w64 (- Z.of_nat i))
  | None => match index_of name (gSN g) with
            | Some i => atZ (gStds g) (w64 (- Z.of_nat i))
            | None => Throw NotFoundError
            end
  end.
(** ContainerTools.hpp:14-34 CreateMap, GaussianFitter.cpp:117-134 GetParameters; a failing assert is UB here *)
Definition gGetAll (g : gauss) : res (smap Qc) :=
  if negb (Nat.eqb (List.length (gMN g ++ gSN g)) (List.length (gMeans g ++ gStds g))) then UB
  else Ok (fold_left (fun m e => sset (fst e) (snd e) m) (combine (gMN g ++ gSN g) (gMeans g ++ gStds g)) sempty).
(** GaussianFitter.cpp:136-140 GetParameterCount, 142-152 GetParameterNames (with repetitions here) *)
Definition gCount (g : gauss) : nat := (List.length (gMN g) + List.length (gSN g))%nat.
Definition gNames (g : gauss) : list string := gMN g ++ gSN g.

(** std::find from position i on *)
Fixpoint findFrom (l : list string) (i : nat) (x : string) : option nat :=
  match l with
  | [] => None
  | y :: t => match i with
              | O => if String.eqb y x then Some O else option_map S (findFrom t O x)
              | S j => option_map S (findFrom t j x)
              end
  end.
(** GaussianFitter.cpp:46-51: find(it++, ...) starts at the position just written; [fuel] bounds the turns looked at *)
Fixpoint renameLoop (fuel : nat) (l : list string) (i : nat) (old new : string) : res (list string) :=
  match findFrom l i old with
  | None => Ok l
  | Some p => match fuel with O => Diverge | S n => renameLoop n (upd l p new) p old new end
  end.
(** GaussianFitter.cpp:40-59 RenameParameter *)
Definition gRename (fuel : nat) (old new : string) (g : gauss) : res gauss :=
  match findFrom (gMN g) 0 old, findFrom (gSN g) 0 old with
  | None, None => Throw NotFoundError
  | _, _ => do m <- renameLoop fuel (gMN g) 0 old new;
            do s <- renameLoop fuel (gSN g) 0 old new;
            Ok (withNames g m s)
  end.

(** Gaussian.cpp:204-214 Cdf *)
Definition gCdf (U : Qc -> Qc) (g : gauss) (dim : nat) (val : Qc) : res Qc :=
  do mean <- atZ (gMeans g) (Z.of_nat dim);
  do sd <- atZ (gStds g) (Z.of_nat dim);
  do nDevs <- qdiv (val - mean) sd;
  if qltb (gCut g) nDevs then Ok 1
  else if qltb nDevs (- (1) * gCut g) then Ok 0
  else Ok (U nDevs).
(** Gaussian.cpp:216-227 Integral *)
Definition gIntegral (U : Qc -> Qc) (g : gauss) (mins maxs : list Qc) : res Qc :=
  if negb (Nat.eqb (List.length mins) (gND g)) || negb (Nat.eqb (List.length maxs) (gND g)) then Throw DimensionError
  else foldM (fun acc i => do hi <- gCdf U g i (nth i maxs 0);
                           do lo <- gCdf U g i (nth i mins 0);
                           Ok (acc * (hi - lo))) (seq 0 (List.length mins)) 1.

(** JumpPDF.cpp:48-56 Diff: reads one value of x2_ for each of x_ *)
Fixpoint jDiff (x x2 : list Qc) : res (list Qc) :=
  match x, x2 with
  | [], _ => Ok []
  | a :: t, b :: t2 => do r <- jDiff t t2; Ok ((a - b) :: r)
  | _ :: _, [] => UB
  end.
(** JumpPDF.cpp:98-108 Integral *)
Definition jIntegral (U : Qc -> Qc) (pdf : option gauss) (mins maxs x2 : list Qc) : res Qc :=
  match pdf with
  | None => Throw NULLPointerAccessError
  | Some g => do lo <- jDiff mins x2; do hi <- jDiff maxs x2; gIntegral U g lo hi
  end.
(** VaryingCDF.cpp:57-66 SetupParameters: one function of x2 for each parameter it controls *)
Definition vSetup (fns : smap (list Qc -> res Qc)) (x2 : list Qc) : res (smap Qc) :=
  foldM (fun d (e : string * (list Qc -> res Qc)) => do v <- snd e x2; Ok (sset (fst e) v d)) fns sempty.
(** VaryingCDF.cpp:83-92 Integral (with JumpPDF.cpp SetParameters, which forwards to the Gaussian): the kernel keeps the
    parameters it was given; returns the kernel afterwards and the integral *)
Definition vIntegral (U : Qc -> Qc) (fns : smap (list Qc -> res Qc)) (kernel : gauss) (mins maxs x2 : list Qc) : res (gauss * Qc) :=
  do d <- vSetup fns x2;
  do k <- gSetAll d kernel;
  do v <- jIntegral U (Some k) mins maxs x2;
  Ok (k, v).
