(** Model of the size_t arithmetic of /repo/src/histogram/AxisCollection.cpp: the same functions as in Model/Axis.v, with sums and
    products modulo 2^64.  FlattenIndices with wrap-around is [flattenW] of Model/Hist.v. *)
From Coq Require Import ZArith.
From Verif Require Import Base.Res Base.Num Base.SMap Model.Axis Model.Hist.
Local Open Scope Qc_scope.
Local Open Scope res_scope.

(** AxisCollection.cpp:57-68 CountBins (GetNBins, 8-12) *)
Definition countW (ac : axcol) : Z :=
  if Nat.eqb (acNDims ac) 0 then 0%Z else fold_left (fun x n => w64 (x * Z.of_nat n)) (firstn (acNDims ac) (acNbins ac)) 1%Z.
(** AxisCollection.cpp:125-141 UnflattenIndex *)
Definition unflattenW (ac : axcol) (index : Z) (dim : nat) : res Z :=
  if Nat.eqb (acNDims ac) 1 then Ok index
  else if Z.leb (countW ac) index then Throw NotFoundError
  else
    let x := fold_left (fun x n => w64 (x * Z.of_nat n)) (skipn (dim + 1) (firstn (acNDims ac) (acNbins ac))) 1%Z in
    match nth_error (acNbins ac) dim with
    | None => UB
    | Some nb => if Nat.eqb nb 0 || Z.eqb x 0 then UB else Ok ((index / x) mod Z.of_nat nb)%Z
    end.
(** AxisCollection.cpp:143-150 UnpackIndices *)
Definition unpackW (ac : axcol) (index : Z) : res (list Z) := mapM (fun i => unflattenW ac index i) (seq 0 (acNDims ac)).
(** AxisCollection.cpp:111-123 FindBin *)
Definition ac_findBinW (ac : axcol) (vals : list Qc) : res Z :=
  if negb (Nat.eqb (List.length vals) (acNDims ac)) then Throw DimensionError
  else
    do idx <- mapM (fun i => do a <- vat (acAxes ac) i; Ok (Z.of_nat (findBin a (nth i vals 0)))) (seq 0 (acNDims ac));
    flattenW ac idx.
