(** Model of /repo/src/core/SparseMatrix.{h,cpp} and DenseMatrix.{h,cpp}.
    Simplifications: doubles are exact rationals; the Armadillo matrix is its size and its entries (a
    function of row and column, read only inside the size); an Armadillo size or bounds error that the
    class does not catch is [std_logic_error]. *)
From Verif Require Import Base.Res Base.Num.
Local Open Scope Qc_scope.
Local Open Scope res_scope.

(** SparseMatrix.h:42-44 / DenseMatrix.h: sNR, sNC are the book-keeping fields fNRows, fNCols;
    sR, sC, sF the Armadillo matrix fArmaMat *)
Record smat := mkMat { sNR : nat; sNC : nat; sR : nat; sC : nat; sF : nat -> nat -> Qc }.

(** SparseMatrix.h:19 default constructor *)
Definition mat_empty : smat := mkMat 0 0 0 0 (fun _ _ => 0).
(** SparseMatrix.cpp:7-12, DenseMatrix.cpp:8-13 *)
Definition mat_zeros (r c : nat) : smat := mkMat r c r c (fun _ _ => 0).

(** fArmaMat(row,col) = val *)
Definition fset (f : nat -> nat -> Qc) (r c : nat) (v : Qc) : nat -> nat -> Qc :=
  fun i j => if Nat.eqb i r && Nat.eqb j c then v else f i j.

(** SparseMatrix.cpp:25-35 SetComponent, DenseMatrix.cpp:15-25 *)
Definition m_set (m : smat) (r c : nat) (v : Qc) : smat * res unit :=
  if Nat.leb (sNC m) c || Nat.leb (sNR m) r then (m, Throw NotFoundError)
  else if Nat.ltb r (sR m) && Nat.ltb c (sC m)
       then (mkMat (sNR m) (sNC m) (sR m) (sC m) (fset (sF m) r c v), Ok tt)
       else (m, Throw std_logic_error).
(** SparseMatrix.cpp:37-47 GetComponent, DenseMatrix.cpp:27-37 *)
Definition m_get (m : smat) (r c : nat) : res Qc :=
  if Nat.leb (sNC m) c || Nat.leb (sNR m) r then Throw NotFoundError
  else if Nat.ltb r (sR m) && Nat.ltb c (sC m) then Ok (sF m r c) else Throw std_logic_error.

(** SparseMatrix.cpp:49-65 operator(), DenseMatrix.cpp:39-59: matrix times vector *)
Definition m_apply (m : smat) (v : list Qc) : res (list Qc) :=
  if Nat.eqb (List.length v) (sC m)
  then Ok (map (fun i => qsum (map (fun j => sF m i j * nth j v 0) (seq 0 (sC m)))) (seq 0 (sR m)))
  else Throw DimensionError.

(** the Armadillo product *)
Definition fmul (n : nat) (f g : nat -> nat -> Qc) : nat -> nat -> Qc :=
  fun i j => qsum (map (fun k => f i k * g k j) (seq 0 n)).
(** SparseMatrix.cpp:67-72 operator*= and 74-79 operator* (the same body, so [a * b] also changes [a]),
    DenseMatrix.cpp:61-66.  Returns the receiver afterwards; the value of the call is a copy of it.
    fNRows and fNCols are not updated. *)
Definition m_mul (m o : smat) : smat * res unit :=
  if Nat.eqb (sC m) (sR o)
  then (mkMat (sNR m) (sNC m) (sR m) (sC o) (fmul (sC m) (sF m) (sF o)), Ok tt)
  else (m, Throw std_logic_error).

(** SparseMatrix.cpp:81-86 SetZeros *)
Definition m_setZeros (m : smat) : smat * res unit :=
  if Nat.eqb (sNR m) 0 || Nat.eqb (sNC m) 0 then (m, Throw DimensionError)
  else (mkMat (sNR m) (sNC m) (sNR m) (sNC m) (fun _ _ => 0), Ok tt).
(** SparseMatrix.cpp:88-93 SetToIdentity: eye() keeps the Armadillo size *)
Definition m_setIdentity (m : smat) : smat * res unit :=
  if Nat.eqb (sNR m) 0 || Nat.eqb (sNC m) 0 || negb (Nat.eqb (sNC m) (sNR m)) then (m, Throw DimensionError)
  else (mkMat (sNR m) (sNC m) (sR m) (sC m) (fun i j => if Nat.eqb i j then 1 else 0), Ok tt).

(** the entry a coordinate list gives for (i,j) *)
Fixpoint coo_find (locs : list (nat * nat)) (vals : list Qc) (i j : nat) : Qc :=
  match locs, vals with
  | (r, c) :: ls, v :: vs => if Nat.eqb r i && Nat.eqb c j then v else coo_find ls vs i j
  | _, _ => 0
  end.
Definition pair_eq_dec (p q : nat * nat) : {p = q} + {p <> q}.
Proof. decide equality; apply Nat.eq_dec. Defined.
Fixpoint has_dup (l : list (nat * nat)) : bool :=
  match l with [] => false | x :: t => if in_dec pair_eq_dec x t then true else has_dup t end.
(** SparseMatrix.cpp:96-109 SetComponents: the coordinate-list constructor of arma::sp_mat (repeated
    locations are an Armadillo error), then resize to (fNRows, fNCols) *)
Definition m_setComponents (m : smat) (rows cols : list nat) (vals : list Qc) : smat * res unit :=
  if negb (Nat.eqb (List.length rows) (List.length vals)) || negb (Nat.eqb (List.length cols) (List.length vals))
  then (m, Throw DimensionError)
  else if has_dup (combine rows cols) then (m, Throw std_logic_error)
  else (mkMat (sNR m) (sNC m) (sNR m) (sNC m) (coo_find (combine rows cols) vals), Ok tt).

(** SparseMatrix.cpp:111-114 Scale *)
Definition m_scale (m : smat) (k : Qc) : smat :=
  mkMat (sNR m) (sNC m) (sR m) (sC m) (fun i j => sF m i j * k).

(** the (j,k) pairs in the order of the two loops of DenseMatrix.cpp:105-113 *)
Definition lower_pairs (n : nat) : list (nat * nat) :=
  flat_map (fun j => map (pair j) (seq 0 (S j))) (seq 0 n).
(** DenseMatrix.cpp:82-115 SetSymmetricMatrix.  The outer while runs once when the sizes match (not at
    all for n = 0). *)
Definition m_setSymmetric (m : smat) (inp : list Qc) : smat * res unit :=
  if negb (Nat.eqb (sNR m) (sNC m)) then (m, Throw DimensionError)
  else if negb (Nat.eqb (Nat.div (sNR m * (sNR m + 1)) 2) (List.length inp)) then (m, Throw DimensionError)
  else iterS (fun mm (p : nat * (nat * nat)) =>
                obind mm (vat inp (fst p)) (fun v =>
                  let j := fst (snd p) in let k := snd (snd p) in
                  if Nat.ltb j (sR mm) && Nat.ltb k (sC mm) && Nat.ltb k (sR mm) && Nat.ltb j (sC mm)
                  then (mkMat (sNR mm) (sNC mm) (sR mm) (sC mm) (fset (fset (sF mm) k j v) j k v), Ok tt)
                  else (mm, Throw std_logic_error)))
             (combine (seq 0 (List.length (lower_pairs (sNR m)))) (lower_pairs (sNR m))) m.
