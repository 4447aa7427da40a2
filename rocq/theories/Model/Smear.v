(** Model of /repo/src/eventSystematic/EventConvolution.{h,cpp}, the sampling of Gaussian.cpp, JumpPDF.cpp, VaryingCDF.cpp.
    Simplifications: doubles are exact rationals; [gaus k m s] is the value Rand::Gaus(m, s) returns when called for the k-th time; a kernel is a
    Gaussian inside a JumpPDF, or that inside a VaryingCDF whose dependences are functions of the point; the kernel's state after an exception
    is not followed; the names of JumpPDF and VaryingCDF are left out. *)
From Coq Require Import ZArith.
From Verif Require Import Base.Res Base.Num Base.SMap Model.Axis Model.Event Model.Hist Model.Gauss.
Local Open Scope Qc_scope.
Local Open Scope res_scope.

(** Gaussian.cpp:229-238 Sample; returns the number of draws made so far as well *)
Definition gSample (gaus : nat -> Qc -> Qc -> Qc) (g : gauss) (k : nat) : res (list Qc * nat) :=
  foldM (fun st i => do m <- vat (gMeans g) i; do s <- vat (gStds g) i; Ok (fst st ++ [gaus (snd st) m s], S (snd st))) (seq 0 (gND g)) ([], k).
(** JumpPDF.cpp:58-66 Sum: reads one value of x2_ for each of x_ *)
Fixpoint jSum (x x2 : list Qc) : res (list Qc) :=
  match x, x2 with
  | [], _ => Ok []
  | a :: t, b :: t2 => do r <- jSum t t2; Ok ((a + b) :: r)
  | _ :: _, [] => UB
  end.
(** JumpPDF.cpp:88-97 Sample *)
Definition jSample (gaus : nat -> Qc -> Qc -> Qc) (pdf : option gauss) (x2 : list Qc) (k : nat) : res (list Qc * nat) :=
  match pdf with
  | None => Throw NULLPointerAccessError
  | Some g => do s <- gSample gaus g k; do r <- jSum (fst s) x2; Ok (r, snd s)
  end.
(** ConditionalPDF.h: JumpPDF, or VaryingCDF.h:80-81 with a JumpPDF as kernel *)
Inductive cpdf := CJump (g : option gauss) | CVary (fns : smap (list Qc -> res Qc)) (g : option gauss).
(** VaryingCDF.cpp:106-113 Sample, with JumpPDF.cpp:144-158 SetParameters: the kernel keeps the parameters it was given *)
Definition cSample (gaus : nat -> Qc -> Qc -> Qc) (c : cpdf) (x2 : list Qc) (k : nat) : res (cpdf * (list Qc * nat)) :=
  match c with
  | CJump g => do r <- jSample gaus g x2 k; Ok (c, r)
  | CVary fns og =>
      do d <- vSetup fns x2;
      match og with
      | None => Throw NULLPointerAccessError
      | Some g => do g' <- gSetAll d g; do r <- jSample gaus (Some g') x2 k; Ok (CVary fns (Some g'), r)
      end
  end.
(** JumpPDF.cpp:21-29 copy constructor, VaryingCDF.cpp:34-39 copy constructor (the functions are shared, see Model/Vary.v) *)
Definition cClone (c : cpdf) : res cpdf :=
  match c with
  | CJump None => Ok c
  | CJump (Some g) => do g' <- copyGauss g; Ok (CJump (Some g'))
  | CVary fns None => Ok c
  | CVary fns (Some g) => do g' <- copyGauss g; Ok (CVary fns (Some g'))
  end.

(** EventConvolution.h:43-44, EventSystematic.h:20-21 *)
Record evconv := mkEc { ecDist : option cpdf; ecName : string; ecIn : obsset; ecOut : obsset }.
(** EventConvolution.h:15 constructor *)
Definition ec_new (name : string) : evconv := mkEc None name (mk_obsset []) (mk_obsset []).
(** EventSystematic.cpp:3-6, 14-17 *)
Definition ec_setIn (s : evconv) (l : list string) : evconv := mkEc (ecDist s) (ecName s) (mk_obsset l) (ecOut s).
Definition ec_setOut (s : evconv) (l : list string) : evconv := mkEc (ecDist s) (ecName s) (ecIn s) (mk_obsset l).
Definition ec_withDist (s : evconv) (d : option cpdf) : evconv := mkEc d (ecName s) (ecIn s) (ecOut s).
(** EventConvolution.cpp:45-57 SetPDF (None: a null pointer), with JumpPDF.cpp:11-19 *)
Definition ec_setPDF (s : evconv) (f : option gauss) : evconv * res unit :=
  match f with
  | None => (ec_withDist s None, Ok tt)
  | Some g => if negb (Nat.eqb (gND g) 1) then (s, Throw DimensionError)
              else match copyGauss g with
                   | Ok g' => (ec_withDist s (Some (CJump (Some g'))), Ok tt)
                   | Throw e => (s, Throw e) | UB => (s, UB) | NonFinite => (s, NonFinite) | Diverge => (s, Diverge)
                   end
  end.
(** EventConvolution.cpp:59-65 SetConditionalPDF *)
Definition ec_setCPDF (s : evconv) (c : option cpdf) : evconv * res unit :=
  match c with
  | None => (ec_withDist s None, Ok tt)
  | Some c => match cClone c with
              | Ok c' => (ec_withDist s (Some c'), Ok tt)
              | Throw e => (s, Throw e) | UB => (s, UB) | NonFinite => (s, NonFinite) | Diverge => (s, Diverge)
              end
  end.
(** EventConvolution.cpp:18-26 copy constructor: the name is not copied *)
Definition ec_copy (s : evconv) : res evconv :=
  match ecDist s with
  | None => Ok (mkEc None "" (ecIn s) (ecOut s))
  | Some c => do c' <- cClone c; Ok (mkEc (Some c') "" (ecIn s) (ecOut s))
  end.
(** EventConvolution.cpp:152-166 operator(); the convolution afterwards, the number of draws made and the new event *)
Definition ec_apply (gaus : nat -> Qc -> Qc -> Qc) (s : evconv) (k : nat) (e : event) : res (evconv * nat * event) :=
  match ecDist s with
  | None => Throw NULLPointerAccessError
  | Some c =>
      do n <- vat (osNames (ecOut s)) 0;
      do x2 <- toObsSet e (ecOut s);
      do r <- cSample gaus c x2 k;
      do v <- vat (fst (snd r)) 0;
      do e' <- setDatum e n v;
      Ok (ec_withDist s (Some (fst r)), snd (snd r), e')
  end.
(** the events of a data set one after the other (DistFiller.cpp:17-25 with one systematic) *)
Fixpoint ec_run (gaus : nat -> Qc -> Qc -> Qc) (s : evconv) (k : nat) (es : list event) : res (evconv * nat * list event) :=
  match es with
  | [] => Ok (s, k, [])
  | e :: t => do r <- ec_apply gaus s k e; do q <- ec_run gaus (fst (fst r)) (snd (fst r)) t; Ok (fst q, snd r :: snd q)
  end.
