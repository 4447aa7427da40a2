(** Model of the fit parameters and the ownership of /repo/src/function/VaryingCDF.cpp with dependences that are SquareRootScale.{h,cpp}
    (the library's only Function with a single value; its value at a point is in Model/Density.v).
    Simplifications: doubles are exact rationals; the kernel is left out (see Model/Smear.v). *)
From Verif Require Import Base.Res Base.Num Base.SMap Model.Axis Model.Hist.
Local Open Scope Qc_scope.
Local Open Scope res_scope.

(** SquareRootScale.h:47-48: parameter name and gradient *)
Record sqs := mkSqs { sqPar : string; sqVal : Qc }.
(** SquareRootScale.h:26 constructor *)
Definition sqs_new : sqs := mkSqs "grad" 1.
(** SquareRootScale.cpp:15-20 SetParameter, 22-27 GetParameter, 29-39 SetParameters, 41-46 GetParameters, 54-59 RenameParameter *)
Definition sq_set (f : sqs) (n : string) (v : Qc) : res sqs := if String.eqb n (sqPar f) then Ok (mkSqs (sqPar f) v) else Throw ParameterError.
Definition sq_get (f : sqs) (n : string) : res Qc := if String.eqb n (sqPar f) then Ok (sqVal f) else Throw ParameterError.
Definition sq_setAll (f : sqs) (d : smap Qc) : res sqs := match sfind (sqPar f) d with Some v => Ok (mkSqs (sqPar f) v) | None => Throw ParameterError end.
Definition sq_getAll (f : sqs) : smap Qc := sset (sqPar f) (sqVal f) sempty.
Definition sq_rename (f : sqs) (o n : string) : res sqs := if String.eqb o (sqPar f) then Ok (mkSqs n (sqVal f)) else Throw ParameterError.

(** function objects by address; None = freed *)
Definition heap := nat -> option sqs.
Definition hput (h : heap) (a : nat) (x : option sqs) : heap := fun b => if Nat.eqb b a then x else h b.
(** VaryingCDF.h:80 fFunctions: the addresses, by the name of the kernel parameter they control *)
Definition vcdf := smap nat.
Definition vc_new : vcdf := sempty.
Definition live (h : heap) (a : nat) : res sqs := match h a with Some f => Ok f | None => UB end.
(** VaryingCDF.cpp:78-81 SetDependance: a clone at the fresh address [a] (an earlier function of that name is leaked) *)
Definition vc_depend (h : heap) (v : vcdf) (par : string) (f : sqs) (a : nat) : heap * vcdf := (hput h a (Some f), sset par a v).
(** a call on every function in the order of the map, stopping at the first that throws; what was done stays *)
Definition vc_each (g : sqs -> res sqs) (h : heap) (v : vcdf) : heap * res unit :=
  iterS (fun h a => match (do f <- live h a; g f) with
                    | Ok f' => (hput h a (Some f'), Ok tt)
                    | Throw e => (h, Throw e) | UB => (h, UB) | NonFinite => (h, NonFinite) | Diverge => (h, Diverge)
                    end) (map snd v) h.
(** VaryingCDF.cpp:115-121 SetParameter, 146-152 SetParameters, 189-195 RenameParameter *)
Definition vc_set (h : heap) (v : vcdf) (n : string) (x : Qc) : heap * res unit := vc_each (fun f => sq_set f n x) h v.
Definition vc_setAll (h : heap) (v : vcdf) (d : smap Qc) : heap * res unit := vc_each (fun f => sq_setAll f d) h v.
Definition vc_rename (h : heap) (v : vcdf) (o n : string) : heap * res unit := vc_each (fun f => sq_rename f o n) h v.
(** VaryingCDF.cpp:123-144 GetParameter: only NotFoundError is caught *)
Fixpoint vc_getGo (h : heap) (l : list nat) (n : string) : res Qc :=
  match l with
  | [] => Throw NotFoundError
  | a :: t => match (do f <- live h a; sq_get f n) with
              | Throw NotFoundError => vc_getGo h t n
              | r => r
              end
  end.
Definition vc_get (h : heap) (v : vcdf) (n : string) : res Qc := vc_getGo h (map snd v) n.
(** VaryingCDF.cpp:154-164 GetParameters: map::insert keeps the first value of a name *)
Definition vc_getAll (h : heap) (v : vcdf) : res (smap Qc) :=
  foldM (fun d a => do f <- live h a;
                    Ok (fold_left (fun d e => if shas (fst e) d then d else sset (fst e) (snd e) d) (sq_getAll f) d)) (map snd v) sempty.
(** VaryingCDF.cpp:166-175 GetParameterCount (SquareRootScale's count is 1), 177-187 GetParameterNames *)
Definition vc_count (h : heap) (v : vcdf) : res nat := foldM (fun n a => do _ <- live h a; Ok (n + 1)%nat) (map snd v) 0%nat.
Definition vc_names (h : heap) (v : vcdf) : res (list string) :=
  foldM (fun s a => do f <- live h a; Ok (sset_add (sqPar f) s)) (map snd v) [].
(** VaryingCDF.cpp:34-39 copy constructor: the pointers are copied *)
Definition vc_copy (v : vcdf) : vcdf := v.
(** VaryingCDF.cpp:25-32 destructor: deleting an address twice is undefined *)
Definition vc_destroy (h : heap) (v : vcdf) : heap * res unit :=
  iterS (fun h a => match live h a with
                    | Ok _ => (hput h a None, Ok tt)
                    | Throw e => (h, Throw e) | UB => (h, UB) | NonFinite => (h, NonFinite) | Diverge => (h, Diverge)
                    end) (map snd v) h.
