(** Model of /repo/src/data/OXSXDataSet.{h,cpp} and LazyOXSXDataSet.{h,cpp}.
    Simplifications: unsigned counts are nat (no 2^32 wrap); Reserve has no observable effect and is
    dropped; std::bad_alloc is not modelled. *)
From Verif Require Import Base.Res Base.Num Base.SMap Model.Axis Model.Event.
Local Open Scope res_scope.

(** An event as a data set stores it: Event.h:42-45.  The names are a POINTER to the name vector of a
    data set object, i.e. the address of that object. *)
Record devt := mkDevt { dvObs : list Qc; dvPtr : option nat }.
(** OXSXDataSet.h:36-38 *)
Record dset := mkDset { dData : list devt; dNames : list string; dNObs : nat }.
Definition ds_new : dset := mkDset [] [] 0.
(** the live OXSXDataSet objects, by address *)
Definition dheap := nat -> option dset.
Definition hp_upd (h : dheap) (a : nat) (d : option dset) : dheap := fun b => if Nat.eqb b a then d else h b.

(** OXSXDataSet.cpp:5-20 AddEntry on the object at address [self] *)
Definition ds_add (self : nat) (d : dset) (obs : list Qc) : dset * res unit :=
  if Nat.eqb (dNObs d) 0
  then let d1 := mkDset (dData d) (dNames d) (List.length obs) in
       if Nat.eqb (List.length obs) 0 then (d1, Throw DimensionError)
       else (mkDset (dData d1 ++ [mkDevt obs (Some self)]) (dNames d1) (dNObs d1), Ok tt)
  else if negb (Nat.eqb (dNObs d) (List.length obs)) then (d, Throw DimensionError)
  else if Nat.eqb (List.length obs) 0 then (d, Throw DimensionError)
  else (mkDset (dData d ++ [mkDevt obs (Some self)]) (dNames d) (dNObs d), Ok tt).
(** OXSXDataSet.cpp:22-32 GetEntry *)
Definition ds_get (d : dset) (i : nat) : res devt :=
  match nth_error (dData d) i with Some e => Ok e | None => Throw NotFoundError end.
(** OXSXDataSet.cpp:34-38 *)
Definition ds_n (d : dset) : nat := List.length (dData d).
(** OXSXDataSet.cpp:40-43 *)
Definition ds_setNames (d : dset) (ns : list string) : dset := mkDset (dData d) ns (dNObs d).

(** Event.cpp:66-76 GetDatum(name) on an event handed out by a data set: reads the pointed-to vector *)
Definition dv_datum (h : dheap) (e : devt) (n : string) : res Qc :=
  match dvPtr e with
  | None => UB
  | Some a => match h a with
              | None => UB
              | Some d => getDatum (mkEvent (dvObs e) (Some (dNames d))) n
              end
  end.

(** OXSXDataSet.cpp:51-58 operator+: [other.GetNEntries()] is read again in every round, and when the two
    operands are the same object it grows with it.  [fuel] bounds the rounds; running out is Diverge. *)
Fixpoint ds_plusLoop (fuel : nat) (self other i : nat) (h : dheap) : dheap * res unit :=
  match fuel with
  | 0%nat => (h, Diverge)
  | S fuel' =>
      match h other with
      | None => (h, UB)
      | Some o =>
          if Nat.leb (ds_n o) i then (h, Ok tt)
          else
          match ds_get o i, h self with
          | Ok e, Some s =>
              match ds_add self s (dvObs e) with
              | (s', Ok _) => ds_plusLoop fuel' self other (S i) (hp_upd h self (Some s'))
              | (s', r) => (hp_upd h self (Some s'), r)
              end
          | _, _ => (h, UB)
          end
      end
  end.
(** the returned temporary is a memberwise copy of *this, at the fresh address [res]; its events keep
    pointing to the name vector of *this *)
Definition ds_plus (fuel self other result : nat) (h : dheap) : dheap * res unit :=
  match ds_plusLoop fuel self other 0 h with
  | (h', Ok _) => (hp_upd h' result (h' self), Ok tt)
  | r => r
  end.
(** implicit copy constructor / destructor *)
Definition ds_copy (src dst : nat) (h : dheap) : dheap := hp_upd h dst (h src).
Definition ds_destroy (a : nat) (h : dheap) : dheap := hp_upd h a None.

(** histories *)
Inductive dop :=
| DNew (a : nat) | DAdd (a : nat) (obs : list Qc) | DNames (a : nat) (ns : list string)
| DPlus (fuel a b r : nat) | DCopy (a b : nat) | DDestroy (a : nat).
Definition dstep (h : dheap) (o : dop) : dheap :=
  match o with
  | DNew a => hp_upd h a (Some ds_new)
  | DAdd a obs => match h a with Some d => hp_upd h a (Some (fst (ds_add a d obs))) | None => h end
  | DNames a ns => match h a with Some d => hp_upd h a (Some (ds_setNames d ns)) | None => h end
  | DPlus fuel a b r => fst (ds_plus fuel a b r h)
  | DCopy a b => ds_copy a b h
  | DDestroy a => ds_destroy a h
  end.
Definition drun (l : list dop) : dheap := fold_left dstep l (fun _ => None).

(** ** LazyOXSXDataSet *)
(** LazyOXSXDataSet.h:39-41.  [E] is what a loaded file holds, [fs] the files (None = unreadable). *)
Section Lazy.
Variable E : Type.
Variable fs : string -> option (list E).
Record lobj := mkLobj { lzFile : string; lzData : option (list E) }.
Definition lz_held (o : option lobj) : nat :=
  match o with Some (mkLobj _ (Some _)) => 1 | _ => 0 end.
(** the objects by address, the static registry fFiles, and the number of loaded data sets whose last
    pointer has been overwritten (never freed) *)
Record lazy := mkLazy { lzObj : nat -> option lobj; lzReg : list nat; lzLeak : nat }.
Definition lz_new : lazy := mkLazy (fun _ => None) [] 0.
Definition lz_put (s : lazy) (a : nat) (o : option lobj) : lazy :=
  mkLazy (fun b => if Nat.eqb b a then o else lzObj s b) (lzReg s) (lzLeak s).
(** overwrite fDataSet without deleting what it pointed to *)
Definition lz_over (s : lazy) (a : nat) (o : option lobj) : lazy :=
  mkLazy (lzObj (lz_put s a o)) (lzReg s) (lzLeak s + lz_held (lzObj s a)).
(** LazyOXSXDataSet.cpp:55-59 Close *)
Definition lz_close (s : lazy) (a : nat) : lazy :=
  match lzObj s a with Some o => lz_put s a (Some (mkLobj (lzFile o) None)) | None => s end.
(** LazyOXSXDataSet.cpp:48-53 Load: closes every registered object, then loads its own file.  A failing
    load throws (HDF5 exception, std_logic_error here) and leaves the object without data if registered. *)
Definition lz_load (s : lazy) (a : nat) : lazy * res unit :=
  let s1 := fold_left lz_close (lzReg s) s in
  match lzObj s1 a with
  | None => (s1, UB)
  | Some o => match fs (lzFile o) with
              | Some d => (lz_over s1 a (Some (mkLobj (lzFile o) (Some d))), Ok tt)
              | None => (s1, Throw std_logic_error)
              end
  end.
(** LazyOXSXDataSet.cpp:24-46, 70-76: every accessor loads if there is no data, then reads *)
Definition lz_access (s : lazy) (a : nat) : lazy * res (list E) :=
  match lzObj s a with
  | None => (s, UB)
  | Some o =>
      match lzData o with
      | Some d => (s, Ok d)
      | None =>
          match lz_load s a with
          | (s', Ok _) => (s', match lzObj s' a with Some o' => match lzData o' with Some d => Ok d | None => UB end | None => UB end)
          | (s', Throw e) => (s', Throw e) | (s', UB) => (s', UB)
          | (s', NonFinite) => (s', NonFinite) | (s', Diverge) => (s', Diverge)
          end
      end
  end.
(** GetEntry *)
Definition lz_entry (s : lazy) (a i : nat) : lazy * res E :=
  match lz_access s a with
  | (s', Ok d) => (s', match nth_error d i with Some e => Ok e | None => Throw NotFoundError end)
  | (s', Throw e) => (s', Throw e) | (s', UB) => (s', UB)
  | (s', NonFinite) => (s', NonFinite) | (s', Diverge) => (s', Diverge)
  end.
Inductive lop :=
| LNew (a : nat) (f : string)     (* constructor, LazyOXSXDataSet.h:17: registers *)
| LCopy (a b : nat)               (* copy constructor, cpp:11-15: NOT registered *)
| LAssign (a b : nat)             (* operator=, cpp:17-23: b's file name, no data *)
| LDestroy (a : nat)              (* destructor, cpp:5-9 *)
| LLoad (a : nat) | LClose (a : nat) | LAccess (a : nat).
Definition lstep (s : lazy) (o : lop) : lazy :=
  match o with
  | LNew a f => match lzObj s a with
                | None => mkLazy (lzObj (lz_put s a (Some (mkLobj f None)))) (lzReg s ++ [a]) (lzLeak s)
                | Some _ => s
                end
  | LCopy a b => match lzObj s a, lzObj s b with
                 | None, Some o => lz_put s a (Some (mkLobj (lzFile o) None)) | _, _ => s end
  | LAssign a b => match lzObj s a, lzObj s b with
                   | Some _, Some o => lz_over s a (Some (mkLobj (lzFile o) None)) | _, _ => s end
  | LDestroy a => mkLazy (lzObj (lz_put s a None)) (filter (fun b => negb (Nat.eqb b a)) (lzReg s)) (lzLeak s)
  | LLoad a => match lzObj s a with Some _ => fst (lz_load s a) | None => s end
  | LClose a => lz_close s a
  | LAccess a => fst (lz_access s a)
  end.
Definition lrun (l : list lop) : lazy := fold_left lstep l lz_new.
End Lazy.
Arguments mkLobj {E}. Arguments lzFile {E}. Arguments lzData {E}. Arguments lzObj {E}. Arguments lzReg {E}. Arguments lzLeak {E}.
Arguments mkLazy {E}. Arguments lz_new {E}.
