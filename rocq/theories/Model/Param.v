(** Model of the fit-parameter plumbing: /repo/src/core/ParameterManager.*, DoubleParameter.h,
    ContainerParameter.*, ComponentManager.*, the FitComponent interfaces of Shift, Scale,
    ScaleFunction, Shape, Renorm (/repo/src/systematic) and SpectralFitDist (/repo/src/dist). *)
From Coq Require Import ZArith DecimalString Ascii.
From Verif Require Import Base.Res Base.Num Base.SMap Model.Axis Model.Hist.
Local Open Scope res_scope.

(** std::to_string / operator<< of a size_t *)
Definition dec (n : nat) : string := NilZero.string_of_uint (Nat.to_uint n).

(** What a FitParameter refers to: a double variable (DoubleParameter.h:8-13) or element i of a
    container (ContainerParameter.h:15-22).  The memory maps variable and container identities to
    values. *)
Inductive loc := LDouble (a : nat) | LElem (c i : nat).
Record pmem := mkMem { mDbl : nat -> Qc; mCnt : nat -> list Qc }.
(** DoubleParameter.h:9, ContainerParameter.hpp:6-13 Get *)
Definition deref (m : pmem) (l : loc) : res Qc :=
  match l with
  | LDouble a => Ok (mDbl m a)
  | LElem c i => match nth_error (mCnt m c) i with Some v => Ok v | None => Throw std_out_of_range end
  end.
(** DoubleParameter.h:10, ContainerParameter.hpp:15-21 Set *)
Definition assign (m : pmem) (l : loc) (v : Qc) : pmem * res unit :=
  match l with
  | LDouble a => (mkMem (fun b => if Nat.eqb b a then v else mDbl m b) (mCnt m), Ok tt)
  | LElem c i =>
      if Nat.ltb i (List.length (mCnt m c))
      then (mkMem (mDbl m) (fun d => if Nat.eqb d c then upd (mCnt m c) i v else mCnt m d), Ok tt)
      else (m, Throw std_out_of_range)
  end.
(** catch (const std::out_of_range&) { throw ParameterError } *)
Definition oor_to_param {A} (r : res A) : res A :=
  match r with Throw std_out_of_range => Throw ParameterError | _ => r end.

(** ParameterManager.h:43-45; the memory the pointers refer to travels with it *)
Record pmgr := mkPm { pmMem : pmem; pmPtrs : smap loc }.
Definition pm_new (m : pmem) : pmgr := mkPm m sempty.
(** ParameterManager.cpp:55-58 Add, 60-63 AddDouble (the previous pointer of that name is leaked) *)
Definition pm_add (p : pmgr) (l : loc) (n : string) : pmgr := mkPm (pmMem p) (sset n l (pmPtrs p)).
Definition pm_addDouble (p : pmgr) (a : nat) (n : string) : pmgr := pm_add p (LDouble a) n.
(** ParameterManager.hpp:18-27 AddContainer(container, names) *)
Definition pm_addAll (p : pmgr) (c : nat) (names : list string) : pmgr :=
  fold_left (fun p ni => pm_add p (LElem c (snd ni)) (fst ni)) (combine names (seq 0 (List.length names))) p.
Definition pm_addContainer (p : pmgr) (c : nat) (names : list string) : pmgr * res unit :=
  if Nat.eqb (List.length (mCnt (pmMem p) c)) (List.length names) then (pm_addAll p c names, Ok tt)
  else (p, Throw DimensionError).
(** ParameterManager.hpp:5-16 AddContainer(container, base name) *)
Definition base_names (base : string) (k : nat) : list string := map (fun i => base ++ "_" ++ dec i)%string (seq 0 k).
Definition pm_addContainerBase (p : pmgr) (c : nat) (base : string) : pmgr :=
  pm_addAll p c (base_names base (List.length (mCnt (pmMem p) c))).
(** ParameterManager.cpp:65-70 Clear *)
Definition pm_clear (p : pmgr) : pmgr := mkPm (pmMem p) sempty.
(** ParameterManager.cpp:84-95 *)
Definition pm_get (p : pmgr) (n : string) : res Qc :=
  oor_to_param (do l <- sat n (pmPtrs p); deref (pmMem p) l).
(** ParameterManager.cpp:97-107 *)
Definition pm_set (p : pmgr) (n : string) (v : Qc) : pmgr * res unit :=
  match sfind n (pmPtrs p) with
  | None => (p, Throw ParameterError)
  | Some l => let (m, r) := assign (pmMem p) l v in (mkPm m (pmPtrs p), oor_to_param r)
  end.
(** ParameterManager.cpp:23-27: the loop over the names in key order *)
Fixpoint pm_setLoop (m : pmem) (ptrs d : smap _) (names : list string) : pmem * res unit :=
  match names with
  | [] => (m, Ok tt)
  | n :: t =>
      match sfind n ptrs, sfind n d with
      | Some l, Some v =>
          match assign m l v with
          | (m', Ok _) => pm_setLoop m' ptrs d t
          | r => r
          end
      | _, _ => (m, Throw std_out_of_range)
      end
  end.
(** ParameterManager.cpp:18-30 SetParameters *)
Definition pm_setAll (p : pmgr) (d : smap Qc) : pmgr * res unit :=
  let (m, r) := pm_setLoop (pmMem p) (pmPtrs p) d (skeys (pmPtrs p)) in (mkPm m (pmPtrs p), oor_to_param r).
(** ParameterManager.cpp:32-41 GetParameters *)
Definition pm_getAll (p : pmgr) : res (smap Qc) :=
  mapM (fun nl => do v <- deref (pmMem p) (snd nl); Ok (fst nl, v)) (pmPtrs p).
(** ParameterManager.cpp:43-53 *)
Definition pm_names (p : pmgr) : list string := skeys (pmPtrs p).
Definition pm_count (p : pmgr) : nat := List.length (pmPtrs p).
(** ParameterManager.cpp:72-82 *)
Definition pm_rename (p : pmgr) (o n : string) : pmgr * res unit :=
  match sfind o (pmPtrs p) with
  | None => (p, Throw ParameterError)
  | Some l => if shas n (pmPtrs p) then (p, Throw ParameterError)
              else (mkPm (pmMem p) (serase o (sset n l (pmPtrs p))), Ok tt)
  end.
(** ParameterManager.h:18-19: copies start empty (and assignment leaves the target as it is) *)
Definition pm_copy (p : pmgr) : pmgr := pm_new (pmMem p).
Definition pm_assign (target source : pmgr) : pmgr := target.

(** The objects implementing FitComponent:
    CSingle  Shift.cpp:79-133, Scale.cpp:79-133 (one named value)
    CDict    Shape.cpp:70-115, ScaleFunction.cpp:84-131, Renorm.cpp:34-79 (a ParameterDict)
    CPm      the classes that forward to a ParameterManager (e.g. BinnedEDManager)
    CSpec    SpectralFitDist.cpp:15-91 (bin names and the histogram) *)
Inductive comp :=
| CSingle (name : string) (val : Qc)
| CDict (d : smap Qc)
| CPm (p : pmgr)
| CSpec (names : list string) (h : hist).

(** SpectralFitDist.cpp:15-23 *)
Definition mk_spectral (name : string) (ac : axcol) : comp :=
  CSpec (map (fun i => name ++ "_bin_" ++ dec i)%string (seq 0 (acNBins ac))) (mk_hist ac).
(** Shape.cpp:4-19 SetShapeFunction (ScaleFunction.cpp:7-22): fresh parameters are 0 *)
Definition mk_dict (names : list string) : comp := CDict (sof (map (fun n => (n, 0)) names)).

(** [*it = value] in SpectralFitDist.cpp:31 assigns the double to the NAME string: std::string has
    operator=(char), so the name becomes the one-character string of the truncated value; a value that
    does not fit a char is undefined. *)
Definition char_name (v : Qc) : res string :=
  let z := Z.quot (Qnum v) (Zpos (Qden v)) in
  if (Z.ltb z 128 && Z.leb (-128) z)%bool
  then Ok (String (ascii_of_nat (Z.to_nat (Z.modulo z 256))) EmptyString) else UB.

Definition c_get (c : comp) (n : string) : res Qc :=
  match c with
  | CSingle nm v => if String.eqb n nm then Ok v else Throw ParameterError
  | CDict d => match sfind n d with Some v => Ok v | None => Throw ParameterError end
  | CPm p => pm_get p n
  | CSpec ns h => match index_of n ns with Some i => getBinContent h i | None => Throw ParameterError end
  end.
Definition c_set (c : comp) (n : string) (v : Qc) : comp * res unit :=
  match c with
  | CSingle nm w => if String.eqb n nm then (CSingle nm v, Ok tt) else (c, Throw ParameterError)
  | CDict d => if shas n d then (CDict (sset n v d), Ok tt) else (c, Throw ParameterError)
  | CPm p => let (p', r) := pm_set p n v in (CPm p', r)
  | CSpec ns h =>
      match index_of n ns with
      | Some i => match char_name v with Ok s => (CSpec (upd ns i s) h, Ok tt) | _ => (c, UB) end
      | None => (c, Throw ParameterError)
      end
  end.
(** SpectralFitDist.cpp:43-54: bins are set one after the other *)
Fixpoint spec_setLoop (h : hist) (d : smap Qc) (i : nat) (ns : list string) : hist * res unit :=
  match ns with
  | [] => (h, Ok tt)
  | n :: t =>
      match sfind n d with
      | None => (h, Throw ParameterError)
      | Some v => match setBinContent h i v with
                  | (h', Ok _) => spec_setLoop h' d (S i) t
                  | (h', r) => (h', oor_to_param r)
                  end
      end
  end.
Definition c_setAll (c : comp) (d : smap Qc) : comp * res unit :=
  match c with
  | CSingle nm w => match sfind nm d with Some v => (CSingle nm v, Ok tt) | None => (c, Throw ParameterError) end
  | CDict d0 => (CDict (fold_left (fun m kv => sset (fst kv) (snd kv) m) d d0), Ok tt)
  | CPm p => let (p', r) := pm_setAll p d in (CPm p', r)
  | CSpec ns h => let (h', r) := spec_setLoop h d 0 ns in (CSpec ns h', r)
  end.
Definition c_getAll (c : comp) : res (smap Qc) :=
  match c with
  | CSingle nm v => Ok [(nm, v)]
  | CDict d => Ok d
  | CPm p => pm_getAll p
  | CSpec ns h => if Nat.eqb (List.length ns) (List.length (hCont h)) then Ok (sof (combine ns (hCont h))) else UB
  end.
Definition c_count (c : comp) : nat :=
  match c with CSingle _ _ => 1 | CDict d => List.length d | CPm p => pm_count p | CSpec _ h => hNBins h end.
Definition c_names (c : comp) : list string :=
  match c with
  | CSingle nm _ => [nm] | CDict d => skeys d | CPm p => pm_names p
  | CSpec ns _ => fold_left (fun s n => sset_add n s) ns []
  end.
Definition c_rename (c : comp) (o n : string) : comp * res unit :=
  match c with
  | CSingle nm v => if String.eqb o nm then (CSingle n v, Ok tt) else (c, Throw ParameterError)
  | CDict d => match sfind o d with
               | Some v => (CDict (serase o (sset n v d)), Ok tt)
               | None => (c, Throw ParameterError) end
  | CPm p => let (p', r) := pm_rename p o n in (CPm p', r)
  | CSpec ns h => match index_of o ns with Some i => (CSpec (upd ns i n) h, Ok tt) | None => (c, Throw ParameterError) end
  end.

(** ComponentManager.h:24-25; the pointed-to components are modelled by value, in order *)
(** ComponentManager.cpp:16-24 SetParameters *)
Fixpoint cm_setLoop (cs : list comp) (d : smap Qc) : list comp * res unit :=
  match cs with
  | [] => ([], Ok tt)
  | c :: t => match c_setAll c d with
              | (c', Ok _) => let (t', r) := cm_setLoop t d in (c' :: t', r)
              | (c', r) => (c' :: t, r)
              end
  end.
Definition cm_setAll (cs : list comp) (d : smap Qc) : list comp * res unit :=
  match d with [] => (cs, Ok tt) | _ => cm_setLoop cs d end.
(** ComponentManager.cpp:26-36: map::insert of a range keeps existing keys *)
Definition cm_getAll (cs : list comp) : res (smap Qc) :=
  foldM (fun pd c => do m <- c_getAll c; Ok (fold_left (fun pd kv => sinsert (fst kv) (snd kv) pd) m pd)) cs sempty.
(** ComponentManager.cpp:38-47, 69-73 *)
Definition cm_names (cs : list comp) : res (list string) := rmap skeys (cm_getAll cs).
Definition cm_total (cs : list comp) : res nat := rmap (@List.length _) (cm_getAll cs).
Definition cm_count (cs : list comp) : nat := List.length cs.
(** ComponentManager.cpp:55-67 *)
Definition cm_get (cs : list comp) (n : string) : res Qc :=
  do d <- cm_getAll cs; match sfind n d with Some v => Ok v | None => Throw ParameterError end.
