(** Model of how the classes that hold objects through raw pointers create, copy, assign and free them: AnalyticED.cpp:6-31,
    CompositeED.cpp:6-31, 56-61, EDManager.cpp:6-24, JumpPDF.cpp:10-45, 68-72, VaryingCDF.cpp:19-55, 78-104, Convolution.cpp:8-24,
    EventConvolution.cpp:12-66, CutCollection.cpp:29-59, FitResult.cpp:11-69 (all under /repo/src).
    Every object, whether a variable of the user or held by another object, is a cell of a store; freeing a cell twice, or reading or
    freeing a cell that is gone, is undefined behaviour ([UB]).  Simplifications: an object's own data are one number (the value of the one fit
    parameter of a pdf or function, the contents of a histogram ...); names, observables and dimensions are left out; each SetDependance
    concerns a new kernel parameter; the map of a VaryingCDF is a list. *)
From Verif Require Import Base.Res Base.Num.
Local Open Scope res_scope.

(** KPdf: a PDF (Gaussian); KFun: a Function; KCut: a Cut; KHist: a Histogram; KBed: a BinnedED: held by value, no pointers inside *)
Inductive cls := KPdf | KFun | KCut | KHist | KBed | KJump | KVary | KEvConv | KConv | KAna | KComp | KEdm | KCuts | KRes.
(** cKids: fPDF, fCdf, fDist, fFunction, fStatSpace (none or one), fDistPtrs, fDists, fCuts; cFuns: VaryingCDF's fFunctions *)
Record cell := mkCell { cCls : cls; cVal : Qc; cKids : list nat; cFuns : list nat }.
Record store := mkStore { stHeap : nat -> option cell; stNext : nat }.
Definition hset (h : nat -> option cell) (l : nat) (c : option cell) : nat -> option cell := fun k => if Nat.eqb k l then c else h k.
(** new *)
Definition alloc (s : store) (c : cell) : store * nat := (mkStore (hset (stHeap s) (stNext s) (Some c)) (S (stNext s)), stNext s).
Definition put (s : store) (l : nat) (c : cell) : store := mkStore (hset (stHeap s) l (Some c)) (stNext s).
Definition look (s : store) (l : nat) : res cell := match stHeap s l with Some c => Ok c | None => UB end.

(** destructors: AnalyticED.cpp:13-16, CompositeED.cpp:26-30, EDManager.cpp:6-10, JumpPDF.cpp:21-24, VaryingCDF.cpp:26-33 (fCdf is not initialised
    by the constructor, 19-25), Convolution.cpp:21-24, EventConvolution.cpp:13-16, CutCollection.cpp:34-40, FitResult.cpp:11-14; all base
    classes have virtual destructors.  The fuel is the number of objects ever made. *)
Fixpoint release (n : nat) (s : store) (l : nat) : res store :=
  match n with
  | O => Diverge
  | S n' =>
      do c <- look s l;
      do _ <- match cCls c, cKids c with KVary, [] => UB | _, _ => Ok tt end;
      do s1 <- foldM (release n') (cKids c) s;
      do s2 <- foldM (release n') (cFuns c) s1;
      Ok (mkStore (hset (stHeap s2) l None) (stNext s2))
  end.
(** copy each of a list of parts in order *)
Definition each (f : store -> nat -> res (store * nat)) (s : store) (ls : list nat) : res (store * list nat) :=
  foldM (fun sl l => do r <- f (fst sl) l; Ok (fst r, snd sl ++ [snd r])) ls (s, []).
(** Clone(): AnalyticED.cpp:18-30, CompositeED.cpp:12-25, 56-61, JumpPDF.cpp:26-34, 68-72, VaryingCDF.cpp:34-39, 51-55 (the functions are shared;
    fCdf->Clone() without a kernel); values: a plain copy *)
Fixpoint clone (n : nat) (s : store) (l : nat) : res (store * nat) :=
  match n with
  | O => Diverge
  | S n' =>
      do c <- look s l;
      do _ <- match cCls c, cKids c with KVary, [] => UB | _, _ => Ok tt end;
      do r <- each (clone n') s (cKids c);
      Ok (alloc (fst r) (mkCell (cCls c) (cVal c) (snd r) (cFuns c)))
  end.
(** copy constructors: AnalyticED.cpp:18-24, JumpPDF.cpp:26-34, VaryingCDF.cpp:34-39, EventConvolution.cpp:18-26, CutCollection.cpp:42-47,
    FitResult.cpp:54-69; CompositeED, Convolution and EDManager declare none: the implicit one copies the pointers *)
Definition copy (n : nat) (s : store) (l : nat) : res (store * nat) :=
  do c <- look s l;
  match cCls c with
  | KComp | KConv | KEdm => Ok (alloc s c)
  | _ => clone n s l
  end.
(** operators that return the object by value make and destroy a copy of it (JumpPDF.h:16, EventConvolution.h:18, FitResult.h:21) *)
Definition by_value (n : nat) (s : store) (l : nat) : res store := do r <- copy n s l; release n (fst r) (snd r).
(** assignment operators: JumpPDF.cpp:36-45, EventConvolution.cpp:28-39 (the old part is not freed), VaryingCDF.cpp:42-48,
    CutCollection.cpp:49-59 (frees its own cuts, then reads the other's list), FitResult.cpp:38-52 (asks whether it has a histogram itself);
    AnalyticED, CompositeED, Convolution and EDManager declare none: the implicit one copies the pointers; values: a plain copy *)
Definition fuel (s : store) : nat := S (stNext s).
Definition assign (s : store) (t o : nat) : res store :=
  do ct <- look s t;
  do co <- look s o;
  match cCls ct with
  | KJump | KEvConv =>
      do r <- each (clone (fuel s)) s (cKids co);
      let s1 := put (fst r) t (mkCell (cCls ct) (cVal co) (snd r) (cFuns ct)) in
      by_value (fuel s1) s1 t
  | KVary =>
      match cKids co with
      | [] => UB
      | _ => do r <- each (clone (fuel s)) s (cKids co); Ok (put (fst r) t (mkCell KVary (cVal co) (snd r) (cFuns co)))
      end
  | KCuts =>
      do s1 <- foldM (release (fuel s)) (cKids ct) s;
      let s2 := put s1 t (mkCell KCuts (cVal ct) [] []) in
      do co2 <- look s2 o;
      do r <- each (clone (fuel s2)) s2 (cKids co2);
      Ok (put (fst r) t (mkCell KCuts (cVal co2) (snd r) []))
  | KRes =>
      do r <- match cKids ct with
              | [] => Ok (s, [])
              | _ => match cKids co with [] => UB | _ => each (clone (fuel s)) s (cKids co) end
              end;
      let s1 := put (fst r) t (mkCell KRes (cVal co) (snd r) []) in
      by_value (fuel s1) s1 t
  | c => Ok (put s t (mkCell c (cVal co) (cKids co) (cFuns co)))
  end.

(** what the C++ types allow: which objects a constructor or setter takes *)
Definition is_dist (c : cls) : bool := match c with KBed | KAna | KComp => true | _ => false end.
Definition built_from (c p : cls) : bool :=
  match c, p with KJump, KPdf | KAna, KPdf => true | KComp, _ => is_dist p | _, _ => false end.
Definition takes (c p : cls) : bool :=
  match c, p with
  | KEvConv, (KPdf | KJump | KVary) | KConv, (KPdf | KJump | KVary) | KVary, (KPdf | KJump | KVary | KFun) | KCuts, KCut | KRes, KHist => true
  | KEdm, _ => is_dist p
  | _, _ => false
  end.
Definition clonable (c : cls) : bool := match c with KEvConv | KConv | KEdm | KCuts | KRes => false | _ => true end.
(** objects constructed without parts: values, JumpPDF.h:12, VaryingCDF.cpp:19-25, EventConvolution.h:15, Convolution.h:19, EDManager.h:14,
    CutCollection.h:12, FitResult.h:19 *)
Definition bare (c : cls) : bool := match c with KAna | KComp => false | _ => true end.
(** a kernel given as a plain PDF is wrapped: Convolution.cpp:12, EventConvolution.cpp:55, VaryingCDF.cpp:103 new JumpPDF("kernel", f), JumpPDF.cpp:10-19 *)
Definition part (n : nat) (s : store) (c : cls) (l : nat) : res (store * nat) :=
  do p <- look s l;
  do r <- clone n s l;
  match c, cCls p with
  | (KEvConv | KConv | KVary), KPdf => Ok (alloc (fst r) (mkCell KJump 0%Qc [snd r] []))
  | _, _ => Ok r
  end.
(** Convolution.cpp:8-19 SetFunction, SetConditionalPDF; EventConvolution.cpp:45-66 SetPDF, SetConditionalPDF; VaryingCDF.cpp:78-81 SetDependance,
    94-104 SetKernel; CutCollection.cpp:29-32 AddCut; EDManager.cpp:12-24 AddDist; FitResult.cpp:28-31 SetStatSpace *)
Definition give (s : store) (t o : nat) : res store :=
  do ct <- look s t;
  do co <- look s o;
  do s0 <- match cCls ct with KConv => foldM (release (fuel s)) (cKids ct) s | _ => Ok s end;
  do r <- part (fuel s0) s0 (cCls ct) o;
  Ok (put (fst r) t
    match cCls ct, cCls co with
    | KVary, KFun => mkCell KVary (cVal ct) (cKids ct) (cFuns ct ++ [snd r])
    | (KCuts | KEdm), _ => mkCell (cCls ct) (cVal ct) (cKids ct ++ [snd r]) (cFuns ct)
    | _, _ => mkCell (cCls ct) (cVal ct) [snd r] (cFuns ct)
    end).
(** SetParameter: AnalyticED.cpp:106-109, JumpPDF.cpp:131-137, EventConvolution.cpp:80-86 (both check for NULL), Convolution.cpp:241-244 (does not),
    VaryingCDF.cpp:115-121 (to every function) *)
Fixpoint setParam (n : nat) (v : Qc) (s : store) (l : nat) : res store :=
  match n with
  | O => Diverge
  | S n' =>
      do c <- look s l;
      match cCls c with
      | KPdf | KFun => Ok (put s l (mkCell (cCls c) v (cKids c) (cFuns c)))
      | KVary => foldM (setParam n' v) (cFuns c) s
      | KAna | KConv => match cKids c with [] => UB | ks => foldM (setParam n' v) ks s end
      | KJump | KEvConv => match cKids c with [] => Throw NULLPointerAccessError | ks => foldM (setParam n' v) ks s end
      | _ => Ok s
      end
  end.

(** a program over variables; [None]: the variable is gone.  Statements C++ rejects, or about variables that are gone, do nothing, and neither does
    one that throws (its exception is caught) *)
Inductive stmt :=
| SNew (c : cls) (x : Qc)
| SFrom (c : cls) (parts : list nat)
| SCopy (i : nat)
| SClone (i : nat)
| SAssign (i j : nat)
| SGive (i j : nat)
| SParam (i : nat) (v : Qc)
| SDestroy (i : nat).
Record machine := mkMach { mcStore : store; mcVars : list (option nat) }.
Definition mc_init : machine := mkMach (mkStore (fun _ => None) 0) [].
Definition var (m : machine) (i : nat) : option nat := match nth_error (mcVars m) i with Some o => o | None => None end.
Definition class_at (m : machine) (i : nat) : option cls :=
  match var m i with Some l => match stHeap (mcStore m) l with Some c => Some (cCls c) | None => None end | None => None end.
Definition caught {A} (keep : A) (r : res A) : res A := match r with Throw _ => Ok keep | _ => r end.
Fixpoint all_some {A} (l : list (option A)) : option (list A) :=
  match l with [] => Some [] | Some x :: t => match all_some t with Some r => Some (x :: r) | None => None end | None :: _ => None end.
Definition class_in (o : option cls) (f : cls -> bool) : bool := match o with Some c => f c | None => false end.
Definition cls_eqb (a b : cls) : bool :=
  match a, b with
  | KPdf, KPdf | KFun, KFun | KCut, KCut | KHist, KHist | KBed, KBed | KJump, KJump | KVary, KVary | KEvConv, KEvConv | KConv, KConv | KAna, KAna
  | KComp, KComp | KEdm, KEdm | KCuts, KCuts | KRes, KRes => true
  | _, _ => false
  end.
Definition with_new (m : machine) (r : store * nat) : machine := mkMach (fst r) (mcVars m ++ [Some (snd r)]).
(** AnalyticED.cpp:6-11, CompositeED.cpp:6-25, JumpPDF.cpp:10-19: constructors that clone their arguments *)
Definition exec (m : machine) (o : stmt) : res machine :=
  match o with
  | SNew c x => if bare c then Ok (with_new m (alloc (mcStore m) (mkCell c x [] []))) else Ok m
  | SFrom c is =>
      if forallb (fun i => class_in (class_at m i) (built_from c)) is && (match c with KComp => true | _ => Nat.eqb (List.length is) 1 end) then
        match all_some (map (var m) is) with
        | Some ls => do r <- each (clone (fuel (mcStore m))) (mcStore m) ls; Ok (with_new m (alloc (fst r) (mkCell c 0%Qc (snd r) [])))
        | None => Ok m
        end
      else Ok m
  | SCopy i => match var m i with Some l => do r <- copy (fuel (mcStore m)) (mcStore m) l; Ok (with_new m r) | None => Ok m end
  | SClone i =>
      if class_in (class_at m i) clonable then
        match var m i with Some l => do r <- clone (fuel (mcStore m)) (mcStore m) l; Ok (with_new m r) | None => Ok m end
      else Ok m
  | SAssign i j =>
      match var m i, var m j, class_at m i, class_at m j with
      | Some t, Some s, Some ct, Some cs => if cls_eqb ct cs then do r <- assign (mcStore m) t s; Ok (mkMach r (mcVars m)) else Ok m
      | _, _, _, _ => Ok m
      end
  | SGive i j =>
      match var m i, var m j, class_at m i, class_at m j with
      | Some t, Some s, Some ct, Some cs => if takes ct cs then do r <- give (mcStore m) t s; Ok (mkMach r (mcVars m)) else Ok m
      | _, _, _, _ => Ok m
      end
  | SParam i v =>
      match var m i with
      | Some l => do r <- caught (mcStore m) (setParam (fuel (mcStore m)) v (mcStore m) l); Ok (mkMach r (mcVars m))
      | None => Ok m
      end
  | SDestroy i =>
      match var m i with
      | Some l => do r <- release (fuel (mcStore m)) (mcStore m) l; Ok (mkMach r (upd (mcVars m) i None))
      | None => Ok m
      end
  end.
Definition runp (p : list stmt) (m : machine) : res machine := foldM exec p m.

(** everything one can observe of an object: its data and those of all its parts *)
Inductive val := V (c : cls) (x : Qc) (kids funs : list val).
Fixpoint view (n : nat) (s : store) (l : nat) : res val :=
  match n with
  | O => Diverge
  | S n' =>
      do c <- look s l;
      do ks <- mapM (view n' s) (cKids c);
      do fs <- mapM (view n' s) (cFuns c);
      Ok (V (cCls c) (cVal c) ks fs)
  end.
Definition observe (m : machine) (i : nat) : option (res val) :=
  match var m i with Some l => Some (view (fuel (mcStore m)) (mcStore m) l) | None => None end.
