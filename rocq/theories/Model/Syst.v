(** Model of /repo/src/systematic/{Systematic,Shift,Scale,ScaleFunction,Shape,Renorm,Convolution}.{h,cpp}:
    the response matrices (the fit-parameter side of these classes is Model/Param.v).
    Simplifications: doubles are exact rationals; a user function together with its current parameter
    values is one Coq function; the members written by a caching routine that throws are not tracked (the
    cached flag stays false, so they are rewritten before any read). *)
From Verif Require Import Base.Res Base.Num Base.SMap Model.Axis Model.Event Model.Hist Model.Matrix.
Local Open Scope Qc_scope.
Local Open Scope res_scope.

(** Systematic.h:40-43 *)
Record sbase := mkSB { sbAxes : axcol; sbTrans : obsset; sbDist : obsset; sbResp : smat }.
Definition sb_new : sbase := mkSB ac_empty (mk_obsset []) (mk_obsset []) mat_empty.
(** Systematic.cpp:94-98 SetAxes *)
Definition sb_setAxes (b : sbase) (ac : axcol) : sbase :=
  mkSB ac (sbTrans b) (sbDist b) (mat_zeros (acNBins ac) (acNBins ac)).
(** Systematic.cpp:40-43, 51-54 *)
Definition sb_setTrans (b : sbase) (o : obsset) : sbase := mkSB (sbAxes b) o (sbDist b) (sbResp b).
Definition sb_setDist (b : sbase) (o : obsset) : sbase := mkSB (sbAxes b) (sbTrans b) o (sbResp b).
Definition sb_setResp (b : sbase) (m : smat) : sbase := mkSB (sbAxes b) (sbTrans b) (sbDist b) m.

(** Systematic.cpp:6-27 operator() on the histogram of the BinnedED.  [wantNorm] is norm != nullptr; the
    result is the new distribution and the value written to *norm. *)
Definition sys_apply (m : smat) (h : hist) (wantNorm : bool) : res (hist * option Qc) :=
  do c <- m_apply m (hCont h);
  do h' <- ret (setBinContents h c);
  if wantNorm then do s <- integral h'; Ok (h', Some s)
  else do h'' <- ret (normalise h'); Ok (h'', None).

(** What Shift, Scale and ScaleFunction do to an axis value.
    Shift.cpp:34-35 (x + fShift), Scale.cpp:34-35 (x * fScaleFactor), ScaleFunction.cpp:54-55 *)
Inductive wkind :=
| KShift (s : Qc)
| KScale (f : Qc)
| KFunc (g : option (Qc -> Qc)).
Definition warp_of (k : wkind) (x : Qc) : Qc :=
  match k with
  | KShift s => x + s
  | KScale f => x * f
  | KFunc (Some g) => g x
  | KFunc None => x
  end.

(** Shift.h:38-44: the matrix fMappingDistAndTrans holds bin numbers (exact in a double), so it is a
    matrix of nat here: rows, columns, entries *)
Record warp := mkWarp { wB : sbase; wKind : wkind; wCached : bool;
                        wBinMap : list nat; wMapR : nat; wMapC : nat; wMap : nat -> nat -> nat }.
Definition w_new (k : wkind) : warp := mkWarp sb_new k false [] 0 0 (fun _ _ => 0%nat).
(** Systematic setters and the parameter setters; none of them touches the cache *)
Definition w_onB (w : warp) (f : sbase -> sbase) : warp :=
  mkWarp (f (wB w)) (wKind w) (wCached w) (wBinMap w) (wMapR w) (wMapC w) (wMap w).
Definition w_setKind (w : warp) (k : wkind) : warp :=
  mkWarp (wB w) k (wCached w) (wBinMap w) (wMapR w) (wMapC w) (wMap w).

(** the axis being transformed: Shift.cpp:27-28 *)
Definition w_axisIdx (b : sbase) : res nat :=
  do n <- vat (osNames (sbTrans b)) 0; os_index (sbDist b) n.
Definition w_axis (b : sbase) : res axis := do i <- w_axisIdx b; getAxis (sbAxes b) i.

(** Shift.cpp:148-189 CacheBinMapping (identical in Scale.cpp and ScaleFunction.cpp).  Line 182
    indexes with operator[]: undefined past the end. *)
Definition w_cacheOf (b : sbase) : res (list nat * nat * nat * (nat -> nat -> nat)) :=
  let ac := sbAxes b in
  do rel <- relativeIndices (sbTrans b) (sbDist b);
  do r0 <- vat rel 0;
  do bm <- mapM (fun i => unflatten ac i r0) (seq 0 (acNBins ac));
  do n <- vat (osNames (sbTrans b)) 0;
  do ax <- os_index (sbDist b) n;
  do a <- getAxis ac ax;
  do rows <- mapM (fun obs =>
               do idx <- unpack ac obs;
               mapM (fun sb => if Nat.ltb ax (List.length idx) then flatten ac (upd idx ax sb) else UB)
                    (seq 0 (aNBins a)))
             (seq 0 (acNBins ac));
  Ok (bm, acNBins ac, aNBins a, fun i j => nth j (nth i rows []) 0%nat).

(** Shift.cpp:191-241 GetBinContribution (identical in Scale.cpp, ScaleFunction.cpp).  The divisions
    are only reached with shiftedLow <> shiftedHigh (lemma contribution_width). *)
Definition binContribution (tlo thi slo shi : Qc) : Qc :=
  if qltb shi tlo || qltb thi slo then 0
  else if qltb slo tlo
       then if qltb thi shi then (thi - tlo) / (shi - slo) else (shi - tlo) / (shi - slo)
       else if qltb thi shi then (thi - slo) / (shi - slo) else 1.

(** Shift.cpp:31-48: the (post-shift bin, contribution) pairs of one bin *)
Definition w_vals (k : wkind) (a : axis) (bin : nat) : res (list (nat * Qc)) :=
  do l <- binLow a bin;
  do h <- binHigh a bin;
  let slo := warp_of k l in
  let shi := warp_of k h in
  let il := findBin a slo in
  let ih := findBin a shi in
  do cs <- mapM (fun t => do tl <- binLow a t; do th <- binHigh a t;
                          Ok (t, binContribution tl th slo shi)) (seq il (S ih - il));
  Ok (filter (fun p => qltb 0 (snd p)) cs).

(** the checks at the top: Shift.cpp:10-15, Scale.cpp:9-16, ScaleFunction.cpp:38-43 *)
Definition w_check (k : wkind) (b : sbase) : res unit :=
  let one := if Nat.eqb (List.length (osNames (sbTrans b))) 1 then Ok tt else Throw RepresentationError in
  let bins := if Nat.eqb (acNBins (sbAxes b)) 0 then Throw LogicError else Ok tt in
  match k with
  | KShift _ => do u <- one; bins
  | KScale f => if qleb f 0 then Throw ValueError else do u <- one; bins
  | KFunc g => do u <- one; match g with None => Throw LogicError | Some _ => bins end
  end.

(** Shift.cpp:52-61 *)
Definition w_fillResp (w : warp) (vals : list (list (nat * Qc))) : smat * res unit :=
  match m_setZeros (sbResp (wB w)) with
  | (m0, Ok _) =>
      iterS (fun m obs =>
               obind m (vat (wBinMap w) obs) (fun sb =>
               obind m (vat vals sb) (fun prs =>
                 iterS (fun mm (p : nat * Qc) =>
                          if Nat.leb (wMapC w) (fst p) || Nat.leb (wMapR w) obs
                          then (mm, Throw NotFoundError)
                          else m_set mm (wMap w obs (fst p)) obs (snd p)) prs m)))
            (seq 0 (acNBins (sbAxes (wB w)))) m0
  | r => r
  end.

(** Shift.cpp:7-62, Scale.cpp:7-62, ScaleFunction.cpp:35-90 Construct *)
Definition w_construct (w : warp) : warp * res unit :=
  obind w (w_check (wKind w) (wB w)) (fun _ =>
  obind w (if wCached w then Ok (wBinMap w, wMapR w, wMapC w, wMap w) else w_cacheOf (wB w))
    (fun c =>
       let '(bm, mr, mc, mf) := c in
       let w1 := mkWarp (wB w) (wKind w) true bm mr mc mf in
       obind w1 (w_axis (wB w)) (fun a =>
       obind w1 (mapM (w_vals (wKind w) a) (seq 0 (aNBins a))) (fun vals =>
         match w_fillResp w1 vals with
         | (m, o) => (w_onB w1 (fun b => sb_setResp b m), o)
         end)))).

(** Shape.h:48-55 *)
Record shape := mkShape { shB : sbase; shFun : option (list Qc -> Qc); shCached : bool;
                          shTransAxes : axcol; shBinMap : list nat }.
Definition sh_new : shape := mkShape sb_new None false ac_empty [].
Definition sh_onB (s : shape) (f : sbase -> sbase) : shape :=
  mkShape (f (shB s)) (shFun s) (shCached s) (shTransAxes s) (shBinMap s).
(** Shape.cpp:4-19 SetShapeFunction, and the parameter setters *)
Definition sh_setFun (s : shape) (f : list Qc -> Qc) : shape :=
  mkShape (shB s) (Some f) (shCached s) (shTransAxes s) (shBinMap s).
(** Shape.cpp:119-148 CacheBinMapping *)
Definition sh_cacheOf (b : sbase) : res (axcol * list nat) :=
  do rel <- relativeIndices (sbTrans b) (sbDist b);
  do ta <- foldM (fun ac i => do a <- getAxis (sbAxes b) i; addAxis ac a) rel ac_empty;
  do bm <- mapM (fun i => do si <- mapM (fun r => unflatten (sbAxes b) i r) rel; flatten ta si)
                (seq 0 (acNBins (sbAxes b)));
  Ok (ta, bm).
(** Shape.cpp:21-63 Construct *)
Definition sh_construct (s : shape) : shape * res unit :=
  match shFun s with
  | None => (s, Throw LogicError)
  | Some f =>
      if Nat.eqb (acNBins (sbAxes (shB s))) 0 then (s, Throw LogicError)
      else
      obind s (if shCached s then Ok (shTransAxes s, shBinMap s) else sh_cacheOf (shB s)) (fun c =>
        let '(ta, bm) := c in
        let s1 := mkShape (shB s) (shFun s) true ta bm in
        obind s1 (mapM (fun bin => do cs <- binCentres ta bin;
                                   if qltb (f cs) 0 then Throw ValueError else Ok (f cs))
                       (seq 0 (acNBins ta))) (fun vals =>
          match iterS (fun m obs => obind m (vat bm obs) (fun t => obind m (vat vals t) (fun v => m_set m obs obs v)))
                      (seq 0 (acNBins (sbAxes (shB s)))) (sbResp (shB s)) with
          | (m, o) => (sh_onB s1 (fun b => sb_setResp b m), o)
          end))
  end.

(** Renorm.h:39-41: fScaleFactor is uninitialised (None) until SetScaleFactor *)
Record renorm := mkRenorm { rnB : sbase; rnScale : option Qc }.
(** Renorm.cpp:4-18 Construct.  Using the uninitialised factor is undefined behaviour. *)
Definition rn_construct (r : renorm) : renorm * res unit :=
  if Nat.eqb (acNBins (sbAxes (rnB r))) 0 then (r, Throw LogicError)
  else match m_setIdentity (sbResp (rnB r)) with
       | (m, Ok _) =>
           match rnScale r with
           | None => (mkRenorm (sb_setResp (rnB r) m) None, UB)
           | Some k => (mkRenorm (sb_setResp (rnB r) (m_scale m k)) (Some k), Ok tt)
           end
       | (m, e) => (mkRenorm (sb_setResp (rnB r) m) (rnScale r), e)
       end.

(** Convolution.h:42-49.  The kernel is ConditionalPDF::Integral(lowEdges, highEdges, centre). *)
Definition kernel := list Qc -> list Qc -> list Qc -> res Qc.
Record conv := mkConv { cvB : sbase; cvDist : option kernel; cvCached : bool;
                        cvSub : axcol; cvNot : axcol; cvPerm : list nat }.
Definition cv_new : conv := mkConv sb_new None false ac_empty ac_empty [].
Definition cv_onB (c : conv) (f : sbase -> sbase) : conv :=
  mkConv (f (cvB c)) (cvDist c) (cvCached c) (cvSub c) (cvNot c) (cvPerm c).
Definition cv_setDist (c : conv) (k : kernel) : conv :=
  mkConv (cvB c) (Some k) (cvCached c) (cvSub c) (cvNot c) (cvPerm c).
(** Convolution.cpp:148-158 DetermineAxisSubCollection *)
Definition cv_subAxes (ac : axcol) (rel : list nat) : res axcol :=
  foldM (fun s i => do a <- getAxis ac i; addAxis s a) rel ac_empty.
Definition memb (i : nat) (l : list nat) : bool := existsb (Nat.eqb i) l.
(** Convolution.cpp:160-193 BlockedBinningIndex *)
Definition cv_blocked (ac sub nsub : axcol) (rel : list nat) (bin : nat) : res nat :=
  if Nat.eqb (List.length rel) (acNDims ac) then Ok bin
  else
    do idx <- unpack ac bin;
    do s <- mapM (fun i => vat idx i) (filter (fun i => memb i rel) (seq 0 (acNDims ac)));
    do n <- mapM (fun i => vat idx i) (filter (fun i => negb (memb i rel)) (seq 0 (acNDims ac)));
    do is <- flatten sub s;
    do ins <- flatten nsub n;
    Ok (is + ins * acNBins sub)%nat.
(** Convolution.cpp:195-228 CacheIndexPermutations *)
Definition cv_cacheOf (b : sbase) : res (axcol * axcol * list nat) :=
  let ac := sbAxes b in
  do rel <- relativeIndices (sbTrans b) (sbDist b);
  do sub <- cv_subAxes ac rel;
  let nrel := filter (fun i => negb (memb i rel)) (seq 0 (List.length (osNames (sbDist b)))) in
  do nsub <- cv_subAxes ac nrel;
  do perm <- foldM (fun p i =>
                      do k <- cv_blocked ac sub nsub rel i;
                      if Nat.ltb k (List.length p) then Ok (upd p k i) else Throw std_out_of_range)
                   (seq 0 (acNBins ac)) (repeat 0%nat (acNBins ac));
  Ok (sub, nsub, perm).
(** Convolution.cpp:26-64 ConstructSubmatrix: (column, row, value) triples *)
Definition cv_submatrix (sub : axcol) (k : kernel) : res (list (nat * nat * Qc)) :=
  do ls <- mapM (fun orig =>
             do x <- binCentres sub orig;
             do es <- mapM (fun dest =>
                        do lo <- binLowEdges sub dest;
                        do hi <- binHighEdges sub dest;
                        do v <- k lo hi x;
                        Ok (orig, dest, v)) (seq 0 (acNBins sub));
             Ok (filter (fun t => qltb 0 (snd t)) es)) (seq 0 (acNBins sub));
  Ok (List.concat ls).
(** Convolution.cpp:66-101 MakeFullMatrix.  n_blocks = N / n_sub: a zero n_sub would be an integer
    division by zero. *)
Definition cv_full (n : nat) (sub : axcol) (perm : list nat) (trs : list (nat * nat * Qc)) (m : smat)
  : smat * res unit :=
  if Nat.eqb (acNBins sub) 0 then (m, UB)
  else
    obind m (mapM (fun bt : nat * (nat * nat * Qc) =>
               let '(b, (c, r, v)) := bt in
               do pc <- vat perm (c + b * acNBins sub)%nat;
               do pr <- vat perm (r + b * acNBins sub)%nat;
               Ok (pr, pc, v))
             (list_prod (seq 0 (n / acNBins sub)) trs)) (fun full =>
    m_setComponents m (map (fun t => fst (fst t)) full) (map (fun t => snd (fst t)) full) (map snd full)).
(** Convolution.cpp:103-146 Construct *)
Definition cv_construct (c : conv) : conv * res unit :=
  let n := acNBins (sbAxes (cvB c)) in
  match cvDist c with
  | None => (c, Throw LogicError)
  | Some k =>
      if Nat.eqb n 0 then (c, Throw LogicError)
      else
      obind c (if cvCached c then Ok (cvSub c, cvNot c, cvPerm c) else cv_cacheOf (cvB c)) (fun ch =>
        let '(sub, nsub, perm) := ch in
        let c1 := mkConv (cvB c) (cvDist c) true sub nsub perm in
        obind c1 (cv_submatrix sub k) (fun trs =>
          match cv_full n sub perm trs (mat_zeros n n) with
          | (m, Ok _) => (cv_onB c1 (fun b => sb_setResp b m), Ok tt)
          | (_, e) => (c1, e)
          end))
  end.
