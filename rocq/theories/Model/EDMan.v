(** Model of /repo/src/fitutil/BinnedEDManager.{h,cpp}.
    Simplifications: doubles are exact rationals; GetNDims (fNDims is never assigned) is left out; the two
    vectors the fit parameters point into are containers 0 and 1 of the parameter manager's memory; the
    indirection to the systematic manager and the shrinker is a value passed in. *)
From Coq Require Import ZArith.
From Verif Require Import Base.Res Base.Num Base.SMap Model.Axis Model.Event Model.Hist Model.ED Model.Param
  Model.Matrix Model.SystMan Model.Shrink.
Local Open Scope Qc_scope.
Local Open Scope res_scope.

(** BinnedEDManager.h:16-21 NormFittingStatus *)
Inductive nfs := NFalse | NDirect | NIndirect.
Definition is_direct (s : nfs) : bool := match s with NDirect => true | _ => false end.
Definition is_indirect (s : nfs) : bool := match s with NIndirect => true | _ => false end.
Definition fittable (s : nfs) : bool := match s with NFalse => false | _ => true end.

(** BinnedEDManager.h:66-76 *)
Record edman := mkEm { emPm : pmgr; emOrig : list bed; emWork : list bed; emStat : list nfs; emAllDir : bool }.
Definition c_norms : nat := 0%nat.
Definition c_fit : nat := 1%nat.
(** fNormalisations and fFittableNorms *)
Definition emNorms (s : edman) : list Qc := mCnt (pmMem (emPm s)) c_norms.
Definition emFit (s : edman) : list Qc := mCnt (pmMem (emPm s)) c_fit.
Definition mem_setC (m : pmem) (c : nat) (l : list Qc) : pmem :=
  mkMem (mDbl m) (fun d => if Nat.eqb d c then l else mCnt m d).
Definition pm_setC (p : pmgr) (c : nat) (l : list Qc) : pmgr := mkPm (mem_setC (pmMem p) c l) (pmPtrs p).
Definition em_withPm (s : edman) (p : pmgr) : edman := mkEm p (emOrig s) (emWork s) (emStat s) (emAllDir s).
Definition em_setNormsC (s : edman) (l : list Qc) : edman := em_withPm s (pm_setC (emPm s) c_norms l).
Definition em_setWork (s : edman) (w : list bed) : edman := mkEm (emPm s) (emOrig s) w (emStat s) (emAllDir s).
(** BinnedEDManager.h:25 constructor *)
Definition em_new : edman := mkEm (pm_new (mkMem (fun _ => 0) (fun _ => []))) [] [] [] true.

(** BinnedEDManager.cpp:280-303 RegisterParameters *)
Definition em_regNames (s : edman) : res (list string) :=
  if emAllDir s then Ok (map bdName (emOrig s))
  else rmap (@List.concat string)
         (mapM (fun i => do o <- vat (emOrig s) i; do st <- vat (emStat s) i;
                         Ok (if fittable st then [bdName o] else [])) (seq 0 (List.length (emOrig s)))).
Definition em_register (s : edman) : edman * res unit :=
  let s1 := em_withPm s (pm_clear (emPm s)) in
  obind s1 (em_regNames s) (fun names =>
    match pm_addContainer (emPm s1) (if emAllDir s then c_norms else c_fit) names with
    | (p, r) => (em_withPm s1 p, r)
    end).
(** BinnedEDManager.cpp:126-142 AddPdf *)
Definition em_addPdf (s : edman) (b : bed) (st : nfs) : edman * res unit :=
  let origs := emOrig s ++ [b] in
  let p1 := pm_setC (emPm s) c_norms (vresize (emNorms s) (List.length origs)) in
  let p2 := if fittable st then pm_setC p1 c_fit (emFit s ++ [0]) else p1 in
  em_register (mkEm p2 origs (emWork s ++ [b]) (emStat s ++ [st])
                    (if is_direct st then emAllDir s else false)).
(** BinnedEDManager.cpp:144-164 AddPdfs (None = nullptr: the default status INDIRECT) *)
Definition em_addPdfs (s : edman) (bs : list bed) (sts : option (list nfs)) : edman * res unit :=
  match sts with
  | Some l => if negb (Nat.eqb (List.length bs) (List.length l)) then (s, Throw DimensionError)
              else match iterS (fun s1 p => em_addPdf s1 (fst p) (snd p)) (combine bs l) s with
                   | (s1, Ok _) => em_register s1
                   | r => r
                   end
  | None => match iterS (fun s1 b => em_addPdf s1 b NIndirect) bs s with
            | (s1, Ok _) => em_register s1
            | r => r
            end
  end.
(** BinnedEDManager.cpp:84-89 SetNormalisations *)
Definition em_setNorms (s : edman) (l : list Qc) : edman * res unit :=
  if negb (Nat.eqb (List.length l) (List.length (emOrig s))) then (s, Throw LogicError)
  else (em_setNormsC s l, Ok tt).

(** BinnedEDManager.cpp:305-325 ReassertNorms: j counts the entries of the selected status only *)
Definition em_reassert (calcing : bool) (s : edman) : edman * res unit :=
  if emAllDir s then (s, Ok tt)
  else
    match iterS (fun (st : edman * nat) i =>
             obind st (vat (emStat s) i) (fun x =>
             if (if calcing then is_direct x else is_indirect x)
             then obind st (vat (emFit s) (snd st)) (fun v =>
                    ((em_setNormsC (fst st) (upd (emNorms (fst st)) i v), S (snd st)), Ok tt))
             else (st, Ok tt)))
           (seq 0 (List.length (emNorms s))) (s, 0%nat) with
    | (st, r) => (fst st, r)
    end.

(** BinnedEDManager.cpp:57-75: the contribution of pdf i; j counts the fittable pdfs so far *)
Definition em_term (s : edman) (value : bed -> res Qc) (acc : Qc * nat) (i : nat) : res (Qc * nat) :=
  do st <- vat (emStat s) i;
  do w <- vat (emWork s) i;
  match st with
  | NDirect => do n <- vat (emNorms s) i; do c <- value w; Ok (fst acc + n * c, S (snd acc))
  | NIndirect => do n <- vat (emFit s) (snd acc); do c <- value w; Ok (fst acc + n * c, S (snd acc))
  | NFalse => do c <- value w; Ok (fst acc + c, snd acc)
  end.
(** catch (const std::out_of_range&) { throw LogicError } *)
Definition oor_to_logic {A} (r : res A) : res A :=
  match r with Throw std_out_of_range => Throw LogicError | _ => r end.
(** BinnedEDManager.cpp:49-82 BinProbability *)
Definition em_binProb (s : edman) (bin : nat) : edman * res Qc :=
  match em_reassert true s with
  | (s1, Ok _) =>
      (s1, oor_to_logic (rmap fst (foldM (em_term s1 (fun w => getBinContent (bdHist w) bin))
                                         (seq 0 (List.length (emWork s1))) (0, 0%nat))))
  | (s1, Throw e) => (s1, Throw e)
  | (s1, UB) => (s1, UB) | (s1, NonFinite) => (s1, NonFinite) | (s1, Diverge) => (s1, Diverge)
  end.

(** BinnedEDManager.cpp:240-273 the FitComponent interface *)
Definition em_set (s : edman) (n : string) (v : Qc) : edman * res unit :=
  match pm_set (emPm s) n v with (p, r) => (em_withPm s p, r) end.
Definition em_get (s : edman) (n : string) : res Qc := pm_get (emPm s) n.
Definition em_setAll (s : edman) (d : smap Qc) : edman * res unit :=
  match pm_setAll (emPm s) d with (p, r) => (em_withPm s p, r) end.
Definition em_getAll (s : edman) : res (smap Qc) := pm_getAll (emPm s).
Definition em_names (s : edman) : list string := pm_names (emPm s).
Definition em_rename (s : edman) (o n : string) : edman * res unit :=
  match pm_rename (emPm s) o n with (p, r) => (em_withPm s p, r) end.

(** BinnedEDManager.cpp:91-118 ApplySystematics; when it fails the working pdfs are left as they were (see sm_distort) *)
Definition em_systematics (s : edman) (sm : sman) : edman * res unit :=
  if Nat.eqb (sm_count sm) 0 then (s, Ok tt)
  else if emAllDir s then
    obind s (sm_distort sm (emOrig s) (emWork s) None) (fun r => (em_setWork s (fst r), Ok tt))
  else
    obind s (sm_distort sm (emOrig s) (emWork s) (Some (repeat 0 (List.length (emNorms s))))) (fun r =>
      let s1 := em_setWork s (fst r) in
      let ns := match snd r with Some l => l | None => [] end in
      iterS (fun s2 i =>
               obind s2 (vat (emStat s2) i) (fun st =>
               obind s2 (vat ns i) (fun n =>
               match st with
               | NFalse => (em_setNormsC s2 (upd (emNorms s2) i n), Ok tt)
               | NIndirect => (em_setNormsC s2 (upd (emNorms s2) i (nth i (emNorms s2) 0 * n)), Ok tt)
               | NDirect => (s2, Ok tt)
               end)))
            (seq 0 (List.length ns)) s1).

(** BinnedEDManager.cpp:327-342 AssertDimensions; BinnedED.cpp:217-234 Marginalise *)
Definition bed_marginalise (b : bed) (names : list string) : res bed :=
  do h <- marginalise (bdHist b) names;
  Ok (mkBed (fold_left (fun f n => f ++ "_" ++ n) names (bdName b) ++ "_proj")%string h (mk_obsset names)).
Definition em_dimensions (s : edman) (obs : list string) : edman * res unit :=
  iterS (fun s1 i =>
           obind s1 (vidx (emWork s1) i) (fun w =>
           if list_eq_dec string_dec (osNames (bdObs w)) obs then (s1, Ok tt)
           else obind s1 (bed_marginalise w obs) (fun w' => (em_setWork s1 (upd (emWork s1) i w'), Ok tt))))
        (seq 0 (List.length (emWork s))) s.

(** BinnedEDManager.cpp:194-223: shrink working pdf i and follow its normalisation *)
Definition em_shrink1 (sh : shrinker) (s : edman) (i : nat) : edman * res unit :=
  obind s (vidx (emWork s) i) (fun w =>
  obind s (integral (bdHist w)) (fun before =>
  obind s (sh_shrink sh w) (fun w1 =>
  let s1 := em_setWork s (upd (emWork s) i w1) in
  obind s1 (integral (bdHist w1)) (fun after =>
  obind s1 (vat (emStat s) i) (fun st =>
  match st with
  | NDirect => match bed_normalise w1 with (w2, r) => (em_setWork s1 (upd (emWork s1) i w2), r) end
  | NFalse => (em_setNormsC s1 (upd (emNorms s1) i after), Ok tt)
  | NIndirect =>
      if (qeqb before 0 && qeqb after 0)%bool then (em_setNormsC s1 (upd (emNorms s1) i 0), Ok tt)
      else obind s1 (qdiv after before) (fun q =>
             (em_setNormsC s1 (upd (emNorms s1) i (nth i (emNorms s1) 0 * q)), Ok tt))
  end))))).
(** BinnedEDManager.cpp:172-224 ApplyShrink.  int bufferBins adds unsigned values (wrapping); the
    comparison subtracts it from a size_t modulo 2^64 *)
Definition em_bufferBins (sh : shrinker) : Z :=
  fold_left (fun acc kv => s32 (s32 (acc + fst (snd kv)) + snd (snd kv)))%Z (shBuf sh) 0%Z.
Definition em_shrink (s : edman) (sh : shrinker) : edman * res unit :=
  match shBuf sh with
  | [] => (s, Ok tt)
  | _ =>
      obind s (vat (emWork s) 0) (fun w0 =>
      obind s (vat (emOrig s) 0) (fun o0 =>
      let wn := Z.of_nat (hNBins (bdHist w0)) in
      let on := Z.of_nat (hNBins (bdHist o0)) in
      if Z.eqb wn (w64 (on - em_bufferBins sh)) then (s, Ok tt)
      else if negb (Z.eqb wn on) then (s, Throw DimensionError)
      else iterS (em_shrink1 sh) (seq 0 (List.length (emWork s))) s))
  end.
