(** Model of /repo/src/constraint: the quadratic, bivariate, ratio, fractional, shape and interpolated
    constraints and ConstraintManager.
    Simplifications: doubles are exact rationals; a division by zero is NonFinite; debug printing is
    dropped; std::map iteration order is kept for string keys and is insertion order for the maps keyed
    by pairs and by dictionaries (only the order of a sum). *)
From Verif Require Import Base.Res Base.Num Base.SMap Model.Axis Model.Hist.
Local Open Scope Qc_scope.
Local Open Scope res_scope.

(** QuadraticConstraint.h:33-36; the two constructors 14, 16 *)
Record quad := mkQuad { qMean : Qc; qWidth : Qc; qWidthLo : Qc; qAsym : bool }.
Definition mk_quad (mean width : Qc) : quad := mkQuad mean width 0 false.
Definition mk_quad_asym (mean hi lo : Qc) : quad := mkQuad mean hi lo true.
(** (x - m)^2 / (2 s^2) as written in every one of the Evaluate functions *)
Definition penalty (x m s : Qc) : res Qc := qdiv ((x - m) * (x - m)) (qz 2 * s * s).
(** QuadraticConstraint.h:18-30 *)
Definition quad_eval (c : quad) (v : Qc) : res Qc :=
  let sigma := if qAsym c then (if qleb (qMean c) v then qWidth c else qWidthLo c) else qWidth c in
  penalty v (qMean c) sigma.

(** BivariateQuadraticConstraint.h:34-38, constructor 17-23 *)
Record biv := mkBiv { bM1 : Qc; bS1 : Qc; bM2 : Qc; bS2 : Qc; bCorr : Qc }.
Definition mk_biv (m1 s1 m2 s2 corr : Qc) : res biv :=
  if qeqb corr 1 then Throw ValueError else Ok (mkBiv m1 s1 m2 s2 corr).
(** BivariateQuadraticConstraint.h:25-31 *)
Definition biv_eval (c : biv) (v1 v2 : Qc) : res Qc :=
  do z1 <- penalty v1 (bM1 c) (bS1 c);
  do z2 <- penalty v2 (bM2 c) (bS2 c);
  do z12 <- qdiv (bCorr c * (v1 - bM1 c) * (v2 - bM2 c)) (bS1 c * bS2 c);
  qdiv (z1 - z12 + z2) (1 - bCorr c * bCorr c).

(** RatioConstraint.h:19-32 *)
Definition ratio_eps : Qc := qq 1 100000000.
Definition ratio_eval (mean sigma v1 v2 : Qc) : res Qc :=
  let v2' := if qltb (qabs v2) ratio_eps then ratio_eps else v2 in
  do r <- qdiv v1 v2';
  penalty r mean sigma.

(** FractionalConstraint.h:19-25 *)
Definition frac_eval (mean sigma v1 v2 : Qc) : res Qc :=
  do f <- qdiv (v1 - v2) (v1 + v2);
  penalty f mean sigma.

(** ShapeConstraint.h:17, cpp:3-7; the function may throw *)
Definition shape_fun := smap Qc -> res Qc.
Definition shape_eval (f : shape_fun) (mean sigma : Qc) (params : smap Qc) : res Qc :=
  do v <- f params;
  penalty v mean sigma.

(** ShapeInterpConstraint.cpp:7-25 *)
Definition interp_params (h : hist) (params : smap Qc) : res (list Qc) :=
  mapM (fun n => match sfind n params with Some v => Ok v | None => Throw NotFoundError end) (acNames (hAxes h)).
(** ShapeInterpConstraint.cpp:28-65 *)
Definition interp_coords (locs : list (list Qc)) (pars : list Qc) : res (list Qc) :=
  mapM (fun dim =>
          do v <- vat pars dim;
          do l0 <- vat locs 0; do x0 <- vat l0 dim;
          do l1 <- vat locs (2 ^ dim); do x1 <- vat l1 dim;
          qdiv (v - x0) (x1 - x0))
       (seq 0 (List.length pars)).
Definition nd_interp (vals : list Qc) (locs : list (list Qc)) (pars : list Qc) : res Qc :=
  do cs <- interp_coords locs pars;
  foldM (fun acc latt =>
           do v <- vat vals latt;
           do v' <- foldM (fun x dim => do t <- vat cs dim; Ok (x * (if Nat.testbit latt dim then t else 1 - t)))
                          (seq 0 (List.length pars)) v;
           Ok (acc + v'))
        (seq 0 (2 ^ List.length pars)) 0.
(** ShapeInterpConstraint.cpp:68-77 *)
Definition interp_eval (h : hist) (params : smap Qc) : res Qc :=
  do pars <- interp_params h params;
  do pts <- latticeValues h pars;
  nd_interp (map snd pts) (map fst pts) pars.

(** std::map keyed by something with decidable equality *)
Fixpoint afind {K V} (eqb : K -> K -> bool) (k : K) (l : list (K * V)) : option V :=
  match l with [] => None | (k', v) :: t => if eqb k k' then Some v else afind eqb k t end.
Fixpoint aset {K V} (eqb : K -> K -> bool) (k : K) (v : V) (l : list (K * V)) : list (K * V) :=
  match l with [] => [(k, v)] | (k', w) :: t => if eqb k k' then (k, v) :: t else (k', w) :: aset eqb k v t end.
Definition pair_eqb (a b : string * string) : bool := (String.eqb (fst a) (fst b) && String.eqb (snd a) (snd b))%bool.
Definition kv_dec (a b : string * Qc) : {a = b} + {a <> b}.
Proof. decide equality; [apply Qc_eq_dec|apply string_dec]. Defined.
Definition dict_eqb (a b : smap Qc) : bool := if list_eq_dec kv_dec a b then true else false.

(** ConstraintManager.h:49-62 *)
Record cman := mkCman {
  cInd : smap quad; cPair : list ((string * string) * biv); cUse : smap bool;
  cRatio : list ((string * string) * (Qc * Qc)); cFrac : list ((string * string) * (Qc * Qc));
  cInterp : smap hist; cShape : list (smap Qc * (shape_fun * Qc * Qc)) }.
Definition cman_new : cman := mkCman [] [] [] [] [] [] [].

(** ConstraintManager.cpp:3-32 and 34-63 (identical but for the constraint built) *)
Definition set_single (s : cman) (n : string) (q : quad) : cman * res unit :=
  match sfind n (cUse s) with
  | Some true => (mkCman (sset n q (cInd s)) (cPair s) (cUse s) (cRatio s) (cFrac s) (cInterp s) (cShape s), Ok tt)
  | Some false => (s, Throw LogicError)
  | None => (mkCman (sset n q (cInd s)) (cPair s) (sset n true (cUse s)) (cRatio s) (cFrac s) (cInterp s) (cShape s), Ok tt)
  end.
(** ConstraintManager.cpp:65-96.  C++17 (CMakeLists.txt:8): the right-hand side of the assignment, which
    may throw, is evaluated before operator[] inserts. *)
Definition set_pair (s : cman) (n1 : string) (m1 s1 : Qc) (n2 : string) (m2 s2 corr : Qc) : cman * res unit :=
  let put use :=
    match mk_biv m1 s1 m2 s2 corr with
    | Ok b => (mkCman (cInd s) (aset pair_eqb (n1, n2) b (cPair s)) use (cRatio s) (cFrac s) (cInterp s) (cShape s), Ok tt)
    | Throw e => (s, Throw e) | UB => (s, UB) | NonFinite => (s, NonFinite) | Diverge => (s, Diverge)
    end in
  if (shas n1 (cUse s) || shas n2 (cUse s))%bool
  then match afind pair_eqb (n1, n2) (cPair s) with
       | Some _ => put (cUse s)
       | None => (s, Throw LogicError)
       end
  else put (sset n2 false (sset n1 false (cUse s))).
(** ConstraintManager.cpp:98-104 *)
Definition set_ratio (s : cman) (n1 n2 : string) (m sg : Qc) : cman :=
  mkCman (cInd s) (cPair s) (cUse s) (aset pair_eqb (n1, n2) (m, sg) (cRatio s)) (cFrac s) (cInterp s) (cShape s).
(** ConstraintManager.cpp:106-110 *)
Definition set_shape (s : cman) (d : smap Qc) (f : shape_fun) (m sg : Qc) : cman :=
  mkCman (cInd s) (cPair s) (cUse s) (cRatio s) (cFrac s) (cInterp s) (aset dict_eqb d (f, m, sg) (cShape s)).
(** ConstraintManager.cpp:113-121 *)
Definition set_interp (s : cman) (label : string) (h : hist) : cman :=
  mkCman (cInd s) (cPair s) (cUse s) (cRatio s) (cFrac s) (sset label h (cInterp s)) (cShape s).
(** ConstraintManager.cpp:123-129 *)
Definition set_frac (s : cman) (n1 n2 : string) (m sg : Qc) : cman :=
  mkCman (cInd s) (cPair s) (cUse s) (cRatio s) (aset pair_eqb (n1, n2) (m, sg) (cFrac s)) (cInterp s) (cShape s).

(** std::map::at *)
Definition at_ (d : smap Qc) (n : string) : res Qc :=
  match sfind n d with Some v => Ok v | None => Throw std_out_of_range end.
(** the terms in the order ConstraintManager.cpp:138-205 adds them *)
Definition cman_terms (s : cman) (d : smap Qc) : list (res Qc) :=
  map (fun kc => do v <- at_ d (fst kc); quad_eval (snd kc) v) (cInd s) ++
  map (fun kc => do v <- at_ d (fst (fst kc)); do w <- at_ d (snd (fst kc)); biv_eval (snd kc) v w) (cPair s) ++
  map (fun kc => do v <- at_ d (fst (fst kc)); do w <- at_ d (snd (fst kc)); ratio_eval (fst (snd kc)) (snd (snd kc)) v w) (cRatio s) ++
  map (fun kc => do v <- at_ d (fst (fst kc)); do w <- at_ d (snd (fst kc)); frac_eval (fst (snd kc)) (snd (snd kc)) v w) (cFrac s) ++
  map (fun kc => interp_eval (snd kc) d) (cInterp s) ++
  map (fun kc => let '(f, m, sg) := snd kc in shape_eval f m sg d) (cShape s).
(** running double total: a NaN or infinite term makes the total NonFinite, but a later term can still
    throw *)
Fixpoint sum_terms (acc : res Qc) (l : list (res Qc)) : res Qc :=
  match l with
  | [] => acc
  | t :: rest =>
      match t with
      | Ok v => sum_terms (rmap (fun a => a + v) acc) rest
      | NonFinite => sum_terms NonFinite rest
      | Throw e => Throw e | UB => UB | Diverge => Diverge
      end
  end.
(** ConstraintManager.cpp:131-208 *)
Definition cman_eval (s : cman) (d : smap Qc) : res Qc := sum_terms (Ok 0) (cman_terms s d).
