(** Independent vocabulary for the constraint properties (C33-C35). *)
From Verif Require Import Base.Res Base.Num Base.SMap Model.Axis Model.Hist Model.Constraint Spec.AxisSpec Spec.HistSpec.
Local Open Scope Qc_scope.

(** calls on a ConstraintManager *)
Inductive cop :=
| CSym (n : string) (m w : Qc) | CAsym (n : string) (m hi lo : Qc)
| CCorr (n1 : string) (m1 s1 : Qc) (n2 : string) (m2 s2 corr : Qc)
| CRat (n1 n2 : string) (m w : Qc) | CFrac (n1 n2 : string) (m w : Qc)
| CInt (label : string) (h : hist) | CShp (d : smap Qc) (f : shape_fun) (m w : Qc).
Definition ccall (s : cman) (o : cop) : cman * res unit :=
  match o with
  | CSym n m w => set_single s n (mk_quad m w)
  | CAsym n m hi lo => set_single s n (mk_quad_asym m hi lo)
  | CCorr n1 m1 s1 n2 m2 s2 c => set_pair s n1 m1 s1 n2 m2 s2 c
  | CRat a b m w => (set_ratio s a b m w, Ok tt)
  | CFrac a b m w => (set_frac s a b m w, Ok tt)
  | CInt l h => (set_interp s l h, Ok tt)
  | CShp d f m w => (set_shape s d f m w, Ok tt)
  end.
(** a history, rejected calls included *)
Definition crun (l : list cop) : cman := fold_left (fun s o => fst (ccall s o)) l cman_new.

(** n has its own constraint; the ordered pair p has a correlated one; n takes part in some pair *)
Definition has_single (s : cman) (n : string) : Prop := exists q, sfind n (cInd s) = Some q.
Definition has_pair (s : cman) (p : string * string) : Prop := exists b, In (p, b) (cPair s).
Definition in_pair (s : cman) (n : string) : Prop := exists p, has_pair s p /\ (fst p = n \/ snd p = n).
(** the constraint in force *)
Definition single_is (s : cman) (n : string) (q : quad) : Prop := sfind n (cInd s) = Some q.
Definition pair_is (s : cman) (p : string * string) (b : biv) : Prop := In (p, b) (cPair s).

(** the textbook penalty of a value x with mean m and width w *)
Definition gauss_penalty (x m w : Qc) : Qc := (x - m) * (x - m) / (qz 2 * (w * w)).

(** smallest box of bin centres: bin k of axis a and the next one enclose x *)
Definition centre_of (a : axis) (i : nat) : Qc := (lo_of a i + hi_of a i) / qz 2.
Definition brackets (a : axis) (k : nat) (x : Qc) : Prop :=
  (S k < aNBins a)%nat /\ centre_of a k <= x /\ x < centre_of a (S k).
(** the corners of the cell with lowest corner ks *)
Fixpoint corners (ks : list nat) : list (list nat) :=
  match ks with [] => [[]] | k :: t => flat_map (fun c => [k :: c; S k :: c]) (corners t) end.
(** multilinear interpolation, one axis after the other *)
Fixpoint multilinear (axes : list axis) (ks : list nat) (xs : list Qc) (f : list nat -> Qc) : Qc :=
  match axes, ks, xs with
  | a :: axes', k :: ks', x :: xs' =>
      let t := (x - centre_of a k) / (centre_of a (S k) - centre_of a k) in
      (1 - t) * multilinear axes' ks' xs' (fun c => f (k :: c)) + t * multilinear axes' ks' xs' (fun c => f (S k :: c))
  | _, _, _ => f []
  end.
(** the term of one stored constraint, at the parameter values of dictionary d *)
Definition single_value d (kc : string * quad) v := exists x, sfind (fst kc) d = Some x /\ quad_eval (snd kc) x = Ok v.
Definition pair_value {C} (eval : C -> Qc -> Qc -> res Qc) d (kc : (string * string) * C) v :=
  exists x y, sfind (fst (fst kc)) d = Some x /\ sfind (snd (fst kc)) d = Some y /\ eval (snd kc) x y = Ok v.

(** ** the constraints in force after a history, read off the calls alone *)
(** the parameter or parameters a call constrains, and how: two calls with the same slot replace each other *)
Inductive slot := OfOne (n : string) | OfPair (n1 n2 : string) | OfRatio (n1 n2 : string) | OfFrac (n1 n2 : string) | OfLabel (l : string) | OfDict (d : smap Qc).
Definition slot_of (o : cop) : slot :=
  match o with
  | CSym n _ _ | CAsym n _ _ _ => OfOne n
  | CCorr n1 _ _ n2 _ _ _ => OfPair n1 n2
  | CRat a b _ _ => OfRatio a b | CFrac a b _ _ => OfFrac a b | CInt l _ => OfLabel l | CShp d _ _ _ => OfDict d
  end.
Definition slot_dec (a b : slot) : {a = b} + {a <> b}.
Proof. decide equality; try apply string_dec. apply list_eq_dec, kv_dec. Defined.
(** a single constraint is refused if an accepted pair contains the name; a pair is refused if the correlation is 1, or if a name is
    already constrained singly or in another pair *)
Definition touches (n : string) (s : slot) : bool :=
  match s with OfOne m => String.eqb n m | OfPair a b => String.eqb n a || String.eqb n b | _ => false end.
Definition allowed (done : list cop) (o : cop) : bool :=
  match o with
  | CSym n _ _ | CAsym n _ _ _ => forallb (fun p => match slot_of p with OfPair a b => negb (String.eqb n a || String.eqb n b) | _ => true end) done
  | CCorr n1 _ _ n2 _ _ c =>
      negb (qeqb c 1) &&
      (existsb (fun p => if slot_dec (slot_of p) (OfPair n1 n2) then true else false) done ||
       forallb (fun p => negb (touches n1 (slot_of p) || touches n2 (slot_of p))) done)
  | _ => true
  end.
Definition accepted_calls (ops : list cop) : list cop := fold_left (fun done o => if allowed done o then done ++ [o] else done) ops [].
(** of the accepted calls, those not replaced by a later one *)
Fixpoint in_force (l : list cop) : list cop :=
  match l with
  | [] => []
  | o :: t => if in_dec slot_dec (slot_of o) (map slot_of t) then in_force t else o :: in_force t
  end.
(** the penalty a call asks for, at the parameter values of d *)
Definition asks_for (d : smap Qc) (o : cop) (v : Qc) : Prop :=
  match o with
  | CSym n m w => w <> 0 /\ exists x, sfind n d = Some x /\ v = gauss_penalty x m w
  | CAsym n m hi lo => hi <> 0 /\ lo <> 0 /\ exists x, sfind n d = Some x /\ v = if Qclt_le_dec x m then gauss_penalty x m lo else gauss_penalty x m hi
  | CCorr n1 m1 s1 n2 m2 s2 c => s1 <> 0 /\ s2 <> 0 /\ 1 - c * c <> 0 /\ exists x y, sfind n1 d = Some x /\ sfind n2 d = Some y /\
      let a := (x - m1) / s1 in let b := (y - m2) / s2 in v = (a * a - qz 2 * c * a * b + b * b) / (qz 2 * (1 - c * c))
  | CRat n1 n2 m w => w <> 0 /\ exists x y, sfind n1 d = Some x /\ sfind n2 d = Some y /\ v = gauss_penalty (x / (if Qclt_le_dec (qabs y) ratio_eps then ratio_eps else y)) m w
  | CFrac n1 n2 m w => w <> 0 /\ exists x y, sfind n1 d = Some x /\ sfind n2 d = Some y /\ x + y <> 0 /\ v = gauss_penalty ((x - y) / (x + y)) m w
  | CInt l h => interp_eval h d = Ok v
  | CShp _ f m w => w <> 0 /\ exists x, f d = Ok x /\ v = gauss_penalty x m w
  end.
