(** Independent vocabulary for C15-C20. *)
From Verif Require Import Base.Res Base.Num Base.SMap Model.Axis Model.Hist Model.Param Spec.HistSpec.
Local Open Scope Qc_scope.

(** calls on a ParameterManager, plus the owner of a variable writing it directly *)
Inductive pm_op :=
| PAddDouble (a : nat) (n : string)
| PAddContainer (c : nat) (names : list string)
| PAddContainerBase (c : nat) (base : string)
| PSet (n : string) (v : Qc)
| PSetAll (d : smap Qc)
| PRename (o n : string)
| PClear
| PUser (l : loc) (v : Qc).
Definition pm_step (p : pmgr) (op : pm_op) : pmgr * res unit :=
  match op with
  | PAddDouble a n => (pm_addDouble p a n, Ok tt)
  | PAddContainer c names => pm_addContainer p c names
  | PAddContainerBase c base => (pm_addContainerBase p c base, Ok tt)
  | PSet n v => pm_set p n v
  | PSetAll d => pm_setAll p d
  | PRename o n => pm_rename p o n
  | PClear => (pm_clear p, Ok tt)
  | PUser l v => let (m, r) := assign (pmMem p) l v in (mkPm m (pmPtrs p), r)
  end.
(** states after any sequence of calls, successful or not (containers keep their size) *)
Inductive pm_reach : pmgr -> Prop :=
| pr_new m : pm_reach (pm_new m)
| pr_step p op : pm_reach p -> pm_reach (fst (pm_step p op)).
(** the variable registered under a name *)
Definition bound (p : pmgr) (n : string) (l : loc) : Prop := sfind n (pmPtrs p) = Some l.
(** no variable is registered under two names *)
Definition unaliased (p : pmgr) : Prop := forall n n' l, bound p n l -> bound p n' l -> n = n'.

(** the abstract name-to-value map and what set / set-all / rename do to it; None = rejected *)
Definition map_step (op : pm_op) (V : smap Qc) : option (smap Qc) :=
  match op with
  | PSet n v => if shas n V then Some (sset n v V) else None
  | PSetAll d => if forallb (fun n => shas n d) (skeys V)
                 then Some (map (fun nv => (fst nv, match sfind (fst nv) d with Some v => v | None => snd nv end)) V)
                 else None
  | PRename o n => match sfind o V with
                   | Some v => if shas n V then None else Some (serase o (sset n v V))
                   | None => None end
  | _ => None
  end.
Fixpoint map_run (ops : list pm_op) (V : smap Qc) : option (smap Qc) :=
  match ops with [] => Some V | op :: t => match map_step op V with Some V' => map_run t V' | None => None end end.
(** run the calls on the manager, stopping (None) at the first that throws *)
Fixpoint pm_run (ops : list pm_op) (p : pmgr) : option pmgr :=
  match ops with
  | [] => Some p
  | op :: t => match pm_step p op with (p', Ok _) => pm_run t p' | _ => None end
  end.
Definition is_value_op (op : pm_op) : Prop :=
  match op with PSet _ _ | PSetAll _ | PRename _ _ => True | _ => False end.
Definition has_key {V} (d : smap V) (n : string) : Prop := exists v, sfind n d = Some v.

(** fit components a user can hold *)
Definition comp_ok (c : comp) : Prop :=
  match c with
  | CSingle _ _ => True
  | CDict d => swf d
  | CPm p => pm_reach p /\ unaliased p
  | CSpec ns h => h_reach h /\ NoDup ns /\ List.length ns = hNBins h
  end.
Definition is_single c := match c with CSingle _ _ => True | _ => False end.
Definition is_dict c := match c with CDict _ => True | _ => False end.
Definition is_pm c := match c with CPm _ => True | _ => False end.
Definition is_spec c := match c with CSpec _ _ => True | _ => False end.
(** two components report the same parameters with the same values *)
Definition same_params (c c' : comp) : Prop := forall n, c_get c n = c_get c' n.
