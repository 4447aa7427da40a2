(** Independent vocabulary for C55. *)
From Coq Require Import ZArith Reals.
From Verif Require Import Base.Res Base.Num Base.RNum Base.SMap Model.Axis Model.Event Model.Cut Model.Fill Model.Count
  Spec.CutSpec Spec.FillSpec.
Local Open Scope Qc_scope.

(** configuration calls *)
Inductive ceop := CCut (c : cut) | CSys (s : evsys) | CBg (data : list event) (rate : Qc) (n : string) | CSignal (data : list event)
  | CCountData (data : list event) | CCountSignal.
Definition cedo (s : cexp) (o : ceop) : cexp :=
  match o with
  | CCut c => ce_addCut s c | CSys y => ce_addSys s y | CBg d r n => ce_addBg s d r n | CSignal d => ce_setSignal s d
  | CCountData d => fst (ce_countData s d) | CCountSignal => fst (ce_countSignal s)
  end.
Definition cerun (ops : list ceop) : cexp := fold_left cedo ops ce_new.
Definition cuts_in (ops : list ceop) : list cut := flat_map (fun o => match o with CCut c => [c] | _ => [] end) ops.
Definition sys_in (ops : list ceop) : list evsys := flat_map (fun o => match o with CSys s => [s] | _ => [] end) ops.
Definition bgs_in (ops : list ceop) : list (list event * Qc * string) := flat_map (fun o => match o with CBg d r n => [(d, r, n)] | _ => [] end) ops.
Definition last_signal (ops : list ceop) : option (list event) := fold_left (fun a o => match o with CSignal d => Some d | _ => a end) ops None.

(** k events of the data pass the cuts after the systematics; every cut finds its observable *)
Inductive passing (cs : list cut) (ss : list evsys) : list event -> nat -> Prop :=
| pass_nil : passing cs ss [] 0
| pass_yes e e' l k : in_order ss e e' -> cuttable cs e' -> passes_all cs e' -> passing cs ss l k -> passing cs ss (e :: l) (S k)
| pass_no e e' l k : in_order ss e e' -> cuttable cs e' -> ~ passes_all cs e' -> passing cs ss l k -> passing cs ss (e :: l) k.
