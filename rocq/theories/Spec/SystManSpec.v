(** Independent vocabulary for the systematic manager (C27, C68). *)
From Verif Require Import Base.Res Base.Num Base.SMap Model.Axis Model.Hist Model.Matrix Model.ED Model.SystMan.
Local Open Scope Qc_scope.

(** the calls a user makes *)
Inductive smop := Add (p : nat) (g : string) | AddDist (name : string) (gs : list string)
                | Tune (p : nat) (build : smat * res unit) | Build.
Definition smcall (s : sman) (o : smop) : sman * res unit :=
  match o with
  | Add p g => sm_add s p g
  | AddDist n gs => sm_addDist s n gs
  | Tune p b => (sm_setObj s p (mkSyst (syName (smObj s p)) (syResp (smObj s p)) b), Ok tt)
  | Build => sm_construct s
  end.
Fixpoint smrun (s : sman) (l : list smop) : sman :=
  match l with [] => s | o :: t => smrun (fst (smcall s o)) t end.
(** the calls of the history that did not throw *)
Fixpoint accepted (s : sman) (l : list smop) : list smop :=
  match l with
  | [] => []
  | o :: t => (match snd (smcall s o) with Ok _ => [o] | _ => [] end) ++ accepted (fst (smcall s o)) t
  end.
(** the systematics added to group g, oldest first *)
Definition added (g : string) (l : list smop) : list nat :=
  flat_map (fun o => match o with Add p g' => if String.eqb g g' then [p] else [] | _ => [] end) l.
(** every systematic added, with the group it was added to *)
Definition adds (l : list smop) : list (nat * string) :=
  flat_map (fun o => match o with Add p g => [(p, g)] | _ => [] end) l.
(** the groups last given for the distribution *)
Definition regd (n : string) (l : list smop) : option (list string) :=
  fold_left (fun a o => match o with AddDist n' gs => if String.eqb n n' then Some gs else a | _ => a end) l None.

(** the systematics meant to act on a distribution registered with groups gs: the global group first
    unless it is listed explicitly, then the groups as listed *)
Definition acting (grp : string -> list nat) (gs : list string) : list nat :=
  (if in_dec string_dec EmptyString gs then [] else grp EmptyString) ++ flat_map grp gs.

(** n by n matrix times vector, and several applied one after another (first of the list first) *)
Definition mv (n : nat) (m : smat) (v : list Qc) : list Qc :=
  map (fun i => qsum (map (fun j => sF m i j * nth j v 0) (seq 0 n))) (seq 0 n).
Definition mvs (n : nat) (ms : list smat) (v : list Qc) : list Qc := fold_left (fun x m => mv n m x) ms v.
Definition sized (n : nat) (m : smat) : Prop := sR m = n /\ sC m = n.

(** a distribution with other contents *)
Definition with_contents (b : bed) (c : list Qc) : bed :=
  mkBed (bdName b) (mkHist (hAxes (bdHist b)) c (hNBins (bdHist b)) (hNDims (bdHist b))) (bdObs b).

(** restrictions on a history used by C68: no distribution registered; no systematic added to a named
    group, and the global group listed at most once *)
Definition no_dist (o : smop) : Prop := match o with AddDist _ _ => False | _ => True end.
Definition once_global (gs : list string) : Prop := (count_occ string_dec gs EmptyString <= 1)%nat.
Definition late_ok (o : smop) : Prop :=
  match o with Add _ g => g = EmptyString | AddDist _ gs => once_global gs | _ => True end.
