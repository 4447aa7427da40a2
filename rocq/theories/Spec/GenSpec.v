(** Independent vocabulary for generated data sets (C37, C38, C39, C71). *)
From Coq Require Import ZArith Permutation.
From Verif Require Import Base.Res Base.Num Base.SMap Model.Event Model.Cut Model.Data Model.Rand Model.Gen.
Local Open Scope Z_scope.

(** random numbers are in [0,1): TRandom3::Rndm *)
Definition uniform (u : nat -> nat -> Qc) : Prop := forall i j, (0 <= u i j)%Qc /\ (u i j < 1)%Qc.
(** the events of a data set *)
Definition events_of (d : dset) : list (list Qc) := map dvObs (dData d).
(** calls; the events returned by successful calls since the last Reset are kept *)
Inductive gop := GExp (u : nat -> nat -> Qc) | GPois (pois : nat -> nat) (u : nat -> nat -> Qc) | GReset | GRates (l : list Qc) | GCuts (cs : list cut).
Definition op_uniform (o : gop) : Prop := match o with GExp u | GPois _ u => uniform u | _ => True end.
Definition collect (outs : list dset) (r : gen * res (dset * list Z)) : gen * list dset :=
  match r with (g, Ok (d, _)) => (g, outs ++ [d]) | (g, _) => (g, outs) end.
Definition gdo (st : gen * list dset) (o : gop) : gen * list dset :=
  let (g, outs) := st in
  match o with
  | GExp u => collect outs (g_expected g u)
  | GPois p u => collect outs (g_poisson g p u)
  | GReset => (g_reset g, [])
  | GRates l => (g_setRates g l, outs)
  | GCuts cs => (g_setCuts g cs, outs)
  end.
Definition grun (g : gen) (ops : list gop) : gen * list dset := fold_left gdo ops (g, []).
(** a generator over [sets], nothing drawn yet, every set drawn at random without replacement *)
Definition fresh (g : gen) : Prop := List.length (gSlots g) = List.length (gSets g) /\ Forall (fun sl => fst sl = []) (gSlots g).
Definition random_noreplace (g : gen) : Prop :=
  (List.length (gSets g) <= List.length (gBoot g))%nat /\ Forall (fun b => b = false) (gBoot g) /\
  (List.length (gSets g) <= List.length (gSeq g))%nat /\ Forall (fun b => b = false) (gSeq g).
(** the events asked of data set i by a call, and: never more are asked since the last Reset than the set has *)
Definition ask (rates : list Qc) (o : gop) (i : nat) : Z :=
  match o with
  | GExp _ => match nth_error rates i with Some r => qround r | None => 0 end
  | GPois p _ => Z.of_nat (p i)
  | _ => 0
  end.
Fixpoint enough (sets : list src) (rates : list Qc) (tot : nat -> Z) (ops : list gop) : Prop :=
  match ops with
  | [] => True
  | o :: t =>
      let tot' := fun i => match o with GReset => 0 | _ => tot i + ask rates o i end in
      (forall i s, nth_error sets i = Some s -> 0 <= ask rates o i /\ tot' i <= Z.of_nat (List.length (sEvs s))) /\
      enough sets (match o with GRates l => l | _ => rates end) tot' t
  end.
(** the total asked of data set i since the last Reset *)
Definition total (rates : list Qc) (ops : list gop) (i : nat) : Z :=
  snd (fold_left (fun a o => (match o with GRates l => l | _ => fst a end, match o with GReset => 0 | _ => snd a + ask (fst a) o i end)) ops (rates, 0)).
(** all the events, as one list *)
Definition stock (sets : list src) : list (list Qc) := List.concat (map sEvs sets).
Definition given (outs : list dset) : list (list Qc) := List.concat (map events_of outs).
(** int holds every index *)
Definition sized (sets : list src) : Prop := Forall (fun s => Z.of_nat (List.length (sEvs s)) <= 2 ^ 31) sets.
(** all events have the same number m > 0 of observables *)
Definition regular (m : nat) (sets : list src) : Prop := (0 < m)%nat /\ Forall (fun e => List.length e = m) (stock sets).
(** no cuts at any time *)
Definition nocuts (g : gen) (ops : list gop) : Prop := gCuts g = [] /\ Forall (fun o => match o with GCuts cs => cs = [] | _ => True end) ops.
(** rates are always one per data set *)
Definition rated (g : gen) (ops : list gop) : Prop :=
  List.length (gRates g) = List.length (gSets g) /\ Forall (fun o => match o with GRates l => List.length l = List.length (gSets g) | _ => True end) ops.
(** the events remaining in every data set, as AllRemainingEvents returns them *)
Definition remaining (g : gen) (l : list dset) : Prop :=
  List.length l = List.length (gSets g) /\ forall i d, nth_error l i = Some d -> fst (g_remaining g i) = Ok d.
(** one data set [s], drawn sequentially, nothing drawn yet *)
Definition one_sequential (g : gen) (s : src) : Prop :=
  gSets g = [s] /\ (exists sl, gSlots g = [sl] /\ fst sl = []) /\ (exists b, gBoot g = false :: b) /\ (exists b, gSeq g = true :: b).
(** the order in which N events come: N-1, N-2, ..., 1 and then 1 once more (0 when N = 1) *)
Definition seq_order (N : nat) : list nat := match N with 0%nat => [] | 1%nat => [0%nat] | _ => rev (seq 1 (N - 1)) ++ [1%nat] end.
Definition pick (s : src) (l : list nat) : list (list Qc) := map (fun i => nth i (sEvs s) []) l.
(** one data set [s], drawn with replacement, nothing drawn yet *)
Definition one_replacing (g : gen) (s : src) : Prop :=
  gSets g = [s] /\ (exists sl, gSlots g = [sl] /\ fst sl = []) /\ (exists b, gBoot g = true :: b).
(** the rates after a history, and one more call *)
Definition rates_end (rates : list Qc) (ops : list gop) : list Qc := fold_left (fun r o => match o with GRates l => l | _ => r end) ops rates.
Definition is_call (o : gop) : Prop := match o with GExp _ | GPois _ _ => True | _ => False end.
Definition call (g : gen) (o : gop) : gen * res (dset * list Z) :=
  match o with GExp u => g_expected g u | GPois p u => g_poisson g p u | _ => (g, Throw OXSXException) end.
