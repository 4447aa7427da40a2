(** C87 *)
From Coq Require Import ZArith.
From Verif Require Import Base.Res Base.Num Base.SMap Model.Axis Model.Event Model.Root Spec.CutSpec Spec.RootSpec Proofs.RootP.
Local Open Scope res_scope.

Theorem C87_ntuple_partial (f : rfile) (name : string) (t : ttree) : holds f name (RNtuple t) -> one_leaf t -> countable t ->
  exists d, rn_open f name = Ok d /\ tr_entries (rnTree d) = trEntries t /\ rnNames d = map brName (trBranches t) /\
    (forall i, (0 <= i < trEntries t)%Z -> rn_get d i = Ok (mkEvent (row t i) (Some (map brName (trBranches t))))) /\
    (forall i, (trEntries t <= i)%Z -> rn_get d i = Throw NotFoundError).
Proof. exact (ntuple_pkg f name t). Qed.
Print Assumptions C87_ntuple_partial.
Theorem C87_tree_partial (f : rfile) (name : string) (t : ttree) : holds f name (RTree t) \/ holds f name (RNtuple t) -> ordinary t -> countable t ->
  exists d, rt_open f name = Ok d /\ tr_entries (rtTree d) = trEntries t /\ rtNames d = map brName (trBranches t) /\
    (forall i, (0 <= i < trEntries t)%Z -> rt_get d i = Ok (mkEvent (row t i) (Some (map brName (trBranches t))))) /\
    (forall i, (trEntries t <= i)%Z -> rt_get d i = Throw NotFoundError).
Proof. exact (tree_pkg f name t). Qed.
Print Assumptions C87_tree_partial.
(** the observable called after a branch has that branch's value *)
Theorem C87_value_by_name (t : ttree) (i : Z) (b : branch) (l : leaf) : ordinary t -> In b (trBranches t) -> brLeaves b = [l] ->
  has_value (mkEvent (row t i) (Some (map brName (trBranches t)))) (brName b) (lfVal l i).
Proof. exact (row_value t i b l). Qed.
Print Assumptions C87_value_by_name.
Theorem C87_open_errors (f : rfile) (name : string) :
  ((forall t, ~ holds f name (RNtuple t)) -> rn_open f name = Throw IOError) /\
  ((forall t, ~ holds f name (RNtuple t) /\ ~ holds f name (RTree t)) -> rt_open f name = Throw IOError).
Proof. exact (open_errors f name). Qed.
Print Assumptions C87_open_errors.
(** the leaf is looked up by the branch's name: a leaf called differently is not found and its null pointer used ... *)
Theorem C87_leaf_name_refuted : exists t d, one_leaf t /\ countable t /\ NoDup (map brName (trBranches t)) /\ rt_open (Some [("T"%string, RTree t)]) "T" = Ok d /\
  (0 < trEntries t)%Z /\ rt_get d 0 = UB.
Proof.
  exists (mkTree 1 [mkBranch "energy" [mkLeaf "e" (fun _ => 0%Qc)]]). eexists. split; [repeat constructor; eexists; reflexivity|].
  split; [split; [discriminate|reflexivity]|]. split; [repeat constructor; cbn; tauto|]. split; [reflexivity|]. split; reflexivity.
Qed.
Print Assumptions C87_leaf_name_refuted.
(** ... and where another branch has a leaf of that name, its values are returned *)
Theorem C87_other_leaf_refuted : exists t d e, one_leaf t /\ countable t /\ NoDup (map brName (trBranches t)) /\ rt_open (Some [("T"%string, RTree t)]) "T" = Ok d /\
  (0 < trEntries t)%Z /\ rt_get d 0 = Ok e /\ evObs e = [qz 2; qz 1] /\ row t 0 = [qz 1; qz 2].
Proof.
  exists (mkTree 1 [mkBranch "a" [mkLeaf "b" (fun _ => qz 1)]; mkBranch "b" [mkLeaf "a" (fun _ => qz 2)]]). eexists. eexists.
  split; [repeat constructor; eexists; reflexivity|]. split; [split; [discriminate|reflexivity]|]. split; [repeat constructor; cbn; intuition discriminate|]. split; [reflexivity|].
  split; [reflexivity|]. split; [reflexivity|]. split; reflexivity.
Qed.
Print Assumptions C87_other_leaf_refuted.
(** the number of entries is kept in 32 bits: 2^32 entries look like none *)
Theorem C87_count_refuted : exists t d, ordinary t /\ (0 < trEntries t)%Z /\ rn_open (Some [("T"%string, RNtuple t)]) "T" = Ok d /\
  tr_entries (rnTree d) = 0%Z /\ rn_get d 0 = Throw NotFoundError.
Proof.
  exists (mkTree (2 ^ 32) [mkBranch "a" [mkLeaf "a" (fun _ => qz 1)]]). eexists. split; [|repeat split].
  split; [repeat constructor; cbn; tauto|]. split; [repeat constructor; eexists; split; reflexivity|]. intros b c [<-|[]] [<-|[]]. discriminate.
Qed.
Print Assumptions C87_count_refuted.

Definition ex_tree : ttree := mkTree 3 [mkBranch "energy" [mkLeaf "energy" (fun i => qz i)]; mkBranch "radius" [mkLeaf "radius" (fun i => qz (10 + i))]].
Example C87_nonvacuous : ordinary ex_tree /\ one_leaf ex_tree /\ countable ex_tree /\ holds (Some [("T"%string, RTree ex_tree)]) "T" (RTree ex_tree) /\
  holds (Some [("T"%string, RNtuple ex_tree)]) "T" (RNtuple ex_tree) /\
  (do d <- rt_open (Some [("T"%string, RNtuple ex_tree)]) "T"; rmap evObs (rt_get d 2)) = Ok [qz 2; qz 12] /\
  (forall t, ~ holds (Some [("T"%string, RTree ex_tree)]) "T" (RNtuple t)) /\ (forall t, ~ holds None "T" (RTree t)).
Proof.
  split; [|split; [repeat constructor; eexists; reflexivity|split; [split; [discriminate|reflexivity]|]]].
  - split; [repeat constructor; cbn; intuition discriminate|]. split; [repeat constructor; eexists; split; reflexivity|].
    intros b c [<-|[<-|[]]] [<-|[<-|[]]]; discriminate.
  - split; [eexists; split; reflexivity|]. split; [eexists; split; reflexivity|]. split; [reflexivity|]. split.
    + intros t (d & E & F). injection E as <-. discriminate F.
    + intros t (d & E & F). discriminate E.
Qed.
