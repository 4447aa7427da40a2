(** C43: GridSearch::Optimise (src/optimise/GridSearch.cpp). *)
From Coq Require Import ZArith.
From Verif Require Import Base.Res Base.Num Base.SMap Model.Rand Model.Grid Spec.GridSpec Proofs.GridP4.
From Coq Require Import Lia.
Local Open Scope nat_scope.

(** With 2m parameters the search ends, evaluates no point twice, and evaluates exactly the grid points in which only the first m+1 parameters
    (in alphabetical order) move, except the point with all parameters at their minimum; unless a value is exactly zero it reports the best of them.
    For two parameters (m = 1) this is the whole grid without that corner.  Missing for the full statement: the corner, other numbers of parameters,
    values equal to zero, and the sign of the value reported when maximising (all refuted below). *)
Theorem C43_even_partial g f m : well_set g -> List.length (grMin g) = 2 * m -> (forall p, on_grid g p -> exists v, f p = Ok v) ->
  exists r, ends g f (Ok r) /\ NoDup (grSeen r) /\
    (forall p, In p (grSeen r) <-> on_grid g p /\ p <> grMin g /\ forall k, In k (skipn (m + 1) (skeys (grMin g))) -> val p k = val (grMin g) k) /\
    (grSeen r <> [] -> (forall p, In p (grSeen r) -> f p <> Ok (Q2Qc 0)) ->
       In (grBest r) (grSeen r) /\ (exists e, f (grBest r) = Ok e /\ grVal r = score g e) /\ forall p e, In p (grSeen r) -> f p = Ok e -> (grVal r <= score g e)%Qc).
Proof. exact (even_pkg g f m). Qed.
Print Assumptions C43_even_partial.
(** an odd number of parameters: the iterator runs past the end of the parameters *)
Theorem C43_odd_refuted g f m : well_set g -> List.length (grMin g) = 2 * m + 1 -> (forall p, on_grid g p -> exists v, f p = Ok v) -> ends g f UB.
Proof. exact (odd_pkg g f m). Qed.
Print Assumptions C43_odd_refuted.
(** the corner, and with four or more parameters every point with a later parameter off its minimum, is never evaluated *)
Theorem C43_missed_points_refuted g f m r p k : well_set g -> List.length (grMin g) = 2 * m -> (forall p, on_grid g p -> exists v, f p = Ok v) -> ends g f (Ok r) ->
  p = grMin g \/ In k (skipn (m + 1) (skeys (grMin g))) /\ val p k <> val (grMin g) k -> ~ In p (grSeen r).
Proof. exact (later_pkg g f m r p k). Qed.
Print Assumptions C43_missed_points_refuted.
Theorem C43_single_point_refuted g f : swf (grMin g) -> grMax g = grMin g -> skeys (grStep g) = skeys (grMin g) -> grMin g <> [] -> (forall k, In k (skeys (grMin g)) -> val (grStep g) k <> Q2Qc 0) ->
  ends g f (Ok (mkGres sempty 0 [])).
Proof. exact (single_pkg g f). Qed.
Print Assumptions C43_single_point_refuted.
Theorem C43_negative_step_never_returns g f k t : swf (grMin g) -> skeys (grMin g) = k :: t -> (val (grStep g) k < 0)%Qc -> (val (grMin g) k <= val (grMax g) k)%Qc -> grMin g <> grMax g ->
  forall fuel r, gOptimise g f fuel <> Ok r.
Proof. exact (negative_pkg g f k t). Qed.
Print Assumptions C43_negative_step_never_returns.
(** dictionaries with different parameters are rejected *)
Theorem C43_mismatch g f fuel : skeys (grStep g) <> skeys (grMax g) \/ skeys (grStep g) <> skeys (grMin g) -> gOptimise g f fuel = Throw LogicError.
Proof. exact (keys_pkg g f fuel). Qed.
Print Assumptions C43_mismatch.

(** two parameters, each 0 or 1 *)
Definition ex_dict (x y : Z) : smap Qc := [("a"%string, qz x); ("b"%string, qz y)].
Definition ex_grid (mx : bool) : grid := mkGrid (ex_dict 0 0) (ex_dict 1 1) (ex_dict 1 1) mx.
Definition ex_sum (c : Z) (p : smap Qc) : res Qc := Ok (qz c + val p "a" + val p "b")%Qc.
Lemma ex_grid_set mx : well_set (ex_grid mx).
Proof.
  assert (W : forall x y, swf (ex_dict x y)) by (intros; unfold swf; cbn; repeat constructor).
  repeat (split; [first [apply W | reflexivity | discriminate]|]).
  intros k [<-|[<-|[]]]; (split; [vm_compute; reflexivity|]; split; [vm_compute; discriminate|vm_compute; reflexivity]).
Qed.
Example C43_nonvacuous : well_set (ex_grid false) /\ List.length (grMin (ex_grid false)) = 2 * 1 /\ (forall p, on_grid (ex_grid false) p -> exists v, ex_sum 1 p = Ok v) /\
  rmap (fun r => (map (map (fun kv => (fst kv, this (snd kv)))) (grSeen r), this (grVal r))) (gOptimise (ex_grid false) (ex_sum 1) 9) =
    Ok (map (map (fun kv => (fst kv, this (snd kv)))) [ex_dict 1 0; ex_dict 0 1; ex_dict 1 1], this (qz 2)).
Proof. split; [apply ex_grid_set|]. split; [reflexivity|]. split; [intros p _; eexists; reflexivity|vm_compute; reflexivity]. Qed.
(** so the minimum of 1 + a + b, at the corner, is not found *)
Theorem C43_corner_refuted : exists g f r p e, well_set g /\ ends g f (Ok r) /\ on_grid g p /\ f p = Ok e /\ (e < grVal r)%Qc.
Proof.
  destruct (C43_even_partial (ex_grid false) (ex_sum 1) 1 (ex_grid_set _) eq_refl) as [r [E _]]; [intros p _; eexists; reflexivity|].
  exists (ex_grid false), (ex_sum 1), r, (ex_dict 0 0), (qz 1). split; [apply ex_grid_set|]. split; [exact E|]. split.
  - split; [reflexivity|]. intros k [<-|[<-|[]]]; (split; [vm_compute; discriminate|exists 0; apply Qc_is_canon; vm_compute; reflexivity]).
  - split; [unfold ex_sum; f_equal; apply Qc_is_canon; vm_compute; reflexivity|]. destruct E as [n E]. specialize (E (n + 4) ltac:(lia)).
    assert (X : rmap (fun r => this (grVal r)) (gOptimise (ex_grid false) (ex_sum 1) (4 + n)) = Ok (this (qz 2))) by (vm_compute; reflexivity).
    rewrite Nat.add_comm in X. rewrite E in X. cbn in X. injection X as X. unfold Qclt. rewrite X. vm_compute. reflexivity.
Qed.
Print Assumptions C43_corner_refuted.
(** an evaluated value of exactly zero is forgotten: a statistic with values 0, 1, 2 at the evaluated points reports 1 *)
Theorem C43_zero_refuted : exists g f r p e, well_set g /\ ends g f (Ok r) /\ In p (grSeen r) /\ f p = Ok e /\ (e < grVal r)%Qc.
Proof.
  pose (f := fun p : smap Qc => Ok (val p "b" + (val p "b" * val p "a"))%Qc).
  destruct (C43_even_partial (ex_grid false) f 1 (ex_grid_set _) eq_refl) as [r [E _]]; [intros p _; eexists; reflexivity|].
  exists (ex_grid false), f, r, (ex_dict 1 0), 0%Qc. split; [apply ex_grid_set|]. split; [exact E|]. destruct E as [n E]. specialize (E (n + 4) ltac:(lia)).
  assert (X : rmap (fun r => this (grVal r)) (gOptimise (ex_grid false) f (4 + n)) = Ok (this (qz 1))) by (vm_compute; reflexivity).
  assert (Y : rmap (fun r => map (map (fun kv => (fst kv, this (snd kv)))) (firstn 1 (grSeen r))) (gOptimise (ex_grid false) f (4 + n)) = Ok (map (map (fun kv => (fst kv, this (snd kv)))) [ex_dict 1 0])) by (vm_compute; reflexivity).
  rewrite Nat.add_comm in X, Y. rewrite E in X, Y. cbn in X, Y. injection X as X. split.
  - destruct (grSeen r) as [|p l]; [discriminate|]. left. cbn in Y. injection Y as Y. destruct p as [|[k1 x1] [|[k2 x2] [|? ?]]]; try discriminate. cbn in Y. injection Y as -> Y1 -> Y2. unfold ex_dict. repeat f_equal; apply Qc_is_canon; [rewrite Y1|rewrite Y2]; reflexivity.
  - split; [unfold f; f_equal; apply Qc_is_canon; vm_compute; reflexivity|]. unfold Qclt. rewrite X. vm_compute. reflexivity.
Qed.
Print Assumptions C43_zero_refuted.
(** when maximising the value reported is the negative of the statistic at the best point *)
Theorem C43_maximum_sign_refuted : exists g f r e, grMaximise g = true /\ well_set g /\ ends g f (Ok r) /\ f (grBest r) = Ok e /\ grVal r <> e.
Proof.
  destruct (C43_even_partial (ex_grid true) (ex_sum 1) 1 (ex_grid_set _) eq_refl) as [r [E [_ [C B]]]]; [intros p _; eexists; reflexivity|].
  destruct E as [n E]. pose proof E as E'. specialize (E (n + 4) ltac:(lia)).
  assert (X : rmap (fun r => this (grVal r)) (gOptimise (ex_grid true) (ex_sum 1) (4 + n)) = Ok (this (qz (-3)))) by (vm_compute; reflexivity).
  rewrite Nat.add_comm in X. rewrite E in X. cbn in X. injection X as X.
  exists (ex_grid true), (ex_sum 1), r. eexists. split; [reflexivity|]. split; [apply ex_grid_set|]. split; [exists n; exact E'|]. split; [reflexivity|].
  assert (Y : rmap (fun r => match ex_sum 1 (grBest r) with Ok x => this x | _ => 0%Q end) (gOptimise (ex_grid true) (ex_sum 1) (4 + n)) = Ok (this (qz 3))) by (vm_compute; reflexivity).
  rewrite Nat.add_comm in Y. rewrite E in Y. unfold rmap, bind, ex_sum in Y. apply (f_equal (fun x => match x with Ok q => q | _ => 0%Q end)) in Y. intros C2. rewrite C2 in X. rewrite X in Y. discriminate Y.
Qed.
Print Assumptions C43_maximum_sign_refuted.
