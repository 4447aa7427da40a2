(** Constraints: C33, C34, C35. *)
From Coq Require Import ZArith.
From Verif Require Import Base.Res Base.Num Base.SMap Model.Axis Model.Hist Model.Constraint Spec.AxisSpec Spec.HistSpec Spec.ConstraintSpec
  Proofs.AxisP Proofs.ConstraintP Proofs.ConstraintP2 Proofs.InterpP Props.AxisProps Props.HistProps.
Import ListNotations.
Local Open Scope Qc_scope.

(** C33 *)
Theorem C33_constrained_one_way : forall ops, let s := crun ops in
  (forall n, ~ (has_single s n /\ in_pair s n)) /\
  (forall p q n, has_pair s p -> has_pair s q -> (fst p = n \/ snd p = n) -> (fst q = n \/ snd q = n) -> p = q) /\
  (forall p b b', pair_is s p b -> pair_is s p b' -> b = b').
Proof. exact exclusive_pkg. Qed.
Print Assumptions C33_constrained_one_way.
Theorem C33_rejected_unchanged : forall ops o, let s := crun ops in let (s', r) := ccall s o in r <> Ok tt -> s' = s.
Proof. exact rejected_pkg. Qed.
Print Assumptions C33_rejected_unchanged.
Theorem C33_single_call : forall ops o n q, let s := crun ops in
  (exists m w, o = CSym n m w /\ q = mk_quad m w) \/ (exists m hi lo, o = CAsym n m hi lo /\ q = mk_quad_asym m hi lo) ->
  let (s', r) := ccall s o in
  (in_pair s n -> r = Throw LogicError) /\
  (~ in_pair s n -> r = Ok tt /\ single_is s' n q /\ (forall m, m <> n -> forall q', single_is s' m q' <-> single_is s m q') /\
      (forall p b, pair_is s' p b <-> pair_is s p b)).
Proof. exact single_pkg. Qed.
Print Assumptions C33_single_call.
Theorem C33_pair_call : forall ops n1 m1 s1 n2 m2 s2 c, let s := crun ops in
  let busy := has_single s n1 \/ in_pair s n1 \/ has_single s n2 \/ in_pair s n2 in
  let (s', r) := set_pair s n1 m1 s1 n2 m2 s2 c in
  (busy -> ~ has_pair s (n1, n2) -> r = Throw LogicError) /\
  (c = 1 -> ~ busy \/ has_pair s (n1, n2) -> r = Throw ValueError) /\
  (c <> 1 -> ~ busy \/ has_pair s (n1, n2) -> r = Ok tt /\ pair_is s' (n1, n2) (mkBiv m1 s1 m2 s2 c) /\
     (forall p b, p <> (n1, n2) -> (pair_is s' p b <-> pair_is s p b)) /\ forall n q, single_is s' n q <-> single_is s n q).
Proof. exact pair_pkg. Qed.
Print Assumptions C33_pair_call.
Theorem C33_evaluate_is_the_sum : forall s d v1 v2 v3 v4 v5 v6,
  Forall2 (single_value d) (cInd s) v1 -> Forall2 (pair_value biv_eval d) (cPair s) v2 ->
  Forall2 (pair_value (fun c => ratio_eval (fst c) (snd c)) d) (cRatio s) v3 ->
  Forall2 (pair_value (fun c => frac_eval (fst c) (snd c)) d) (cFrac s) v4 ->
  Forall2 (fun kc v => interp_eval (snd kc) d = Ok v) (cInterp s) v5 ->
  Forall2 (fun kc v => shape_eval (fst (fst (snd kc))) (snd (fst (snd kc))) (snd (snd kc)) d = Ok v) (cShape s) v6 ->
  cman_eval s d = Ok (qsum v1 + qsum v2 + qsum v3 + qsum v4 + qsum v5 + qsum v6).
Proof. exact eval_sum_pkg. Qed.
Print Assumptions C33_evaluate_is_the_sum.
Theorem C33_evaluate_without_constraints : forall d, cman_eval (crun []) d = Ok 0.
Proof. reflexivity. Qed.
Print Assumptions C33_evaluate_without_constraints.
Theorem C33_missing_parameter : forall s d n, cInterp s = [] -> cShape s = [] -> sfind n d = None ->
  In n (skeys (cInd s)) \/ In n (map (fun kc => fst (fst kc)) (cPair s)) \/ In n (map (fun kc => snd (fst kc)) (cPair s)) \/
  In n (map (fun kc => fst (fst kc)) (cRatio s)) \/ In n (map (fun kc => snd (fst kc)) (cRatio s)) \/
  In n (map (fun kc => fst (fst kc)) (cFrac s)) \/ In n (map (fun kc => snd (fst kc)) (cFrac s)) ->
  cman_eval s d = Throw std_out_of_range.
Proof. exact missing_pkg. Qed.
Print Assumptions C33_missing_parameter.
Definition ex_cops := [CSym "a" (qz 1) (qz 2); CCorr "b" 0 1 "c" 0 1 (qq 1 2); CSym "b" 0 1; CCorr "a" 0 1 "d" 0 1 0; CRat "a" "b" 1 1]%string.
Example C33_nonvacuous : has_single (crun ex_cops) "a" /\ in_pair (crun ex_cops) "b" /\ snd (ccall (crun ex_cops) (CSym "b" 0 1)) = Throw LogicError /\
  snd (ccall (crun ex_cops) (CCorr "d" 0 1 "c" 0 1 0)) = Throw LogicError /\ snd (ccall (crun ex_cops) (CCorr "b" 0 1 "c" 1 1 1)) = Throw ValueError /\
  snd (ccall (crun ex_cops) (CCorr "b" 0 1 "c" 1 1 0)) = Ok tt /\ snd (ccall (crun ex_cops) (CSym "a" 0 1)) = Ok tt /\
  cman_eval (crun ex_cops) (sof [("a", qz 3); ("b", qz 1); ("c", 0)]%string) = Ok (qq 1 2 + qq 2 3 + qz 2) /\
  cman_eval (crun ex_cops) (sof [("a", qz 3); ("b", qz 1)]%string) = Throw std_out_of_range.
Proof.
  split; [eexists; reflexivity|]. split; [exists ("b", "c")%string; split; [eexists; left; reflexivity|now left]|].
  repeat split; reflexivity.
Qed.

(** after any history, from the calls alone: which calls are accepted, and Evaluate is the sum of the penalties asked for by the
    accepted calls that no later accepted call replaced *)
Theorem C33_acceptance : forall ops o, snd (ccall (crun ops) o) = Ok tt <-> allowed (accepted_calls ops) o = true.
Proof. exact accepted_pkg. Qed.
Print Assumptions C33_acceptance.
Theorem C33_value_of_history : forall ops d vs, Forall2 (asks_for d) (in_force (accepted_calls ops)) vs -> cman_eval (crun ops) d = Ok (qsum vs).
Proof. exact history_pkg. Qed.
Print Assumptions C33_value_of_history.
Definition ex_hops := [CSym "a" 1 (qz 5); CShp [] (fun d => match sfind "a" d with Some x => Ok x | None => Throw LogicError end) 0 1; CCorr "b" 0 1 "c" 0 1 (qq 1 2);
  CAsym "b" 0 1 1; CSym "a" (qz 1) (qz 2); CInt "g" ex_h1; CRat "a" "b" 1 1; CShp (sof [("x", 1)]) (fun _ => Ok 1) 0 1]%string.
Example C33_history_nonvacuous : let d := sof [("a", qz 3); ("b", qz 1); ("c", 0); ("e", qz 4)]%string in
  in_force (accepted_calls ex_hops) = [nth 1 ex_hops (CSym "" 0 0); nth 2 ex_hops (CSym "" 0 0); nth 4 ex_hops (CSym "" 0 0); nth 5 ex_hops (CSym "" 0 0); nth 6 ex_hops (CSym "" 0 0); nth 7 ex_hops (CSym "" 0 0)] /\
  exists vs, Forall2 (asks_for d) (in_force (accepted_calls ex_hops)) vs.
Proof.
  cbv zeta. assert (E : in_force (accepted_calls ex_hops) = [nth 1 ex_hops (CSym "" 0 0); nth 2 ex_hops (CSym "" 0 0); nth 4 ex_hops (CSym "" 0 0); nth 5 ex_hops (CSym "" 0 0); nth 6 ex_hops (CSym "" 0 0); nth 7 ex_hops (CSym "" 0 0)]) by reflexivity.
  split; [exact E|]. rewrite E. cbn [nth ex_hops]. eexists.
  apply Forall2_cons; [split; [discriminate|eexists; split; reflexivity]|].
  apply Forall2_cons; [split; [discriminate|split; [discriminate|split; [discriminate|do 2 eexists; repeat split; reflexivity]]]|].
  apply Forall2_cons; [split; [discriminate|eexists; split; reflexivity]|].
  apply Forall2_cons; [vm_compute; reflexivity|].
  apply Forall2_cons; [split; [discriminate|do 2 eexists; repeat split; reflexivity]|].
  apply Forall2_cons; [split; [discriminate|eexists; split; reflexivity]|]. constructor.
Qed.

(** C34 *)
Theorem C34_quadratic : forall m w x, w <> 0 ->
  quad_eval (mk_quad m w) x = Ok (gauss_penalty x m w) /\ 0 <= gauss_penalty x m w /\ (gauss_penalty x m w = 0 <-> x = m).
Proof. exact quad_pkg. Qed.
Print Assumptions C34_quadratic.
Theorem C34_asymmetric : forall m hi lo x, hi <> 0 -> lo <> 0 ->
  (m <= x -> quad_eval (mk_quad_asym m hi lo) x = Ok (gauss_penalty x m hi)) /\
  (x < m -> quad_eval (mk_quad_asym m hi lo) x = Ok (gauss_penalty x m lo)) /\
  (exists v, quad_eval (mk_quad_asym m hi lo) x = Ok v /\ 0 <= v /\ (v = 0 <-> x = m)).
Proof. exact asym_pkg. Qed.
Print Assumptions C34_asymmetric.
(** the ratio constraint vanishes at its nominal ratio unless the denominator is closer to 0 than 1e-8 *)
Theorem C34_ratio_partial : forall m w x y, w <> 0 ->
  (ratio_eps <= qabs y -> exists v, ratio_eval m w x y = Ok v /\ v = gauss_penalty (x / y) m w /\ 0 <= v /\ (v = 0 <-> x = m * y)) /\
  (qabs y < ratio_eps -> exists v, ratio_eval m w x y = Ok v /\ v = gauss_penalty (x / ratio_eps) m w /\ 0 <= v).
Proof. exact ratio_pkg. Qed.
Print Assumptions C34_ratio_partial.
Theorem C34_fractional : forall m w x y, w <> 0 -> x + y <> 0 ->
  exists v, frac_eval m w x y = Ok v /\ v = gauss_penalty ((x - y) / (x + y)) m w /\ 0 <= v /\ (v = 0 <-> (x - y) / (x + y) = m).
Proof. exact frac_pkg. Qed.
Print Assumptions C34_fractional.
Theorem C34_shape : forall f m w d, w <> 0 ->
  (forall x, f d = Ok x -> shape_eval f m w d = Ok (gauss_penalty x m w)) /\ (forall e, f d = Throw e -> shape_eval f m w d = Throw e).
Proof. exact shape_pkg. Qed.
Print Assumptions C34_shape.
Theorem C34_bivariate_partial : forall m1 s1 m2 s2 c x y, s1 <> 0 -> s2 <> 0 -> -(1) < c -> c < 1 ->
  let a := (x - m1) / s1 in let b := (y - m2) / s2 in
  exists p v, mk_biv m1 s1 m2 s2 c = Ok p /\ biv_eval p x y = Ok v /\
    v = (a * a - qz 2 * c * a * b + b * b) / (qz 2 * (1 - c * c)) /\ 0 <= v /\ (v = 0 <-> x = m1 /\ y = m2).
Proof. exact biv_pkg. Qed.
Print Assumptions C34_bivariate_partial.
Theorem C34_bivariate_uncorrelated : forall m1 s1 m2 s2 x y, s1 <> 0 -> s2 <> 0 ->
  biv_eval (mkBiv m1 s1 m2 s2 0) x y = Ok (gauss_penalty x m1 s1 + gauss_penalty y m2 s2).
Proof. exact biv_zero_corr_pkg. Qed.
Print Assumptions C34_bivariate_uncorrelated.
(** accepted although invalid: correlation 2 (negative penalty), correlation -1 and width 0 (not finite);
    a tiny denominator at the nominal ratio is penalised *)
Theorem C34_invalid_parameters_refuted :
  (exists m1 s1 m2 s2 c b x y v, mk_biv m1 s1 m2 s2 c = Ok b /\ biv_eval b x y = Ok v /\ v < 0) /\
  (exists m1 s1 m2 s2 c b, mk_biv m1 s1 m2 s2 c = Ok b /\ c = -(1) /\ forall x y, biv_eval b x y = NonFinite) /\
  (forall m x, quad_eval (mk_quad m 0) x = NonFinite) /\
  (exists m w x y v, w <> 0 /\ x = m * y /\ y <> 0 /\ ratio_eval m w x y = Ok v /\ 0 < v).
Proof. exact invalid_accepted_witness. Qed.
Print Assumptions C34_invalid_parameters_refuted.
Example C34_nonvacuous : quad_eval (mk_quad_asym (qz 1) (qz 2) (qz 3)) (qz 4) = Ok (qq 9 8) /\
  quad_eval (mk_quad_asym (qz 1) (qz 2) (qz 3)) (qz (-2)) = Ok (qq 1 2) /\ ratio_eps <= qabs (qz 2) /\ -(1) < qq 1 2 /\ qq 1 2 < 1.
Proof. repeat split; try reflexivity; try discriminate; vm_compute; f_equal; apply Qc_is_canon; reflexivity. Qed.

(** C35: inside the outermost bin centres *)
Theorem C35_interpolation_partial : forall h ks xs d, h_reach h -> let axs := acAxes (hAxes h) in
  List.length ks = List.length axs -> Forall2 (fun p x => brackets (fst p) (snd p) x) (combine axs ks) xs ->
  Forall contiguous axs -> (List.length axs <= 20)%nat -> (Z.of_nat (hNBins h) < 2 ^ 64)%Z ->
  Forall2 (fun name x => sfind name d = Some x) (names_of h) xs ->
  exists v, interp_eval h d = Ok v /\ v = multilinear axs ks xs (cont_at h) /\
    (forall lo hi, (forall c, In c (corners ks) -> lo <= cont_at h c /\ cont_at h c <= hi) -> lo <= v /\ v <= hi) /\
    (Forall2 (fun p x => x = centre_of (fst p) (snd p)) (combine axs ks) xs -> v = cont_at h ks).
Proof. exact interp_pkg. Qed.
Print Assumptions C35_interpolation_partial.
Theorem C35_missing_parameter : forall h d n, h_reach h -> In n (names_of h) -> sfind n d = None -> interp_eval h d = Throw NotFoundError.
Proof. exact interp_missing_pkg. Qed.
Print Assumptions C35_missing_parameter.
Definition ex_ac2 := fst (addAxes ac_empty [ex_axis "x" 0 4 4; ex_axis "y" 0 3 3]).
Lemma ex_ac2_reach : ac_reach ex_ac2.
Proof. apply ar_adds; [constructor|]. repeat constructor; apply ex_axis_built; lia. Qed.
Definition ex_h2 := fst (setBinContent (mk_hist ex_ac2) 8 (qz 100)).
Lemma ex_h2_reach : h_reach ex_h2.
Proof. apply hr_setBin, hr_new; [exact ex_ac2_reach|discriminate]. Qed.
(** at the centre of the last bin of a 1-D table the read is out of bounds; below the first centre of a
    2-D table a bin at the other end of the neighbouring row is used: here every bin within a bin of the
    point is empty, and the answer is -25/2 *)
Theorem C35_border_refuted :
  (exists h x, h_reach h /\ names_of h = ["x"%string] /\ x = centre_of (nth 0 (acAxes (hAxes h)) axis0) (aNBins (nth 0 (acAxes (hAxes h)) axis0) - 1) /\
     interp_eval h [("x"%string, x)] = UB) /\
  (interp_eval ex_h2 [("x"%string, qq 5 2); ("y"%string, qq 1 4)] = Ok (qq (-25) 2) /\ h_reach ex_h2 /\
     ac_findBin (hAxes ex_h2) [qq 5 2; qq 1 4] = Ok 6%nat /\ forall i j, (j <= 1)%nat -> (i < 4)%nat -> cont_at ex_h2 [i; j] = 0).
Proof.
  split.
  - exists (mk_hist (fst (addAxes ac_empty [ex_axis "x" 0 4 4]))), (qq 7 2). split; [|split; [reflexivity|split]].
    + apply hr_new; [|discriminate]. apply ar_adds; [constructor|]. repeat constructor; apply ex_axis_built; lia.
    + apply Qc_is_canon. reflexivity.
    + vm_compute. reflexivity.
  - split; [vm_compute; f_equal; apply Qc_is_canon; reflexivity|]. split; [exact ex_h2_reach|]. split; [vm_compute; reflexivity|].
    intros i j Hj Hi. destruct j as [|[|j]]; [| |lia]; (destruct i as [|[|[|[|i]]]]; [| | | |lia]); reflexivity.
Qed.
Print Assumptions C35_border_refuted.
Example C35_nonvacuous : let axs := acAxes (hAxes ex_h2) in h_reach ex_h2 /\ Forall contiguous axs /\ Forall2 (fun p x => brackets (fst p) (snd p) x) (combine axs [1; 1]%nat) [qq 7 4; qz 2] /\
  Forall2 (fun name x => sfind name (sof [("y", qz 2); ("x", qq 7 4)]%string) = Some x) (names_of ex_h2) [qq 7 4; qz 2] /\
  interp_eval ex_h2 (sof [("y", qz 2); ("x", qq 7 4)]%string) = Ok (qq 25 2).
Proof.
  cbv zeta. split; [exact ex_h2_reach|]. split; [|split; [|split]].
  - repeat constructor; intros [|[|[|[|i]]]] Hi; vm_compute in Hi |- *; try reflexivity; lia.
  - repeat constructor; vm_compute; congruence.
  - repeat constructor.
  - vm_compute. f_equal; apply Qc_is_canon; reflexivity.
Qed.
