(** C37, C38, C39, C71: DataSetGenerator (src/data/DataSetGenerator.cpp). *)
From Coq Require Import ZArith Permutation.
From Verif Require Import Base.Res Base.Num Base.SMap Model.Axis Model.Event Model.Cut Model.Hist Model.Shrink Model.Data Model.Rand Model.Gen Spec.GenSpec
  Proofs.GenP Proofs.GenP2 Proofs.GenP3 Proofs.GenP4 Proofs.GenP5 Proofs.GenP6 Proofs.GenP7 Proofs.GenP8.
From Coq Require Import Lia.
Local Open Scope Z_scope.

(** Concrete generators: one data set with three events of one observable. *)
Definition ex_src : src := mkSrc ["x"%string] [[qz 1]; [qz 2]; [qz 3]].
Definition ex_gen (boot sequential : bool) (rate : Z) : gen := g_add (g_setBoot gen_new [boot]) ex_src (qz rate) sequential.
Definition ex_u : nat -> nat -> Qc := fun _ _ => qhalf.
Lemma ex_u_ok : uniform ex_u. Proof. intros i j. split; [vm_compute; discriminate|vm_compute; reflexivity]. Qed.
Lemma ex_fresh b q r : fresh (ex_gen b q r). Proof. split; [reflexivity|repeat constructor]. Qed.
Lemma ex_norep r : random_noreplace (ex_gen false false r). Proof. repeat split; cbn; try lia; repeat constructor. Qed.
Lemma ex_sized : sized [ex_src]. Proof. repeat constructor. vm_compute. discriminate. Qed.
Lemma ex_regular : regular 1 [ex_src]. Proof. split; [lia|]. cbn. repeat constructor. Qed.
Lemma ex_enough b q : enough [ex_src] (gRates (ex_gen b q 1)) (fun _ => 0) [GExp ex_u; GPois (fun _ => 2%nat) ex_u].
Proof.
  cbn. repeat split; destruct i as [|i]; try (destruct i; discriminate); try (vm_compute; congruence).
  - cbn in H. injection H as <-. vm_compute. discriminate.
  - cbn in H. injection H as <-. vm_compute. discriminate.
Qed.

(** C37 *)
Theorem C37_distinct g ops : fresh g -> random_noreplace g -> sized (gSets g) -> Forall op_uniform ops -> enough (gSets g) (gRates g) (fun _ => 0) ops ->
  let outs := snd (grun g ops) in
  (exists rest, Permutation (given outs ++ rest) (stock (gSets g))) /\ (NoDup (stock (gSets g)) -> NoDup (given outs)).
Proof. exact (distinct_pkg g ops). Qed.
Print Assumptions C37_distinct.
Theorem C37_next_call g ops o m : fresh g -> random_noreplace g -> sized (gSets g) -> Forall op_uniform (ops ++ [o]) -> is_call o ->
  enough (gSets g) (gRates g) (fun _ => 0) (ops ++ [o]) -> gSets g <> [] ->
  (List.length (rates_end (gRates g) ops) = List.length (gSets g) -> forall r, snd (call (fst (grun g ops)) o) = r -> (exists p, r = Ok p) \/ (exists x, r = Throw x)) /\
  (nocuts g ops -> rated g ops -> regular m (gSets g) -> exists p, snd (call (fst (grun g ops)) o) = Ok p).
Proof. exact (next_pkg g ops o m). Qed.
Print Assumptions C37_next_call.
Theorem C37_more_than_whole_set_throws g s rest sl slots rates b n o : gSets g = s :: rest -> gSlots g = sl :: slots -> List.length (gRates g) = List.length (gSets g) ->
  gBoot g = false :: b -> gSeq g <> [] -> gRates g = rates -> is_call o -> ask rates o 0 = n -> n < 2 ^ 32 -> Z.of_nat (List.length (sEvs s)) < n ->
  snd (call g o) = Throw NotFoundError.
Proof. exact (too_many_pkg g s rest sl slots rates b n o). Qed.
Print Assumptions C37_more_than_whole_set_throws.
(** "asking for more than remain throws" is false: when all events have been drawn, asking for n <= whole set indexes outside the vector *)
Theorem C37_more_than_remain_refuted g s ops o m : gSets g = [s] -> fresh g -> random_noreplace g -> sized [s] -> regular m [s] -> Forall op_uniform (ops ++ [o]) ->
  nocuts g ops -> rated g ops -> enough [s] (gRates g) (fun _ => 0) ops -> total (gRates g) ops 0 = Z.of_nat (List.length (sEvs s)) -> sEvs s <> [] -> is_call o ->
  1 <= ask (rates_end (gRates g) ops) o 0 <= Z.of_nat (List.length (sEvs s)) -> snd (call (fst (grun g ops)) o) = UB.
Proof. exact (exhausted_pkg g s ops o m). Qed.
Print Assumptions C37_more_than_remain_refuted.
Example C37_nonvacuous : let g := ex_gen false false 1 in let ops := [GExp ex_u; GPois (fun _ => 2%nat) ex_u] in
  fresh g /\ random_noreplace g /\ sized (gSets g) /\ Forall op_uniform ops /\ enough (gSets g) (gRates g) (fun _ => 0) ops /\ NoDup (stock (gSets g)) /\
  nocuts g ops /\ rated g ops /\ regular 1 (gSets g) /\
  map (map this) (given (snd (grun g ops))) = map (map this) [[qz 2]; [qz 1]; [qz 3]] /\ total (gRates g) ops 0 = 3 /\
  snd (call (fst (grun g ops)) (GExp ex_u)) = UB /\ snd (call g (GPois (fun _ => 4%nat) ex_u)) = Throw NotFoundError.
Proof.
  split; [apply ex_fresh|]. split; [apply ex_norep|]. split; [exact ex_sized|]. split; [repeat constructor; apply ex_u_ok|]. split; [apply ex_enough|].
  split; [repeat constructor; cbn; intuition; match goal with H : _ = _ |- _ => apply (f_equal (map this)) in H; vm_compute in H; discriminate end|].
  split; [split; [reflexivity|repeat constructor]|]. split; [split; [reflexivity|repeat constructor]|]. split; [exact ex_regular|]. vm_compute. auto.
Qed.

(** C38 *)
(** the events come in the order N-1, N-2, ..., 1 and then event 1 again, over any sequence of calls since the last Reset *)
Theorem C38_order_partial g s ops m : one_sequential g s -> sized [s] -> regular m [s] -> sEvs s <> [] -> nocuts g ops -> rated g ops ->
  enough [s] (gRates g) (fun _ => 0) ops -> given (snd (grun g ops)) = pick s (firstn (Z.to_nat (total (gRates g) ops 0)) (seq_order (List.length (sEvs s)))).
Proof. exact (sequential_pkg g s ops m). Qed.
Print Assumptions C38_order_partial.
(** so they are distinct as long as fewer than all events are asked for *)
Theorem C38_distinct_partial g s ops m : one_sequential g s -> sized [s] -> regular m [s] -> NoDup (sEvs s) -> nocuts g ops -> rated g ops ->
  enough [s] (gRates g) (fun _ => 0) ops -> total (gRates g) ops 0 < Z.of_nat (List.length (sEvs s)) ->
  NoDup (given (snd (grun g ops))) /\ Z.of_nat (List.length (given (snd (grun g ops)))) = total (gRates g) ops 0.
Proof. exact (seq_distinct_pkg g s ops m). Qed.
Print Assumptions C38_distinct_partial.
(** drawing the whole set returns event 1 twice and never event 0 *)
Theorem C38_whole_set_refuted g s ops m : one_sequential g s -> sized [s] -> regular m [s] -> NoDup (sEvs s) -> (2 <= List.length (sEvs s))%nat -> nocuts g ops -> rated g ops ->
  enough [s] (gRates g) (fun _ => 0) ops -> total (gRates g) ops 0 = Z.of_nat (List.length (sEvs s)) ->
  ~ NoDup (given (snd (grun g ops))) /\ forall x, nth_error (sEvs s) 0 = Some x -> ~ In x (given (snd (grun g ops))).
Proof. exact (seq_whole_pkg g s ops m). Qed.
Print Assumptions C38_whole_set_refuted.
Example C38_nonvacuous : let g := ex_gen false true 1 in let ops := [GExp ex_u; GPois (fun _ => 2%nat) ex_u] in
  one_sequential g ex_src /\ sized [ex_src] /\ regular 1 [ex_src] /\ NoDup (sEvs ex_src) /\ nocuts g ops /\ rated g ops /\ enough [ex_src] (gRates g) (fun _ => 0) ops /\
  total (gRates g) ops 0 = 3 /\ map (map this) (given (snd (grun g ops))) = map (map this) [[qz 3]; [qz 2]; [qz 2]].
Proof.
  split; [repeat split; eexists; split || reflexivity; reflexivity|]. split; [exact ex_sized|]. split; [exact ex_regular|].
  split; [repeat constructor; cbn; intuition; match goal with H : _ = _ |- _ => apply (f_equal (map this)) in H; vm_compute in H; discriminate end|].
  split; [split; [reflexivity|repeat constructor]|]. split; [split; [reflexivity|repeat constructor]|]. split; [apply ex_enough|]. vm_compute. auto.
Qed.

(** C39 *)
(** random draws without replacement: drawn, cut away and remaining events together are the data sets *)
Theorem C39_remaining_partial g ops m : fresh g -> random_noreplace g -> sized (gSets g) -> Forall op_uniform ops -> enough (gSets g) (gRates g) (fun _ => 0) ops ->
  regular m (gSets g) -> let (g1, outs) := grun g ops in outs <> [] ->
  exists l lost, remaining g1 l /\ Permutation (given outs ++ lost ++ given l) (stock (gSets g)) /\
    (nocuts g ops -> rated g ops -> lost = [] /\ forall i s d, nth_error (gSets g) i = Some s -> nth_error l i = Some d ->
       Z.of_nat (List.length (events_of d)) = Z.of_nat (List.length (sEvs s)) - total (gRates g) ops i) /\
    (forall i d, nth_error l i = Some d -> snd (g_remaining g1 i) = Z.max 0 (Z.of_nat (List.length (events_of d)) - 1)).
Proof. exact (remaining_pkg g ops m). Qed.
Print Assumptions C39_remaining_partial.
(** the number reported is one less than the number returned (see above); before any draw the call throws when nothing was set to -999 ... *)
Theorem C39_before_any_draw_refuted g s sl m : gSets g = [s] -> gSlots g = [sl] -> fst sl = [] -> snd sl = 0 \/ snd sl = m999 -> sEvs s <> [] -> sized [s] -> regular m [s] ->
  fst (g_remaining g 0) = Throw std_out_of_range.
Proof. exact (before_pkg g s sl m). Qed.
Print Assumptions C39_before_any_draw_refuted.
(** after sequential draws: the last event drawn is "remaining", event 0, never drawn, is not *)
Theorem C39_sequential_refuted g s ops m : one_sequential g s -> sized [s] -> regular m [s] -> nocuts g ops -> rated g ops ->
  enough [s] (gRates g) (fun _ => 0) ops -> let N := List.length (sEvs s) in let t := Z.to_nat (total (gRates g) ops 0) in (0 < t < N)%nat ->
  exists d, fst (g_remaining (fst (grun g ops)) 0%nat) = Ok d /\ events_of d = pick s ((N - t)%nat :: seq 1 (N - t - 1)).
Proof. exact (seq_remaining_pkg g s ops m). Qed.
Print Assumptions C39_sequential_refuted.
(** an empty data set has nothing remaining, right after SetDataSets and after Reset *)
Theorem C39_empty_set g l i s : nth_error l i = Some s -> sEvs s = [] -> 
  (exists d, g_remaining (g_setSets g l) i = (Ok d, 0) /\ events_of d = [] /\ dNames d = sNames s) /\
  (gSets g = l -> exists d, g_remaining (g_reset g) i = (Ok d, 0) /\ events_of d = [] /\ dNames d = sNames s).
Proof. exact (empty_remaining_pkg g l i s). Qed.
Print Assumptions C39_empty_set.
Example C39_nonvacuous : let g := ex_gen false false 1 in let ops := [GExp ex_u] in let (g1, outs) := grun g ops in
  outs <> [] /\ map (map this) (given outs) = map (map this) [[qz 2]] /\
  rmap (fun d => map (map this) (events_of d)) (fst (g_remaining g1 0)) = Ok (map (map this) [[qz 1]; [qz 3]]) /\ snd (g_remaining g1 0) = 1 /\
  fst (g_remaining g 0) = Throw std_out_of_range /\
  (let g2 := fst (grun (ex_gen false true 1) ops) in rmap (fun d => map (map this) (events_of d)) (fst (g_remaining g2 0)) = Ok (map (map this) [[qz 3]; [qz 2]])).
Proof. vm_compute. repeat split; discriminate. Qed.

(** the number of events requested is the expected rate rounded to the nearest whole number, halves up *)
Theorem C37_rounding r n : 0 <= n -> (0 <= r)%Qc -> (qz n - qhalf <= r)%Qc -> (r < qz n + qhalf)%Qc -> qround r = n.
Proof. exact (rounding_pkg r n). Qed.
Print Assumptions C37_rounding.
(** C71: which events can be drawn *)
Theorem C71_with_replacement_from_the_set g s ops : one_replacing g s -> sized [s] -> sEvs s <> [] -> Forall op_uniform ops ->
  forall x, In x (given (snd (grun g ops))) -> exists e, nth_error (sEvs s) e = Some x /\ (S e < List.length (sEvs s) \/ List.length (sEvs s) = 1)%nat.
Proof. exact (replacing_pkg g s ops). Qed.
Print Assumptions C71_with_replacement_from_the_set.
(** exactly the requested number of events, each named by its own random number *)
Theorem C71_with_replacement_count g s m u r : one_replacing g s -> sized [s] -> regular m [s] -> sEvs s <> [] -> gCuts g = [] -> gRates g = [r] -> uniform u -> 0 <= qround r < 2 ^ 32 ->
  exists d tk, snd (g_expected g u) = Ok (d, tk) /\
    events_of d = map (fun k => nth (Z.to_nat (rShoot (Z.of_nat (List.length (sEvs s)) - 1) (u 0%nat k))) (sEvs s) []) (seq 0 (Z.to_nat (qround r))).
Proof. exact (replacing_draws_pkg g s m u r). Qed.
Print Assumptions C71_with_replacement_count.
Theorem C71_each_other_event_partial k j : 0 <= j < k -> exists u, (0 <= u)%Qc /\ (u < 1)%Qc /\ rShoot k u = j.
Proof. exact (shoot_half k j). Qed.
Print Assumptions C71_each_other_event_partial.
(** the last event is never drawn, whatever the random numbers *)
Theorem C71_last_event_refuted g s ops : one_replacing g s -> sized [s] -> (2 <= List.length (sEvs s))%nat -> NoDup (sEvs s) -> Forall op_uniform ops ->
  forall x, nth_error (sEvs s) (List.length (sEvs s) - 1) = Some x -> ~ In x (given (snd (grun g ops))).
Proof. exact (replaced_last_pkg g s ops). Qed.
Print Assumptions C71_last_event_refuted.
Theorem C71_first_draw_refuted g s m u r : gSets g = [s] -> fresh g -> random_noreplace g -> sized [s] -> regular m [s] -> (2 <= List.length (sEvs s))%nat -> gCuts g = [] ->
  gRates g = [r] -> uniform u -> qround r = 1 ->
  exists d tk e, snd (g_expected g u) = Ok (d, tk) /\ (S e < List.length (sEvs s))%nat /\ events_of d = [nth e (sEvs s) []].
Proof. exact (first_draw_pkg g s m u r). Qed.
Print Assumptions C71_first_draw_refuted.
(** AllValidEvents returns every event of every set; the cuts have no influence *)
Theorem C71_all_valid_events g m : gSets g <> [] -> regular m (gSets g) -> exists d tk, g_allValid g = Ok (d, tk) /\ events_of d = stock (gSets g).
Proof. exact (allValid_pkg g m). Qed.
Print Assumptions C71_all_valid_events.
Example C71_nonvacuous : let g := ex_gen true false 4 in one_replacing g ex_src /\ uniform ex_u /\ qround (qz 4) = 4 /\
  match snd (g_expected g ex_u) with Ok (d, tk) => map (map this) (events_of d) = map (map this) [[qz 2]; [qz 2]; [qz 2]; [qz 2]] /\ tk = [4] | _ => False end.
Proof. split; [repeat split; eexists; split || reflexivity; reflexivity|]. split; [exact ex_u_ok|]. vm_compute. auto. Qed.
