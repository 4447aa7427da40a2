(** C85 *)
From Coq Require Import Sorting.Sorted.
From Verif Require Import Base.Res Base.Num Base.SMap Model.Vary Spec.VarySpec Proofs.VaryP.
Local Open Scope Qc_scope.
Local Open Scope res_scope.

Theorem C85_dependence (h : heap) (v : vcdf) (par : string) (f : sqs) (a : nat) : sound h v -> h a = None ->
  let r := vc_depend h v par f a in
  sound (fst r) (snd r) /\ governs (fst r) (snd r) par a f /\
  (forall p b g, p <> par -> (governs (fst r) (snd r) p b g <-> governs h v p b g)).
Proof. exact (depend_pkg h v par f a). Qed.
Print Assumptions C85_dependence.
Theorem C85_set_all (h : heap) (v : vcdf) (d : smap Qc) : sound h v ->
  ((exists n, has_parameter h v n /\ ~ In n (skeys d)) -> snd (vc_setAll h v d) = Throw ParameterError) /\
  ((forall n, has_parameter h v n -> In n (skeys d)) ->
   exists h' g, vc_setAll h v d = (h', Ok tt) /\ sound h' v /\ others_untouched h h' v /\
     (forall par a f, governs h v par a f -> exists x, sfind (sqPar f) d = Some x /\ governs h' v par a (mkSqs (sqPar f) x)) /\
     (forall n, has_parameter h' v n <-> has_parameter h v n) /\
     vc_getAll h' v = Ok g /\ swf g /\ (forall n, has_parameter h v n -> sfind n g = sfind n d) /\ (forall n, In n (skeys g) -> has_parameter h v n)).
Proof. exact (setAll_pkg h v d). Qed.
Print Assumptions C85_set_all.
Theorem C85_names (h : heap) (v : vcdf) : sound h v ->
  (exists s, vc_names h v = Ok s /\ StronglySorted slt s /\ (forall n, In n s <-> has_parameter h v n) /\ vc_count h v = Ok (List.length v)) /\
  (exists d, vc_getAll h v = Ok d /\ swf d /\ (forall n, In n (skeys d) <-> has_parameter h v n) /\
    (forall n x, sfind n d = Some x -> exists par a f, governs h v par a f /\ sqPar f = n /\ sqVal f = x)).
Proof. exact (fun H => conj (names_pkg h v H) (getAll_pkg h v H)). Qed.
Print Assumptions C85_names.
(** one parameter by name: only where every function's parameter has that name *)
Theorem C85_one_partial (h : heap) (v : vcdf) (n : string) : sound h v -> only_parameter h v n ->
  (forall x, exists h', vc_set h v n x = (h', Ok tt) /\ sound h' v /\ others_untouched h h' v /\
     (forall par a f, governs h v par a f -> governs h' v par a (mkSqs n x)) /\ (v <> [] -> vc_get h' v n = Ok x)) /\
  (forall m, exists h', vc_rename h v n m = (h', Ok tt) /\ sound h' v /\ others_untouched h h' v /\ only_parameter h' v m /\
     (forall par a f, governs h v par a f -> governs h' v par a (mkSqs m (sqVal f)))) /\
  (forall par a f, governs h v par a f -> (forall par' a' f', governs h v par' a' f' -> sqVal f' = sqVal f) -> vc_get h v n = Ok (sqVal f)) /\
  (v = [] -> vc_get h v n = Throw NotFoundError).
Proof. exact (one_pkg h v n). Qed.
Print Assumptions C85_one_partial.
(** otherwise setting and renaming always throw *)
Theorem C85_mixed (h : heap) (v : vcdf) (n : string) (par : string) (a : nat) (f : sqs) : sound h v -> governs h v par a f -> sqPar f <> n ->
  (forall x, snd (vc_set h v n x) = Throw ParameterError) /\ (forall m, snd (vc_rename h v n m) = Throw ParameterError).
Proof. exact (mixed_pkg h v n par a f). Qed.
Print Assumptions C85_mixed.
Theorem C85_destroy (h : heap) (v : vcdf) : sound h v ->
  exists h', vc_destroy h v = (h', Ok tt) /\ others_untouched h h' v /\ (forall par a, sfind par v = Some a -> h' a = None) /\
  (v <> [] -> snd (vc_destroy h' (vc_copy v)) = UB /\ forall n, vc_get h' (vc_copy v) n = UB).
Proof. exact (destroy_pkg h v). Qed.
Print Assumptions C85_destroy.

(** two dependences, with parameters "a" (value 2) and "b" (value 3) *)
Definition ex_h0 : heap := fun _ => None.
Definition ex_v1 := vc_depend ex_h0 vc_new "means_0" (mkSqs "a" (qz 2)) 0.
Definition ex_v2 := vc_depend (fst ex_v1) (snd ex_v1) "stddevs_0" (mkSqs "b" (qz 3)) 1.
Lemma ex_v1_sound : sound (fst ex_v1) (snd ex_v1).
Proof. exact (proj1 (C85_dependence ex_h0 vc_new "means_0" (mkSqs "a" (qz 2)) 0 (sound_new ex_h0) eq_refl)). Qed.
Lemma ex_v2_sound : sound (fst ex_v2) (snd ex_v2).
Proof. exact (proj1 (C85_dependence (fst ex_v1) (snd ex_v1) "stddevs_0" (mkSqs "b" (qz 3)) 1 ex_v1_sound eq_refl)). Qed.
(** both names exist, but neither can be set, read (the second) or renamed; setting the first takes effect all the same *)
Theorem C85_one_refuted : exists h v, sound h v /\ has_parameter h v "a" /\ has_parameter h v "b" /\
  snd (vc_set h v "a" (qz 5)) = Throw ParameterError /\ snd (vc_set h v "b" (qz 5)) = Throw ParameterError /\
  vc_get h v "b" = Throw ParameterError /\ snd (vc_rename h v "b" "c") = Throw ParameterError /\
  vc_get (fst (vc_set h v "a" (qz 5))) v "a" = Ok (qz 5) /\ vc_get h v "a" = Ok (qz 2).
Proof.
  exists (fst ex_v2), (snd ex_v2). split; [exact ex_v2_sound|]. split; [exists "means_0"%string, 0%nat, (mkSqs "a" (qz 2)); repeat split|].
  split; [exists "stddevs_0"%string, 1%nat, (mkSqs "b" (qz 3)); repeat split|]. repeat split.
Qed.
Print Assumptions C85_one_refuted.
(** two functions sharing a name count as two parameters *)
Theorem C85_count_refuted : exists h v, sound h v /\ only_parameter h v "grad" /\ vc_names h v = Ok ["grad"%string] /\ vc_count h v = Ok 2%nat.
Proof.
  pose (w1 := vc_depend ex_h0 vc_new "means_0" sqs_new 0). pose (w2 := vc_depend (fst w1) (snd w1) "stddevs_0" sqs_new 1).
  assert (W1 : sound (fst w1) (snd w1)) by exact (proj1 (C85_dependence ex_h0 vc_new "means_0" sqs_new 0 (sound_new ex_h0) eq_refl)).
  assert (W2 : sound (fst w2) (snd w2)) by exact (proj1 (C85_dependence (fst w1) (snd w1) "stddevs_0" sqs_new 1 W1 eq_refl)).
  exists (fst w2), (snd w2). split; [exact W2|]. split; [|split; reflexivity].
  intros p a f [E1 E2]. cbn in E1. destruct (String.eqb p "means_0"); [injection E1 as <-; cbn in E2; now injection E2 as <-|].
  destruct (String.eqb p "stddevs_0"); [injection E1 as <-; cbn in E2; now injection E2 as <-|discriminate].
Qed.
Print Assumptions C85_count_refuted.
(** a copy shares the function objects: setting the copy's parameter sets the original's; after either is destroyed the other must not be used *)
Theorem C85_copy_refuted : exists h v, sound h v /\ vc_get h v "a" = Ok (qz 2) /\
  vc_get (fst (vc_set h (vc_copy v) "a" (qz 7))) v "a" = Ok (qz 7) /\
  snd (vc_destroy h (vc_copy v)) = Ok tt /\ snd (vc_destroy (fst (vc_destroy h (vc_copy v))) v) = UB.
Proof. exists (fst ex_v1), (snd ex_v1). split; [exact ex_v1_sound|]. repeat split. Qed.
Print Assumptions C85_copy_refuted.

Example C85_nonvacuous : sound (fst ex_v2) (snd ex_v2) /\ sound (fst ex_v1) (snd ex_v1) /\ only_parameter (fst ex_v1) (snd ex_v1) "a" /\ snd ex_v1 <> [] /\
  rmap (fun d => d) (vc_getAll (fst (vc_setAll (fst ex_v2) (snd ex_v2) [("a"%string, qz 8); ("b"%string, qz 9); ("c"%string, qz 1)])) (snd ex_v2)) = Ok [("a"%string, qz 8); ("b"%string, qz 9)].
Proof.
  split; [exact ex_v2_sound|]. split; [exact ex_v1_sound|]. split; [|split; [discriminate|reflexivity]].
  intros p a f [E1 E2]. cbn in E1. destruct (String.eqb p "means_0"); [injection E1 as <-; cbn in E2; now injection E2 as <-|discriminate].
Qed.
