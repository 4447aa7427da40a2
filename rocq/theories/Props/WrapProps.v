(** C104: bin numbers in size_t arithmetic. *)
From Coq Require Import ZArith Lia.
From Verif Require Import Base.Res Base.Num Base.SMap Model.Axis Model.Hist Model.Wrap Spec.AxisSpec Proofs.WrapP Props.AxisProps.

(** C104. As long as the product of the bin counts stays below 2^64, the 64-bit count, flattening, unflattening and bin search of an
    axis collection are the exact ones. *)
Theorem C104_exact_partial : forall ac, ac_reach ac -> acAxes ac <> [] -> (Z.of_nat (prod (map aNBins (acAxes ac))) < 2 ^ 64)%Z ->
  countW ac = Z.of_nat (acNBins ac) /\
  (forall idx, in_shape (map aNBins (acAxes ac)) idx -> flattenW ac (map Z.of_nat idx) = rmap Z.of_nat (flatten ac idx)) /\
  (forall k d, unflattenW ac (Z.of_nat k) d = rmap Z.of_nat (unflatten ac k d)) /\
  (forall k, unpackW ac (Z.of_nat k) = rmap (map Z.of_nat) (unpack ac k)) /\
  forall vals, ac_findBinW ac vals = rmap Z.of_nat (ac_findBin ac vals).
Proof. exact wrap_pkg. Qed.
Print Assumptions C104_exact_partial.
(** AddAxis accepts any number of bins: with 2 * 65536^4 cells the collection reports no bins at all, and two points in different cells
    get the same bin number. *)
Theorem C104_overflow_refuted : exists a0 a1 a2 a3 a4 ac,
  built a0 /\ aNBins a0 = 2%nat /\ in_bin a0 0 (qq 1 2) /\ in_bin a0 1 (qq 3 2) /\
  Forall (fun a => built a /\ aNBins a = Nat.pow 2 16 /\ in_bin a 0 0%Qc) [a1; a2; a3; a4] /\
  addAxes ac_empty [a0; a1; a2; a3; a4] = (ac, Ok tt) /\ acAxes ac = [a0; a1; a2; a3; a4] /\
  countW ac = 0%Z /\ ac_findBinW ac [qq 1 2; 0%Qc; 0%Qc; 0%Qc; 0%Qc] = Ok 0%Z /\ ac_findBinW ac [qq 3 2; 0%Qc; 0%Qc; 0%Qc; 0%Qc] = Ok 0%Z.
Proof.
  assert (B : built (ex_axis "e" 0 2 2)) by (apply ex_axis_built; lia).
  destruct (overflow_pkg (ex_axis "e" 0 2 2) B ltac:(reflexivity) ltac:(reflexivity) ltac:(vm_compute; reflexivity) ltac:(vm_compute; reflexivity)) as [a1 [a2 [a3 [a4 [ac H]]]]].
  exists (ex_axis "e" 0 2 2), a1, a2, a3, a4, ac. split; [exact B|]. split; [reflexivity|].
  split; [split; [vm_compute; lia|split; vm_compute; congruence]|]. split; [split; [vm_compute; lia|split; vm_compute; congruence]|]. exact H.
Qed.
Print Assumptions C104_overflow_refuted.
Example C104_nonvacuous : ac_reach ex_ac /\ acAxes ex_ac <> [] /\ (Z.of_nat (prod (map aNBins (acAxes ex_ac))) < 2 ^ 64)%Z /\
  countW ex_ac = 24%Z /\ flattenW ex_ac [1; 2; 3]%Z = Ok 23%Z /\ unpackW ex_ac 17 = Ok [1; 1; 1]%Z.
Proof. split; [exact ex_ac_reach|]. split; [vm_compute; discriminate|]. repeat split; vm_compute; reflexivity. Qed.
