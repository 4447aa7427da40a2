From Coq Require Import ZArith.
From Verif Require Import Base.Res Base.Num Base.SMap Model.Axis Model.Event Model.Cut Model.Hist Model.Shrink Model.Data Model.Rand Model.Gen Spec.GenSpec Proofs.GenP.
From Coq Require Import Lia.
Local Open Scope Z_scope.
Lemma empty_remaining_pkg g l i s : nth_error l i = Some s -> sEvs s = [] -> 
  (exists d, g_remaining (g_setSets g l) i = (Ok d, 0) /\ events_of d = [] /\ dNames d = sNames s) /\
  (gSets g = l -> exists d, g_remaining (g_reset g) i = (Ok d, 0) /\ events_of d = [] /\ dNames d = sNames s).
Proof.
  intros Hl Hs. assert (Hr : @nth_error slot (repeat (([] : list nat), m999) (List.length l)) i = Some ([], m999)).
  { clear Hs. revert i Hl. induction l as [|x l IH]; intros [|i] H; cbn in H; try discriminate; cbn; [reflexivity|]. apply IH; exact H. }
  assert (G : forall g', gSets g' = l -> gSlots g' = repeat (([] : list nat), m999) (List.length l) -> exists d, g_remaining g' i = (Ok d, 0) /\ events_of d = [] /\ dNames d = sNames s).
  { intros g' E1 E2. unfold g_remaining. rewrite E1, E2. unfold vat. rewrite Hl, Hr, Hs. rewrite Z.eqb_refl. cbn [List.length Z.of_nat].
    replace (w64 (0 - 1) =? w64 (-1)) with true by reflexivity. eexists. split; [reflexivity|]. split; reflexivity. }
  split; [apply G; reflexivity|]. intros E. apply G; [exact E|]. cbn. rewrite E. reflexivity.
Qed.
Lemma qtrunc_ge q z : 0 <= z -> (qz z <= q)%Qc -> z <= qtrunc q.
Proof.
  intros Hz H. unfold Qcle in H. rewrite this_qz in H. unfold Qle in H. cbn in H. unfold qtrunc. rewrite Z.quot_div_nonneg by lia. apply Z.div_le_lower_bound; lia.
Qed.
Lemma rounding_pkg r n : 0 <= n -> (0 <= r)%Qc -> (qz n - qhalf <= r)%Qc -> (r < qz n + qhalf)%Qc -> qround r = n.
Proof.
  intros Hn H0 H1 H2. unfold qround. destruct (qltb r 0) eqn:E; [apply qltb_lt in E; exfalso; apply (Qclt_not_le _ _ E); exact H0|].
  assert (A : n <= qtrunc (r + qhalf)) by (apply qtrunc_ge; [exact Hn|]; qlra).
  assert (S1 : (qz (n + 1) = qz n + Q2Qc 1)%Qc) by (apply Qc_is_canon; rewrite this_add, !this_qz, inject_Z_plus; reflexivity).
  assert (B : 0 <= qtrunc (r + qhalf) < n + 1). { apply qtrunc_bounds; [|rewrite S1]; qlra. }
  lia.
Qed.
