(** C52: the standard Gaussian. *)
From Coq Require Import ZArith.
From Verif Require Import Base.Res Base.Num Base.SMap Model.Axis Model.Hist Model.HistTools Model.Constraint Model.Param Model.Gauss Spec.GaussSpec Proofs.GaussP5.
From Coq Require Import Lia.
Local Open Scope Qc_scope.
Lemma standard_pkg U n name : exists g, newGaussN n name = Ok g /\ gND g = n /\ positive_widths g /\
  forall i, (i < n)%nat -> mean_of g i = 0 /\ std_of g i = 1 /\ forall x,
    gCdf U g i x = Ok (if qltb (qz 6) x then 1 else if qltb x (- qz 6) then 0 else U x).
Proof.
  destruct (new_pkg (repeat 0 n) (repeat 1 n) name) as [_ [_ N]].
  destruct N as [g [E [ND [Em [Es [Ec P]]]]]]; [now rewrite !repeat_length|intros x H; apply repeat_spec in H; rewrite H; reflexivity|].
  exists g. rewrite repeat_length in ND. split; [exact E|]. split; [exact ND|]. split; [exact P|]. intros i Hi.
  assert (M : mean_of g i = 0) by (unfold mean_of; rewrite Em; apply nth_repeat).
  assert (S : std_of g i = 1). { unfold std_of. rewrite Es. rewrite (nth_indep _ 0 1) by (now rewrite repeat_length). apply nth_repeat. }
  split; [exact M|]. split; [exact S|]. intros x. unfold gCdf, atZ. rewrite Em, Es, !repeat_length.
  assert (Z.of_nat i <? Z.of_nat n = true)%Z as -> by (apply Z.ltb_lt; lia). rewrite Nat2Z.id. unfold mean_of in M. unfold std_of in S. rewrite Em in M. rewrite Es in S. rewrite M, S. cbn [bind].
  assert (D : qdiv (x - 0) 1 = Ok x) by (change (Ok ((x - 0) / 1) = Ok x); f_equal; field; discriminate). rewrite D, Ec. cbn [bind]. replace (- (1) * qz 6) with (- qz 6) by ring.
  destruct (qltb (qz 6) x); [reflexivity|]. destruct (qltb x (- qz 6)); reflexivity.
Qed.
