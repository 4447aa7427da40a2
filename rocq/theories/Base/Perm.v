(** Not repo content: a tactic for permutations of concatenations. *)
From Coq Require Import List Permutation.
Lemma perm_under {A} (a b R R' : list A) : Permutation R (a ++ R') -> Permutation (b ++ R) (a ++ b ++ R').
Proof. intros H. rewrite H. rewrite !app_assoc. apply Permutation_app_tail. apply Permutation_app_comm. Qed.
Ltac bring a Y :=
  match Y with
  | a ++ ?R => constr:(Permutation_refl (a ++ R))
  | ?b ++ ?R => let p := bring a R in constr:(perm_under _ b _ _ p)
  end.
Ltac perm_solve :=
  match goal with |- @Permutation _ ?x ?y => rewrite <- (app_nil_r x), <- (app_nil_r y) end;
  rewrite <- ?app_assoc;
  repeat match goal with |- Permutation (?a ++ ?X) ?Y => let p := bring a Y in transitivity (a ++ X); [reflexivity|]; eapply Permutation_trans; [|symmetry; exact p]; apply Permutation_app_head end;
  try apply Permutation_refl.
