From Coq Require Import ZArith Ascii List String.
From Verif Require Import Base.Res Base.SMap Model.Ini Spec.IniSpec Proofs.IniP.
From Coq Require Import Lia.
Import ListNotations.
Local Open Scope list_scope.
Local Open Scope res_scope.

(** ** lists *)
Lemma snoc_split {A} (ls : list A) l a x b : ls ++ [l] = a ++ x :: b -> (b = [] /\ a = ls /\ x = l) \/ exists b', b = b' ++ [l] /\ ls = a ++ x :: b'.
Proof.
  intros E. destruct (nil_or_last b) as [->|[r [c ->]]].
  - left. apply app_inj_tail in E. destruct E; auto.
  - right. exists r. change (a ++ x :: r ++ [c]) with (a ++ (x :: r) ++ [c]) in E. rewrite app_assoc in E. apply app_inj_tail in E. destruct E as [-> ->]. auto.
Qed.
Lemma snoc_not_nil {A} (ls : list A) l : [] <> ls ++ [l]. Proof. destruct ls; discriminate. Qed.
Lemma prefix_dec (p q : list string) : (exists r, q = p ++ r) \/ forall r, q <> p ++ r.
Proof.
  revert q. induction p as [|x p IH]; intros q; [left; now exists q|]. destruct q as [|y q]; [right; discriminate|].
  destruct (string_dec x y) as [->|N]; [|right; intros r [= E _]; congruence]. destruct (IH q) as [[r ->]|H]; [left; now exists r|right; intros r [= E]; now apply (H r)].
Qed.
(** ** sections *)
Lemma in_section_fun ls : forall p p', in_section ls p -> in_section ls p' -> p = p'.
Proof.
  induction ls as [|l ls IH] using rev_ind; intros p p' A B.
  - inversion A as [|? ? ? ? ? ? ? ? Q|? ? ? ? ? Q]; subst; [|exfalso; now apply (snoc_not_nil ls l)|exfalso; now apply (snoc_not_nil ls l)].
    inversion B as [|? ? ? ? ? ? ? ? Q|? ? ? ? ? Q]; subst; [reflexivity|exfalso; now apply (snoc_not_nil ls l)|exfalso; now apply (snoc_not_nil ls l)].
  - inversion A as [Q|ls1 p1 l1 d1 n1 A1 H1 D1 Q|ls1 p1 l1 A1 N1 Q]; [destruct (snoc_not_nil ls l Q)| |]; apply app_inj_tail in Q; destruct Q as [-> ->];
    (inversion B as [Q|ls2 p2 l2 d2 n2 A2 H2 D2 Q|ls2 p2 l2 A2 N2 Q]; [destruct (snoc_not_nil ls l Q)| |]; apply app_inj_tail in Q; destruct Q as [-> ->]).
    + destruct (heading_fun _ _ _ _ _ H1 H2) as [-> ->]. now rewrite (IH _ _ A1 A2).
    + destruct (N2 _ _ H1).
    + destruct (N1 _ _ H2).
    + exact (IH _ _ A1 A2).
Qed.
Lemma opened_snoc ls l q : opened (ls ++ [l]) q <-> opened ls q \/ exists d n, heading l d n /\ in_section (ls ++ [l]) q.
Proof.
  split.
  - intros [a [x [b [d [n [E [H I]]]]]]]. destruct (snoc_split _ _ _ _ _ E) as [[-> [-> ->]]|[b' [-> ->]]]; [right; eauto|]. left. exists a, x, b', d, n. auto.
  - intros [[a [x [b [d [n [-> [H I]]]]]]]|[d [n [H I]]]].
    + exists a, x, (b ++ [l]), d, n. rewrite <- app_assoc. auto.
    + exists ls, l, [], d, n. auto.
Qed.
Lemma defines_snoc ls l q k v : defines (ls ++ [l]) q k v <-> defines ls q k v \/ (entry l k v /\ in_section ls q).
Proof.
  split.
  - intros [a [x [b [E [H I]]]]]. destruct (snoc_split _ _ _ _ _ E) as [[-> [-> ->]]|[b' [-> ->]]]; [right; auto|]. left. exists a, x, b'. auto.
  - intros [[a [x [b [-> [H I]]]]]|[H I]].
    + exists a, x, (b ++ [l]). rewrite <- app_assoc. auto.
    + exists ls, l, []. auto.
Qed.
(** ** the tree *)
Lemma deref_app p : forall r t, deref (p ++ r) t = match deref p t with Some l => deref r l | None => None end.
Proof. induction p as [|n p IH]; intros r t; cbn [app deref]; [reflexivity|]. destruct (sfind n (lSecs t)); [apply IH|reflexivity]. Qed.
Lemma secs_put n c l : lSecs (putSec n c l) = sset n c (lSecs l). Proof. destruct l; reflexivity. Qed.
Definition obs (l : level) := (lVals l, lDepth l, lParent l).
Lemma obs_put n c l : obs (putSec n c l) = obs l. Proof. destruct l; reflexivity. Qed.
Lemma assign_below p f : forall r top, deref (p ++ r) (assign p f top) = match deref p top with Some l => deref r (f l) | None => None end.
Proof.
  induction p as [|n p IH]; intros r top; cbn [app deref assign]; [reflexivity|]. destruct (sfind n (lSecs top)) as [c|] eqn:E.
  - rewrite secs_put, sfind_sset_eq. apply IH.
  - rewrite E. reflexivity.
Qed.
Lemma assign_other p f : forall q top, (forall r, q <> p ++ r) -> option_map obs (deref q (assign p f top)) = option_map obs (deref q top).
Proof.
  induction p as [|n p IH]; intros q top H; [destruct (H q eq_refl)|]. cbn [assign]. destruct (sfind n (lSecs top)) as [c|] eqn:E; [|reflexivity].
  destruct q as [|m q]; cbn [deref]; [cbn; now rewrite obs_put|]. rewrite secs_put. destruct (string_dec m n) as [->|N].
  - rewrite sfind_sset_eq, E. apply IH. intros r Q. apply (H r). cbn. congruence.
  - rewrite sfind_sset_neq by exact N. reflexivity.
Qed.
Lemma climb_ok n : forall p, (n <= List.length p)%nat -> climb n p = Ok (firstn (List.length p - n) p).
Proof.
  induction n as [|n IH]; intros p L; cbn [climb]; [rewrite Nat.sub_0_r, firstn_all; reflexivity|].
  destruct p as [|x p]; [cbn in L; lia|]. cbn [parentOf bind]. rewrite removelast_firstn_len. set (q := x :: p) in *.
  rewrite IH by (rewrite firstn_length; lia). f_equal. rewrite firstn_length, firstn_firstn. f_equal. lia.
Qed.
Definition R (ls : list chars) (st : level * cursor) : Prop :=
  in_section ls (snd st) /\
  (forall q, (exists l, deref q (fst st) = Some l) <-> q = [] \/ opened ls q) /\
  (forall q l, deref q (fst st) = Some l -> lDepth l = List.length q /\ lParent l = negb (Nat.eqb (List.length q) 0) /\
     forall k v, sfind k (lVals l) = Some v <-> defines ls q k v).
Lemma in_section_opened ls p : in_section ls p -> p = [] \/ opened ls p.
Proof.
  induction 1 as [|ls p l d n A IH H D|ls p l A IH N]; [now left| |].
  - right. exists ls, l, [], d, n. split; [reflexivity|]. split; [exact H|]. now apply is_heading.
  - destruct IH as [->|IH]; [now left|]. right. apply opened_snoc. now left.
Qed.
Lemma obs_inv o1 o2 : option_map obs o1 = option_map obs o2 -> forall l, o1 = Some l -> exists l', o2 = Some l' /\ lVals l = lVals l' /\ lDepth l = lDepth l' /\ lParent l = lParent l'.
Proof. intros E l ->. destruct o2 as [l'|]; [|discriminate]. cbn in E. injection E as A B C. eauto. Qed.

Lemma R_value ls top cur l k v (f := fun x => match x with mkLevel vs s ov os d p => mkLevel (sset k v vs) s (ov ++ [k]) os d p end) :
  R ls (top, cur) -> entry l k v -> (forall v', ~ defines ls cur k v') -> R (ls ++ [l]) (assign cur f top, cur).
Proof.
  intros [I [O V]] E ND. cbn [fst snd] in *. assert (NH := entry_not_heading _ _ _ E).
  assert (SF : forall x, lSecs (f x) = lSecs x /\ lDepth (f x) = lDepth x /\ lParent (f x) = lParent x /\ lVals (f x) = sset k v (lVals x)) by (intros []; cbn; auto).
  assert (SD : forall r x, r <> [] -> deref r (f x) = deref r x) by (intros [|m r] x N; [congruence|]; cbn [deref]; now rewrite (proj1 (SF x))).
  destruct (proj2 (O cur) (in_section_opened _ _ I)) as [lc Dc].
  assert (DR : forall q x, deref q (assign cur f top) = Some x -> exists y, deref q top = Some y /\ lDepth x = lDepth y /\ lParent x = lParent y /\
             (q = cur -> lVals x = sset k v (lVals y)) /\ (q <> cur -> lVals x = lVals y)).
  { intros q x Dx. destruct (prefix_dec cur q) as [[r ->]|N].
    - rewrite assign_below, Dc in Dx. rewrite deref_app, Dc. destruct r as [|m r].
      + cbn [deref] in *. injection Dx as <-. exists lc. destruct (SF lc) as [_ [A [B C]]]. repeat split; try assumption; rewrite app_nil_r; congruence.
      + rewrite SD in Dx by discriminate. exists x. repeat split; try assumption. intros Q. exfalso. rewrite <- (app_nil_r cur) in Q at 2. apply app_inv_head in Q. discriminate.
    - destruct (obs_inv _ _ (assign_other cur f q top N) x Dx) as [y [Y1 [Y2 [Y3 Y4]]]]. exists y. repeat split; try assumption; try (intros; assumption).
      intros ->. exfalso. apply (N []). now rewrite app_nil_r. }
  split; [now apply is_other|]. split.
  - intros q. cbn [fst]. rewrite opened_snoc.
    assert (Q : (exists x, deref q (assign cur f top) = Some x) <-> (exists x, deref q top = Some x)).
    { split; [intros [x Dx]; destruct (DR q x Dx) as [y [Y _]]; eauto|]. intros [x Dx]. destruct (prefix_dec cur q) as [[r ->]|N].
      - rewrite assign_below, Dc. rewrite deref_app, Dc in Dx. destruct r as [|m r]; [cbn; eauto|]. rewrite SD by discriminate. eauto.
      - pose proof (assign_other cur f q top N) as EQ. rewrite Dx in EQ. destruct (deref q (assign cur f top)); [eauto|discriminate]. }
    rewrite Q, O. split; [tauto|]. intros [A|[A|[d [n [H _]]]]]; [tauto|tauto|destruct (NH _ _ H)].
  - intros q x Dx. cbn [fst] in Dx. destruct (DR q x Dx) as [y [Dy [A [B [C D]]]]]. destruct (V q y Dy) as [V1 [V2 V3]]. rewrite A, B. split; [exact V1|]. split; [exact V2|].
    intros k' v'. rewrite defines_snoc. destruct (list_eq_dec string_dec q cur) as [->|N].
    + rewrite (C eq_refl), sfind_sset. destruct (String.eqb_spec k' k) as [->|Nk].
      * split.
        -- intros [= <-]. right. auto.
        -- intros [X|[X _]]; [destruct (ND _ X)|]. destruct (entry_fun _ _ _ _ _ E X) as [_ ->]. reflexivity.
      * rewrite V3. split; [tauto|]. intros [X|[X _]]; [exact X|]. destruct (entry_fun _ _ _ _ _ E X). congruence.
    + rewrite (D N), V3. split; [tauto|]. intros [X|[_ X]]; [exact X|]. destruct N. exact (in_section_fun _ _ _ X I).
Qed.
Lemma R_ignore ls st l : R ls st -> not_heading l -> (forall k v, ~ entry l k v) -> R (ls ++ [l]) st.
Proof.
  intros [I [O V]] NH NE. split; [now apply is_other|]. split.
  - intros q. rewrite O, opened_snoc. split; [tauto|]. intros [A|[A|[d [n [H _]]]]]; [tauto|tauto|destruct (NH _ _ H)].
  - intros q x Dx. destruct (V q x Dx) as [V1 [V2 V3]]. split; [exact V1|]. split; [exact V2|]. intros k v. rewrite V3, defines_snoc. split; [tauto|].
    intros [A|[A _]]; [exact A|destruct (NE _ _ A)].
Qed.
Lemma R_section ls top cur l d n pl (par := firstn (d - 1) cur)
  (pl' := match putSec n (mkLevel sempty sempty [] [] d true) pl with mkLevel v s ov os d p => mkLevel v s ov (os ++ [n]) d p end) :
  R ls (top, cur) -> heading l d n -> (1 <= d)%nat -> (d <= List.length cur + 1)%nat -> deref par top = Some pl -> sfind n (lSecs pl) = None ->
  R (ls ++ [l]) (assign par (fun _ => pl') top, par ++ [n]).
Proof.
  intros [I [O V]] H D1 D2 Dp Sn. cbn [fst snd] in *.
  assert (P1 : lSecs pl' = sset n (mkLevel sempty sempty [] [] d true) (lSecs pl) /\ lVals pl' = lVals pl /\ lDepth pl' = lDepth pl /\ lParent pl' = lParent pl)
    by (unfold pl'; destruct pl; cbn; auto). clearbody pl'. destruct P1 as [P1 [P2 [P3 P4]]].
  assert (Lp : List.length par = (d - 1)%nat) by (unfold par; rewrite firstn_length; lia).
  assert (I' : in_section (ls ++ [l]) (par ++ [n])) by (now apply is_heading).
  assert (ND : deref (par ++ [n]) top = None) by (rewrite deref_app, Dp; cbn; now rewrite Sn).
  assert (NEW : deref (par ++ [n]) (assign par (fun _ => pl') top) = Some (mkLevel sempty sempty [] [] d true)).
  { rewrite assign_below, Dp. cbn [deref]. now rewrite P1, sfind_sset_eq. }
  assert (NE : forall q, q <> par ++ [n] -> option_map obs (deref q (assign par (fun _ => pl') top)) = option_map obs (deref q top)).
  { intros q N. destruct (prefix_dec par q) as [[r ->]|X]; [|now apply assign_other]. rewrite assign_below, deref_app, Dp. destruct r as [|m r].
    - cbn. unfold obs. now rewrite P2, P3, P4.
    - cbn [deref]. rewrite P1, sfind_sset. destruct (String.eqb_spec m n) as [->|Nm]; [|reflexivity]. rewrite Sn. cbn [deref]. destruct r; [now destruct N|reflexivity]. }
  assert (NO : ~ opened ls (par ++ [n])) by (intros X; destruct (proj2 (O _) (or_intror X)) as [x Q]; congruence).
  split; [exact I'|]. split.
  - intros q. cbn [fst]. rewrite opened_snoc. destruct (list_eq_dec string_dec q (par ++ [n])) as [->|N].
    + split; [intros _; right; right; exists d, n; auto|intros _; eauto].
    + specialize (NE q N). assert (Q : (exists x, deref q (assign par (fun _ => pl') top) = Some x) <-> (exists x, deref q top = Some x)).
      { destruct (deref q (assign par (fun _ => pl') top)), (deref q top); try discriminate; split; intros [x X]; eauto; discriminate. }
      rewrite Q, O. split; [tauto|]. intros [A|[A|[d' [n' [_ A]]]]]; [tauto|tauto|]. destruct N. exact (in_section_fun _ _ _ A I').
  - intros q x Dx. cbn [fst] in Dx. assert (HD : forall k v, defines (ls ++ [l]) q k v <-> defines ls q k v).
    { intros k v. rewrite defines_snoc. split; [|tauto]. intros [A|[A _]]; [exact A|]. destruct (entry_not_heading _ _ _ A _ _ H). }
    destruct (list_eq_dec string_dec q (par ++ [n])) as [->|N].
    + rewrite NEW in Dx. injection Dx as <-. cbn [lDepth lParent lVals]. rewrite app_length, Lp. cbn [List.length]. split; [lia|]. split.
      { destruct (Nat.eqb_spec (d - 1 + 1) 0); [lia|reflexivity]. }
      intros k v. rewrite HD. cbn. split; [discriminate|]. intros [a [y [b [E [_ A]]]]]. exfalso. apply NO.
      assert (W : opened a (par ++ [n])). { destruct (in_section_opened _ _ A) as [Q|Q]; [destruct (snoc_not_nil par n); congruence|exact Q]. }
      destruct W as [a1 [l1 [b1 [d1 [n1 [E1 W]]]]]]. exists a1, l1, (b1 ++ y :: b), d1, n1. split; [|exact W]. rewrite E, E1, <- app_assoc. reflexivity.
    + destruct (obs_inv _ _ (NE q N) x Dx) as [y [Y1 [Y2 [Y3 Y4]]]]. destruct (V q y Y1) as [V1 [V2 V3]]. rewrite Y3, Y4, Y2. split; [exact V1|]. split; [exact V2|].
      intros k v. rewrite V3, HD. tauto.
Qed.
