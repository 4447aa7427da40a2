From Coq Require Import ZArith Ascii List String.
From Verif Require Import Base.Res Base.SMap Model.Ini Spec.IniSpec.
From Coq Require Import Lia.
Import ListNotations.
Local Open Scope list_scope.
Local Open Scope res_scope.

Lemma blank_spec c : blank c = true <-> is_blank c.
Proof.
  unfold blank, is_blank. cbn [existsb]. rewrite !orb_true_iff, !Ascii.eqb_eq. intuition discriminate.
Qed.
Arguments blank : simpl never.
Lemma blank_false c : blank c = false <-> ~ is_blank c.
Proof. rewrite <- blank_spec. destruct (blank c); split; congruence. Qed.
Lemma fnb_app a c r : Forall is_blank a -> ~ is_blank c -> firstNonBlank (a ++ c :: r) = List.length a.
Proof. intros H N. induction H as [|x a B _ IH]; cbn; [apply blank_false in N; now rewrite N|]. apply blank_spec in B. rewrite B. now rewrite IH. Qed.
Lemma fnb_all a : Forall is_blank a -> firstNonBlank a = List.length a.
Proof. induction 1 as [|x a B _ IH]; cbn; [reflexivity|]. apply blank_spec in B. rewrite B. now rewrite IH. Qed.
Lemma split_blank s : exists a r, s = a ++ r /\ Forall is_blank a /\ forall c t, r = c :: t -> ~ is_blank c.
Proof.
  induction s as [|c s IH]; [exists [], []; repeat split; [constructor|discriminate]|]. destruct (blank c) eqn:B.
  - destruct IH as [a [r [E [A H]]]]. exists (c :: a), r. split; [cbn; congruence|]. split; [constructor; [now apply blank_spec|exact A]|exact H].
  - exists [], (c :: s). split; [reflexivity|]. split; [constructor|]. intros x t [= <- <-]. now apply blank_false.
Qed.
Lemma trimmed_ex s : exists t, trimmed s t.
Proof.
  destruct (split_blank s) as [a [r [E [A H]]]]. destruct (split_blank (rev r)) as [b [t [E2 [B H2]]]].
  assert (Er : r = rev t ++ rev b) by (rewrite <- rev_app_distr, <- E2, rev_involutive; reflexivity).
  exists (rev t), a, (rev b). split; [congruence|]. split; [exact A|]. split; [now apply Forall_rev|]. split.
  - intros c q Q. rewrite Q in Er. cbn in Er. exact (H _ _ Er).
  - intros c q Q. apply (H2 c (rev q)). rewrite <- (rev_involutive t), Q, rev_app_distr. reflexivity.
Qed.
Lemma nil_or_last {A} (l : list A) : l = [] \/ exists r c, l = r ++ [c].
Proof. destruct l as [|x l]; [now left|]. right. exists (removelast (x :: l)), (last (x :: l) x). apply app_removelast_last. discriminate. Qed.
Lemma trim_trimmed s t : trimmed s t -> trim s = Ok t.
Proof.
  intros [a [b [E [A [B [H1 H2]]]]]]. unfold trim, lastNonBlank, substr. destruct t as [|c t].
  - cbn in E. assert (F : Forall is_blank s) by (rewrite E; now apply Forall_app). rewrite (fnb_all s F). rewrite (fnb_all (rev s)) by now apply Forall_rev.
    rewrite rev_length, Nat.ltb_irrefl, skipn_all, firstn_nil. destruct (_ <? 0)%Z; reflexivity.
  - specialize (H1 c t eq_refl). destruct (nil_or_last (c :: t)) as [Q|[r [d Q]]]; [discriminate|]. specialize (H2 d r Q).
    assert (F1 : firstNonBlank s = List.length a) by (rewrite E; cbn; now apply fnb_app).
    assert (F2 : firstNonBlank (rev s) = List.length b).
    { rewrite E, !rev_app_distr, Q, rev_app_distr. cbn [rev app]. rewrite <- (rev_length b). cbn. rewrite <- app_assoc. cbn. apply fnb_app; [now apply Forall_rev|exact H2]. }
    rewrite F1, F2. assert (L : List.length s = (List.length a + (List.length (c :: t) + List.length b))%nat) by (rewrite E, !app_length; reflexivity).
    destruct (Nat.ltb_spec (List.length s) (List.length a)); [lia|].
    replace (Z.of_nat (List.length s) - 1 - Z.of_nat (List.length b) - Z.of_nat (List.length a) + 1)%Z with (Z.of_nat (List.length (c :: t))) by lia.
    destruct (Z.ltb_spec (Z.of_nat (List.length (c :: t))) 0); [lia|]. rewrite Nat2Z.id. f_equal. rewrite E, skipn_app, skipn_all, Nat.sub_diag. cbn [skipn]. rewrite app_nil_l.
    rewrite firstn_app, Nat.sub_diag, firstn_all. cbn [firstn]. now rewrite app_nil_r.
Qed.
Lemma trimmed_fun s t t' : trimmed s t -> trimmed s t' -> t = t'.
Proof. intros A B. apply trim_trimmed in A. apply trim_trimmed in B. congruence. Qed.
Lemma trim_ok s : exists t, trim s = Ok t /\ trimmed s t.
Proof. destruct (trimmed_ex s) as [t H]. exists t. split; [now apply trim_trimmed|exact H]. Qed.

(** brackets *)
Lemma countOpen_split s : exists rest, s = repeat "["%char (countOpen s) ++ rest /\ forall r, rest <> "["%char :: r.
Proof.
  induction s as [|c s [rest [E H]]]; cbn [countOpen]; [exists []; split; [reflexivity|discriminate]|].
  destruct (Ascii.eqb_spec c "["%char) as [->|N]; [exists rest; split; [cbn; congruence|exact H]|]. exists (c :: s). split; [reflexivity|]. intros r [= Q]. contradiction.
Qed.
Lemma countOpen_app d rest : (forall r, rest <> "["%char :: r) -> countOpen (repeat "["%char d ++ rest) = d.
Proof.
  intros H. induction d as [|d IH]; cbn [repeat app countOpen]; [|rewrite Ascii.eqb_refl; now rewrite IH].
  destruct rest as [|c r]; [reflexivity|]. cbn. destruct (Ascii.eqb_spec c "["%char) as [->|N]; [destruct (H r eq_refl)|reflexivity].
Qed.
Lemma parseSLine_ok d rest : (forall r, rest <> "["%char :: r) ->
  parseSLine (repeat "["%char d ++ rest) = Ok (str (if Nat.leb d (List.length rest) then firstn (List.length rest - d) rest else rest), d).
Proof.
  intros H. unfold parseSLine, substr. rewrite countOpen_app by exact H. rewrite app_length, repeat_length.
  destruct (Nat.ltb_spec (d + List.length rest) d); [lia|].
  assert (SK : skipn d (repeat "["%char d ++ rest) = rest).
  { rewrite <- (repeat_length "["%char d) at 1. rewrite skipn_app, skipn_all, Nat.sub_diag. reflexivity. }
  destruct (Nat.leb_spec d (List.length rest)) as [L|L].
  - destruct (Z.ltb_spec (Z.of_nat (d + List.length rest) - 2 * Z.of_nat d) 0); [lia|]. cbn [bind]. rewrite SK. unfold str. do 4 f_equal. lia.
  - destruct (Z.ltb_spec (Z.of_nat (d + List.length rest) - 2 * Z.of_nat d) 0); [|lia]. cbn [bind]. rewrite SK. reflexivity.
Qed.
Lemma heading_dec l t r : trimmed l t -> t = "["%char :: r -> exists d n, heading l d n /\ parseSLine t = Ok (n, d).
Proof.
  intros T E. destruct (countOpen_split t) as [rest [Q H]]. exists (countOpen t). eexists. split.
  - exists rest. split; [rewrite <- Q; exact T|]. split; [rewrite E; cbn; lia|]. split; [exact H|reflexivity].
  - rewrite Q at 1. now apply parseSLine_ok.
Qed.
Lemma heading_inv l d n t : heading l d n -> trimmed l t -> (exists r, t = "["%char :: r) /\ parseSLine t = Ok (n, d) /\ (1 <= d)%nat.
Proof.
  intros [rest [T [D [H ->]]]] T'. rewrite (trimmed_fun _ _ _ T' T). split; [|split; [now apply parseSLine_ok|exact D]].
  destruct d; [lia|]. cbn. eauto.
Qed.
Lemma heading_fun l d n d' n' : heading l d n -> heading l d' n' -> d = d' /\ n = n'.
Proof.
  intros A B. destruct (trimmed_ex l) as [t T]. destruct (heading_inv _ _ _ _ A T) as [_ [E1 _]]. destruct (heading_inv _ _ _ _ B T) as [_ [E2 _]].
  rewrite E1 in E2. now injection E2 as -> ->.
Qed.
(** the first character of a line against that of the trimmed line *)
Lemma first_char l c r t : trimmed l t -> l = c :: r -> ~ is_blank c -> exists u, t = c :: u.
Proof.
  intros [a [b [E [A [B [H1 H2]]]]]] El N. rewrite E in El. destruct a as [|x a].
  - destruct t as [|y t]; cbn in El; [|injection El as -> _; eauto]. rewrite El in B. inversion B as [|? ? B1 _]. contradiction.
  - injection El as -> _. inversion A as [|? ? A1 _]. contradiction.
Qed.
Lemma comment_char c : c = "#"%char \/ c = ";"%char -> ~ is_blank c.
Proof. intros [->| ->]; unfold is_blank; intuition discriminate. Qed.
Lemma heading_not_comment l d n : heading l d n -> ~ comment l.
Proof.
  intros H [c [r [E C]]]. destruct (trimmed_ex l) as [t T]. destruct (heading_inv _ _ _ _ H T) as [[u Q] _].
  destruct (first_char l c r t T E (comment_char c C)) as [u' Q']. rewrite Q in Q'. injection Q' as <- _. destruct C; discriminate.
Qed.
Lemma trimmed_nil l : trimmed l [] <-> Forall is_blank l.
Proof.
  split; [intros [a [b [E [A [B _]]]]]; cbn in E; rewrite E; now apply Forall_app|]. intros H. exists l, []. split; [cbn; now rewrite app_nil_r|].
  repeat split; try assumption; try constructor; intros c r; [discriminate|]. destruct r; discriminate.
Qed.
(** '=' *)
Lemma findEq_some s : forall n, findEq s = Some n <-> exists b, s = firstn n s ++ "="%char :: b /\ ~ In "="%char (firstn n s) /\ (n < List.length s)%nat /\ b = skipn (n + 1) s.
Proof.
  induction s as [|c s IH]; intros n; cbn [findEq].
  - split; [discriminate|]. intros [b [E [_ [L _]]]]. cbn in L. lia.
  - destruct (Ascii.eqb_spec c "="%char) as [->|N].
    + split.
      * intros [= <-]. exists s. cbn. repeat split; [tauto|lia].
      * intros [b [E [H [L _]]]]. destruct n as [|n]; [reflexivity|]. cbn in H. tauto.
    + destruct (findEq s) as [m|] eqn:F; cbn [option_map]; split.
      * intros [= <-]. destruct (proj1 (IH m) eq_refl) as [b [E [H [L S1]]]]. exists b. cbn. repeat split; [congruence|intros [Q|Q]; [congruence|contradiction]|lia|exact S1].
      * intros [b [E [H [L S1]]]]. destruct n as [|n]; [cbn in E; congruence|]. cbn in E, H, L, S1. f_equal. f_equal. enough (Some m = Some n) by congruence. apply IH. exists b.
        repeat split; [now injection E|tauto|lia|exact S1].
      * discriminate.
      * intros [b [E [H [L S1]]]]. destruct n as [|n]; [cbn in E; congruence|]. cbn in E, H, L, S1. assert (Q : None = Some n); [|discriminate Q]. apply IH. exists b.
        repeat split; [now injection E|tauto|lia|exact S1].
Qed.
Lemma findEq_app a b : ~ In "="%char a -> findEq (a ++ "="%char :: b) = Some (List.length a).
Proof.
  intros H. induction a as [|c a IH]; cbn; [reflexivity|]. destruct (Ascii.eqb_spec c "="%char) as [->|N]; [destruct H; now left|].
  rewrite IH; [reflexivity|]. intros I. apply H. now right.
Qed.
Lemma findEq_none s : findEq s = None <-> ~ In "="%char s.
Proof.
  induction s as [|c s IH]; cbn; [tauto|]. destruct (Ascii.eqb_spec c "="%char) as [->|N]; [split; [discriminate|tauto]|].
  destruct (findEq s); cbn; [split; [discriminate|]|split; [|reflexivity]]; intuition congruence.
Qed.
(** the part of parseValue that concerns characters *)
Definition keyval (line : chars) : res (string * string) :=
  match findEq line with
  | None => Throw std_runtime_error
  | Some n => do k0 <- substr line 0 (Z.of_nat n); do k <- trim k0;
              do v0 <- substr line (n + 1) (Z.of_nat (List.length line) - Z.of_nat n - 1); do v <- trim v0;
              Ok (string_of_list_ascii k, string_of_list_ascii v)
  end.
Lemma keyval_app a b ka vb : ~ In "="%char a -> trimmed a ka -> trimmed b vb -> keyval (a ++ "="%char :: b) = Ok (str ka, str vb).
Proof.
  intros H TA TB. unfold keyval, substr. rewrite findEq_app by exact H. rewrite app_length. cbn [List.length].
  destruct (Nat.ltb_spec (List.length a + S (List.length b)) 0); [lia|]. destruct (Z.ltb_spec (Z.of_nat (List.length a)) 0); [lia|]. rewrite Nat2Z.id. cbn [bind skipn].
  rewrite firstn_app, Nat.sub_diag, firstn_all. cbn [firstn]. rewrite app_nil_r, (trim_trimmed _ _ TA). cbn [bind].
  destruct (Nat.ltb_spec (List.length a + S (List.length b)) (List.length a + 1)); [lia|].
  destruct (Z.ltb_spec (Z.of_nat (List.length a + S (List.length b)) - Z.of_nat (List.length a) - 1) 0); [lia|].
  replace (Z.to_nat (Z.of_nat (List.length a + S (List.length b)) - Z.of_nat (List.length a) - 1)) with (List.length b) by lia. cbn [bind].
  rewrite skipn_app, skipn_all2 by lia. replace (List.length a + 1 - List.length a)%nat with 1%nat by lia. cbn [skipn app]. rewrite firstn_all, (trim_trimmed _ _ TB).
  reflexivity.
Qed.
Lemma entry_inv l k v t : entry l k v -> trimmed l t -> keyval t = Ok (k, v) /\ (forall r, t <> "["%char :: r) /\ t <> [].
Proof.
  intros [_ [a [b [ka [vb [T [H [N [TA [TB [-> ->]]]]]]]]]]] T'. rewrite (trimmed_fun _ _ _ T' T). split; [now apply keyval_app|]. split.
  - intros r E. destruct a as [|c a]; [discriminate|]. injection E as -> _. now apply (H a).
  - destruct a; discriminate.
Qed.
Lemma entry_fun l k v k' v' : entry l k v -> entry l k' v' -> k = k' /\ v = v'.
Proof.
  intros A B. destruct (trimmed_ex l) as [t T]. destruct (entry_inv _ _ _ _ A T) as [E1 _]. destruct (entry_inv _ _ _ _ B T) as [E2 _]. rewrite E1 in E2. now injection E2 as -> ->.
Qed.
Lemma entry_dec l t : ~ comment l -> trimmed l t -> t <> [] -> (forall r, t <> "["%char :: r) ->
  (exists k v, entry l k v /\ keyval t = Ok (k, v)) \/ (~ In "="%char t /\ keyval t = Throw std_runtime_error /\ forall k v, ~ entry l k v).
Proof.
  intros C T N H. destruct (findEq t) as [n|] eqn:F.
  - left. apply findEq_some in F. destruct F as [b [E [I _]]]. set (a := firstn n t) in *. destruct (trimmed_ex a) as [ka TA]. destruct (trimmed_ex b) as [vb TB].
    exists (str ka), (str vb). split.
    + split; [exact C|]. exists a, b, ka, vb. split; [rewrite <- E; exact T|]. split; [|tauto]. intros r Q. apply (H (r ++ "="%char :: b)). rewrite E, Q. reflexivity.
    + rewrite E. now apply keyval_app.
  - right. pose proof F as F'. apply findEq_none in F'. split; [exact F'|]. split; [unfold keyval; now rewrite F|].
    intros k v X. destruct (entry_inv _ _ _ _ X T) as [Y _]. unfold keyval in Y. rewrite F in Y. discriminate.
Qed.
(** every line is of exactly one kind *)
Lemma line_kinds l : ignored l \/ (exists d n, heading l d n) \/ (exists k v, entry l k v) \/
  (~ ignored l /\ not_heading l /\ (forall k v, ~ entry l k v)).
Proof.
  destruct l as [|c0 r0] eqn:El; [left; right; constructor|]. rewrite <- El.
  destruct (ascii_dec c0 "#"%char) as [->|N1]; [left; left; rewrite El; eexists _, _; split; [reflexivity|now left]|].
  destruct (ascii_dec c0 ";"%char) as [->|N2]; [left; left; rewrite El; eexists _, _; split; [reflexivity|now right]|].
  assert (C : ~ comment l) by (rewrite El; intros [c [r [[= <- <-] [Q|Q]]]]; contradiction).
  destruct (trimmed_ex l) as [t T]. destruct t as [|c t]; [left; right; now apply trimmed_nil|].
  destruct (ascii_dec c "["%char) as [->|N3].
  - right. left. destruct (heading_dec l _ t T eq_refl) as [d [n [H _]]]. eauto.
  - assert (NH : forall r, c :: t <> "["%char :: r) by (intros r [= Q _]; contradiction).
    destruct (entry_dec l (c :: t) C T ltac:(discriminate) NH) as [[k [v [E _]]]|[I [_ E]]]; [right; right; left; eauto|].
    right; right; right. split; [|split; [|exact E]].
    + intros [X|X]; [contradiction|]. apply trimmed_nil in X. pose proof (trimmed_fun _ _ _ X T). discriminate.
    + intros d n X. destruct (heading_inv _ _ _ _ X T) as [[u Q] _]. now apply (NH u).
Qed.
Lemma ignored_not l : ignored l -> not_heading l /\ (forall k v, ~ entry l k v).
Proof.
  intros [C|B]; split.
  - intros d n H. exact (heading_not_comment _ _ _ H C).
  - intros k v [N _]. contradiction.
  - intros d n H. apply trimmed_nil in B. destruct (heading_inv _ _ _ _ H B) as [[u Q] _]. discriminate.
  - intros k v H. apply trimmed_nil in B. destruct (entry_inv _ _ _ _ H B) as [_ [_ Q]]. now apply Q.
Qed.
Lemma entry_not_heading l k v : entry l k v -> not_heading l.
Proof. intros E d n H. destruct (trimmed_ex l) as [t T]. destruct (entry_inv _ _ _ _ E T) as [_ [N _]]. destruct (heading_inv _ _ _ _ H T) as [[u Q] _]. exact (N u Q). Qed.
