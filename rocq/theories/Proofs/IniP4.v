From Coq Require Import ZArith Ascii List String.
From Verif Require Import Base.Res Base.SMap Model.Ini Spec.IniSpec Proofs.IniP Proofs.IniP2 Proofs.IniP3.
From Coq Require Import Lia.
Import ListNotations.
Local Open Scope list_scope.
Local Open Scope res_scope.

(** ** top-level sections *)
Lemma in_section_prefix b : forall a p, in_section (a ++ b) p -> exists p', in_section a p'.
Proof.
  induction b as [|x b IH] using rev_ind; intros a p; [rewrite app_nil_r; eauto|]. rewrite app_assoc. intros I.
  inversion I as [Q|ls1 p1 l1 d1 n1 A1 H1 D1 Q|ls1 p1 l1 A1 N1 Q]; [destruct (snoc_not_nil (a ++ b) x Q)| |]; apply app_inj_tail in Q; destruct Q as [-> ->]; eauto.
Qed.
Lemma top_section ls s : in_section ls [s] -> exists a h b, ls = a ++ h :: b /\ heading h 1 s /\ Forall not_heading b.
Proof.
  remember [s] as p eqn:Ep. intros I. revert Ep. induction I as [|ls p l d n I IH H D|ls p l I IH N]; [discriminate| |].
  - intros E. destruct (nil_or_last (firstn (d - 1) p)) as [Q|[r [c Q]]].
    + rewrite Q in E. injection E as ->. exists ls, l, []. split; [reflexivity|]. split; [|constructor]. replace 1%nat with d; [exact H|].
      apply (f_equal (@List.length string)) in Q. rewrite firstn_length in Q. cbn in Q. destruct H as [? [_ [D1 _]]]. lia.
    + rewrite Q, <- app_assoc in E. destruct r as [|? [|]]; discriminate.
  - intros ->. destruct (IH eq_refl) as [a [h [b [-> [H F]]]]]. exists a, h, (b ++ [l]). rewrite <- app_assoc. split; [reflexivity|]. split; [exact H|]. apply Forall_app. auto.
Qed.
Lemma section_top a h b s p : in_section a p -> heading h 1 s -> Forall not_heading b -> in_section (a ++ h :: b) [s].
Proof.
  intros I H F. induction b as [|x b IH] using rev_ind.
  - exact (is_heading a p h 1 s I H ltac:(lia)).
  - apply Forall_app in F. destruct F as [F1 F2]. inversion F2 as [|? ? N _]. change (a ++ h :: b ++ [x]) with (a ++ (h :: b) ++ [x]). rewrite app_assoc. now apply is_other; [apply IH|].
Qed.
Lemma defines_top ls s k v cur : in_section ls cur ->
  (defines ls [s] k v <-> exists a h b e c, ls = a ++ h :: b ++ e :: c /\ heading h 1 s /\ Forall not_heading b /\ entry e k v).
Proof.
  intros W. split.
  - intros [a [e [c [-> [E I]]]]]. destruct (top_section _ _ I) as [a1 [h [b [-> [H F]]]]]. exists a1, h, b, e, c. rewrite <- app_assoc. auto.
  - intros [a [h [b [e [c [-> [H [F E]]]]]]]]. destruct (in_section_prefix _ _ _ W) as [p I]. exists (a ++ h :: b), e, c. rewrite <- app_assoc. split; [reflexivity|].
    split; [exact E|]. now apply section_top with (p := p).
Qed.
Lemma opened_top ls s cur : in_section ls cur -> (opened ls [s] <-> exists h, In h ls /\ heading h 1 s).
Proof.
  intros W. split.
  - intros [a [l [b [d [n [-> [H I]]]]]]]. exists l. split; [apply in_or_app; right; now left|]. destruct (top_section _ _ I) as [a2 [h [b2 [E [H2 F]]]]].
    destruct (nil_or_last b2) as [->|[r [c ->]]].
    + apply app_inj_tail in E. destruct E as [_ ->]. exact H2.
    + change (a2 ++ h :: r ++ [c]) with (a2 ++ (h :: r) ++ [c]) in E. rewrite app_assoc in E. apply app_inj_tail in E. destruct E as [_ ->].
      apply Forall_app in F. destruct F as [_ F]. inversion F as [|? ? F1 _]. destruct (F1 _ _ H).
  - intros [h [I H]]. apply in_split in I. destruct I as [a [b ->]]. destruct (in_section_prefix _ _ _ W) as [p I]. exists a, h, b, 1%nat, s. split; [reflexivity|]. split; [exact H|].
    exact (is_heading a p h 1 s I H ltac:(lia)).
Qed.
(** ** lines *)
Lemma getlines_go delim l : ~ In delim l -> forall acc s, getlines delim (l ++ delim :: s) acc = (rev acc ++ l) :: getlines delim s [].
Proof.
  intros H. induction l as [|c l IH]; intros acc s; cbn [app getlines].
  - rewrite Ascii.eqb_refl, app_nil_r. reflexivity.
  - destruct (Ascii.eqb_spec c delim) as [->|N]; [destruct H; now left|]. rewrite IH by (intros X; apply H; now right). cbn [rev]. rewrite <- app_assoc. reflexivity.
Qed.
Lemma getlines_last delim l : ~ In delim l -> forall acc, getlines delim l acc = match rev acc ++ l with [] => [] | x => [x] end.
Proof.
  intros H. induction l as [|c l IH]; intros acc; cbn [getlines].
  - rewrite app_nil_r. destruct acc as [|x acc]; [reflexivity|]. cbn. destruct (rev acc); reflexivity.
  - destruct (Ascii.eqb_spec c delim) as [->|N]; [destruct H; now left|]. rewrite IH by (intros X; apply H; now right). cbn [rev]. rewrite <- app_assoc. reflexivity.
Qed.
Lemma lines_ok s ls : lines_of s ls -> getlines "010" s [] = ls.
Proof.
  induction 1 as [|l N H|l s ls H _ IH]; [reflexivity| |].
  - rewrite getlines_last by exact H. cbn. destruct l; [congruence|reflexivity].
  - rewrite getlines_go by exact H. cbn. now rewrite IH.
Qed.
Lemma lines_ex s : exists ls, lines_of s ls.
Proof.
  assert (G : forall s l, ~ In "010"%char l -> exists ls, lines_of (l ++ s) ls).
  { clear s. induction s as [|c s IH]; intros l H.
    - rewrite app_nil_r. destruct l as [|x l]; [exists []; constructor|]. exists [x :: l]. constructor; [discriminate|exact H].
    - destruct (ascii_dec c "010"%char) as [->|N].
      + destruct (IH [] ltac:(intros [])) as [ls L]. exists (l :: ls). now constructor.
      + destruct (IH (l ++ [c])) as [ls L]; [intros X; apply in_app_or in X; destruct X as [X|[X|[]]]; congruence|]. exists ls. rewrite <- app_assoc in L. exact L. }
  exact (G s [] ltac:(intros [])).
Qed.
Lemma split_ok s ps : pieces_of s ps -> split "," s = filter (fun x => match x with [] => false | _ => true end) ps.
Proof.
  unfold split. induction 1 as [l H|l s ps H _ IH].
  - rewrite getlines_last by exact H. cbn. destruct l; reflexivity.
  - rewrite getlines_go by exact H. cbn. now rewrite IH.
Qed.
Lemma pieces_ex s : exists ps, pieces_of s ps.
Proof.
  assert (G : forall s l, ~ In ","%char l -> exists ls, pieces_of (l ++ s) ls).
  { clear s. induction s as [|c s IH]; intros l H.
    - rewrite app_nil_r. exists [l]. now constructor.
    - destruct (ascii_dec c ","%char) as [->|N].
      + destruct (IH [] ltac:(intros [])) as [ls L]. exists (l :: ls). now constructor.
      + destruct (IH (l ++ [c])) as [ls L]; [intros X; apply in_app_or in X; destruct X as [X|[X|[]]]; congruence|]. exists ls. rewrite <- app_assoc in L. exact L. }
  exact (G s [] ltac:(intros [])).
Qed.
(** ** ConfigLoader *)
Lemma open_pkg s ls st : lines_of s ls -> st <> Dangling ->
  (good_file ls -> exists top, cOpen (Some s) st = (Live top, Ok tt) /\ parseLines ls = Ok top) /\
  (~ good_file ls -> snd (cOpen (Some s) st) = Throw std_runtime_error).
Proof.
  intros L N. unfold cOpen, parseText. rewrite (lines_ok _ _ L). destruct (parse_pkg ls) as [A [B _]]. split; intros G.
  - destruct (A G) as [top E]. exists top. rewrite E. destruct st; try congruence; auto.
  - rewrite (B G). destruct st; try congruence; reflexivity.
Qed.
Lemma load_pkg ls top s f : parseLines ls = Ok top ->
  (forall v, cLoad s f (Live top) = Ok v <-> exists a h b e c, ls = a ++ h :: b ++ e :: c /\ heading h 1 s /\ Forall not_heading b /\ entry e f v) /\
  (cLoad s f (Live top) = Throw ConfigSectionMissing <-> forall h, In h ls -> ~ heading h 1 s) /\
  (cLoad s f (Live top) = Throw ConfigFieldMissing <->
     (exists h, In h ls /\ heading h 1 s) /\ forall a h b e c v, ls = a ++ h :: b ++ e :: c -> heading h 1 s -> Forall not_heading b -> ~ entry e f v).
Proof.
  intros E. destruct (proj2 (proj2 (parse_pkg ls)) _ E) as [_ [cur [I _]]]. cbn [snd] in I. destruct (meaning_pkg _ _ E [s]) as [O V]. rewrite (opened_top ls s cur I) in O.
  cbn [deref] in O, V. cbn [cLoad]. destruct (sfind s (lSecs top)) as [l|].
  - destruct (V l eq_refl) as [_ K]. assert (H : exists h, In h ls /\ heading h 1 s) by (destruct (proj1 O (ex_intro _ l eq_refl)) as [X|X]; [discriminate|exact X]).
    destruct (sfind f (lVals l)) as [v0|] eqn:F.
    + split; [|split].
      * intros v. rewrite <- (defines_top ls s f v cur I), <- K. rewrite F. split; congruence.
      * split; [discriminate|]. intros X. destruct H as [h [H1 H2]]. destruct (X h H1 H2).
      * split; [discriminate|]. intros [_ X]. exfalso. apply K in F. apply (defines_top ls s f v0 cur I) in F. destruct F as [a [h [b [e [c [F1 [F2 [F3 F4]]]]]]]]. exact (X _ _ _ _ _ _ F1 F2 F3 F4).
    + split; [|split].
      * intros v. split; [discriminate|]. intros X. apply (defines_top ls s f v cur I), K in X. congruence.
      * split; [discriminate|]. intros X. destruct H as [h [H1 H2]]. destruct (X h H1 H2).
      * split; [|reflexivity]. intros _. split; [exact H|]. intros a h b e c v A1 A2 A3 A4. assert (D : defines ls [s] f v) by (apply (defines_top ls s f v cur I); exists a, h, b, e, c; auto).
        apply K in D. congruence.
  - assert (H : ~ exists h, In h ls /\ heading h 1 s) by (intros X; destruct (proj2 O (or_intror X)); discriminate). split; [|split].
    + intros v. split; [discriminate|]. intros [a [h [b [e [c [-> [X _]]]]]]]. destruct H. exists h. split; [apply in_or_app; right; now left|exact X].
    + split; [|reflexivity]. intros _ h X Y. apply H. eauto.
    + split; [discriminate|]. intros [X _]. contradiction.
Qed.
Lemma sections_pkg ls top n : parseLines ls = Ok top -> exists names, cListSections (Live top) = Ok names /\ (In n names <-> exists h, In h ls /\ heading h 1 n).
Proof.
  intros E. destruct (proj2 (proj2 (parse_pkg ls)) _ E) as [_ [cur [I _]]]. cbn [snd] in I. destruct (meaning_pkg _ _ E [n]) as [O _]. rewrite (opened_top ls n cur I) in O.
  eexists. split; [reflexivity|]. rewrite sfind_in. cbn [deref] in O. split.
  - intros [v H]. rewrite H in O. destruct (proj1 O (ex_intro _ v eq_refl)) as [X|X]; [discriminate|exact X].
  - intros H. destruct (proj2 O (or_intror H)) as [l Q]. destruct (sfind n (lSecs top)); [eauto|discriminate].
Qed.
Lemma list_pkg s f old st v ps : cLoad s f st = Ok v -> pieces_of (list_ascii_of_string v) ps ->
  cLoadList s f old st = Ok (old ++ map str (filter (fun x => match x with [] => false | _ => true end) ps)).
Proof. intros E P. unfold cLoadList. rewrite E. cbn [bind]. rewrite (split_ok _ _ P). reflexivity. Qed.
Lemma list_fail_pkg s f old st : (forall v, cLoad s f st <> Ok v) -> (forall e, cLoad s f st = Throw e -> cLoadList s f old st = Throw e).
Proof. intros _ e E. unfold cLoadList. now rewrite E. Qed.
Lemma reopen_pkg s ls top : lines_of s ls -> ~ good_file ls ->
  cOpen (Some s) (Live top) = (Dangling, Throw std_runtime_error) /\ (forall sec f, cLoad sec f Dangling = UB) /\ (forall t, snd (cOpen (Some t) Dangling) = UB) /\
  snd (cClose Dangling) = UB /\ cListSections Dangling = UB.
Proof.
  intros L G. unfold cOpen at 1, parseText. rewrite (lines_ok _ _ L), (proj1 (proj2 (parse_pkg ls)) G). repeat split.
Qed.
(** ** headings *)
Lemma bracket_not_blank c : c = "["%char \/ c = "]"%char -> ~ is_blank c.
Proof. intros [->| ->]; unfold is_blank; intuition discriminate. Qed.
Lemma trimmed_self t : (forall c r, t = c :: r -> ~ is_blank c) -> (forall c r, t = r ++ [c] -> ~ is_blank c) -> trimmed t t.
Proof. intros A B. exists [], []. cbn. rewrite app_nil_r. repeat split; auto. Qed.
Lemma repeat_snoc {A} (x : A) n : repeat x (S n) = repeat x n ++ [x].
Proof. induction n as [|n IH]; [reflexivity|]. cbn [repeat app] in *. now rewrite <- IH. Qed.
Lemma heading_pkg d name : (1 <= d)%nat -> (forall r, name <> "["%char :: r) -> heading (repeat "["%char d ++ name ++ repeat "]"%char d) d (str name).
Proof.
  intros D H. exists (name ++ repeat "]"%char d). split; [|split; [exact D|split]].
  - apply trimmed_self.
    + intros c r E. destruct d; [lia|]. cbn in E. injection E as <- _. apply bracket_not_blank. now left.
    + intros c r E. destruct d; [lia|]. rewrite (repeat_snoc "]"%char), !app_assoc in E. apply app_inj_tail in E. destruct E as [_ <-]. apply bracket_not_blank. now right.
  - intros r E. destruct name as [|c name]; [|cbn in E; injection E as -> _; now apply (H name)]. destruct d; [lia|]. cbn in E. discriminate.
  - rewrite app_length, repeat_length. destruct (Nat.leb_spec d (List.length name + d)); [|lia]. f_equal. replace (List.length name + d - d)%nat with (List.length name) by lia.
    now rewrite firstn_app, Nat.sub_diag, firstn_all, app_nil_r.
Qed.
Lemma unclosed_pkg name c : ~ is_blank c -> (forall r, name ++ [c] <> "["%char :: r) -> heading ("["%char :: name ++ [c]) 1 (str name).
Proof.
  intros N H. exists (name ++ [c]). split; [|split; [lia|split; [exact H|]]].
  - apply trimmed_self.
    + intros x r E. cbn in E. injection E as <- _. apply bracket_not_blank. now left.
    + intros x r E. cbn [repeat app] in E. change ("["%char :: name ++ [c]) with (("["%char :: name) ++ [c]) in E. apply app_inj_tail in E. destruct E as [_ <-]. exact N.
  - rewrite app_length. cbn [List.length]. destruct (Nat.leb_spec 1 (List.length name + 1)); [|lia]. f_equal. replace (List.length name + 1 - 1)%nat with (List.length name) by lia.
    now rewrite firstn_app, Nat.sub_diag, firstn_all, app_nil_r.
Qed.
Lemma indented_pkg b c r : is_blank b -> c = "#"%char \/ c = ";"%char -> ~ In "="%char r -> forall before p, ~ good_line before p (b :: c :: r).
Proof.
  intros B C N before p. assert (NB := comment_char c C). destruct (trimmed_ex (c :: r)) as [t T]. destruct (first_char _ _ _ _ T eq_refl NB) as [u Q].
  assert (T' : trimmed (b :: c :: r) t).
  { destruct T as [x [y [E [X [Y Z]]]]]. exists (b :: x), y. split; [cbn; congruence|]. split; [now constructor|auto]. }
  assert (I : forall z, In z t -> In z (c :: r)) by (destruct T as [x [y [-> _]]]; intros z Hz; apply in_or_app; right; apply in_or_app; now left).
  intros [[[c' [r' [E C']]]|F]|[[d [n [H _]]]|[k [v [E _]]]]].
  - injection E as <- _. exact (comment_char b C' B).
  - inversion F as [|? ? _ F2]. inversion F2. contradiction.
  - destruct (heading_inv _ _ _ _ H T') as [[w W] _]. rewrite Q in W. injection W as W _. destruct C; congruence.
  - destruct E as [_ [a [bb [ka [vb [T2 _]]]]]]. pose proof (trimmed_fun _ _ _ T2 T') as Z. assert (IN : In "="%char t) by (rewrite <- Z; apply in_or_app; right; now left).
    apply I in IN. destruct IN as [W|W]; [destruct C; congruence|contradiction].
Qed.
