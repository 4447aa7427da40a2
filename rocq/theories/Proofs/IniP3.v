From Coq Require Import ZArith Ascii List String.
From Verif Require Import Base.Res Base.SMap Model.Ini Spec.IniSpec Proofs.IniP Proofs.IniP2.
From Coq Require Import Lia.
Import ListNotations.
Local Open Scope list_scope.
Local Open Scope res_scope.

Lemma parseValue_keyval top cur line l : deref cur top = Some l ->
  parseValue top cur line = do kv <- keyval line;
    match sfind (fst kv) (lVals l) with
    | Some _ => Throw std_runtime_error
    | None => Ok (assign cur (fun x => match x with mkLevel vs s ov os d p => mkLevel (sset (fst kv) (snd kv) vs) s (ov ++ [fst kv]) os d p end) top, cur)
    end.
Proof.
  intros D. unfold parseValue, keyval. rewrite D. destruct (findEq line) as [n|]; [|reflexivity].
  destruct (substr line 0 (Z.of_nat n)); cbn [bind]; try reflexivity. destruct (trim _); cbn [bind]; try reflexivity.
  destruct (substr line (n + 1) _); cbn [bind]; try reflexivity. destruct (trim _); cbn [bind]; reflexivity.
Qed.
(** how a line is dispatched *)
Lemma parse_ignored st l : ignored l -> parseLine st l = Ok st.
Proof.
  destruct st as [top cur]. intros [[c [r [-> [->| ->]]]]|B]; [reflexivity|reflexivity|]. destruct l as [|c r]; [reflexivity|]. cbn [parseLine].
  destruct (Ascii.eqb c "#" || Ascii.eqb c ";"); [reflexivity|]. apply trimmed_nil in B. rewrite (trim_trimmed _ _ B). reflexivity.
Qed.
Lemma parse_rest top cur l t c u : ~ comment l -> trimmed l t -> t = c :: u -> parseLine (top, cur) l = if Ascii.eqb c "[" then parseSection top cur t else parseValue top cur t.
Proof.
  intros C T E. destruct l as [|x r].
  - destruct T as [a [b [Q _]]]. rewrite E in Q. destruct a; discriminate.
  - cbn [parseLine]. destruct (Ascii.eqb_spec x "#"%char) as [->|N1]; [destruct C; eexists _, _; split; [reflexivity|now left]|].
    destruct (Ascii.eqb_spec x ";"%char) as [->|N2]; [destruct C; eexists _, _; split; [reflexivity|now right]|]. cbn [orb].
    rewrite (trim_trimmed _ _ T). cbn [bind]. rewrite E. reflexivity.
Qed.
Lemma parent_path (cur : cursor) d (l : level) : (1 <= d)%nat -> (d <= List.length cur + 1)%nat -> lDepth l = List.length cur -> forall k,
  @bind cursor (level * cursor) (if Nat.eqb (lDepth l) (d - 1) then Ok cur else do q <- parentOf cur; climb (lDepth l - d) q) k = k (firstn (d - 1) cur).
Proof.
  intros A B -> k. assert (X : (if Nat.eqb (List.length cur) (d - 1) then Ok cur else do q <- parentOf cur; climb (List.length cur - d) q) = Ok (firstn (d - 1) cur)); [|rewrite X; reflexivity].
  destruct (Nat.eqb_spec (List.length cur) (d - 1)) as [E|N]; [rewrite <- E, firstn_all; reflexivity|].
  destruct cur as [|x cur]; [cbn in *; lia|]. cbn [parentOf bind]. rewrite removelast_firstn_len. set (c := x :: cur) in *.
  rewrite climb_ok by (rewrite firstn_length; lia). f_equal. rewrite firstn_length, firstn_firstn. f_equal. lia.
Qed.
Lemma deref_prefix p r top l : deref (p ++ r) top = Some l -> exists x, deref p top = Some x.
Proof. rewrite deref_app. destruct (deref p top); [eauto|discriminate]. Qed.
Lemma step ls st l : R ls st ->
  (good_line ls (snd st) l /\ exists st', parseLine st l = Ok st' /\ R (ls ++ [l]) st') \/
  (~ good_line ls (snd st) l /\ parseLine st l = Throw std_runtime_error).
Proof.
  destruct st as [top cur]. intros HR. pose proof HR as [I [O V]]. cbn [fst snd] in *.
  destruct (proj2 (O cur) (in_section_opened _ _ I)) as [lc Dc]. destruct (V _ _ Dc) as [Vd [_ Vk]].
  destruct (line_kinds l) as [G|[[d [n H]]|[[k [v E]]|[NI [NH NE]]]]].
  - left. split; [now left|]. exists (top, cur). split; [now apply parse_ignored|]. destruct (ignored_not _ G). now apply R_ignore.
  - assert (NG : ~ ignored l) by (intros X; destruct (ignored_not _ X) as [Y _]; exact (Y _ _ H)).
    destruct (trimmed_ex l) as [t T]. destruct (heading_inv _ _ _ _ H T) as [[u Et] [PS D1]].
    rewrite (parse_rest top cur l t _ u (heading_not_comment _ _ _ H) T Et). rewrite Ascii.eqb_refl. unfold parseSection. rewrite Dc, PS. cbn [bind fst snd].
    assert (GL : good_line ls cur l <-> (d <= List.length cur + 1)%nat /\ ~ opened ls (firstn (d - 1) cur ++ [n])).
    { split.
      - intros [X|[[d' [n' [X Y]]]|[k [v [X _]]]]]; [contradiction| |destruct (entry_not_heading _ _ _ X _ _ H)]. destruct (heading_fun _ _ _ _ _ H X) as [-> ->]. exact Y.
      - intros X. right. left. exists d, n. auto. }
    rewrite Vd. destruct (Nat.ltb_spec (List.length cur + 1) d) as [L|L]; [right; split; [rewrite GL; lia|reflexivity]|].
    rewrite <- Vd. rewrite (parent_path cur d lc D1 L Vd).
    assert (X : exists pl, deref (firstn (d - 1) cur) top = Some pl).
    { apply deref_prefix with (r := skipn (d - 1) cur) (l := lc). rewrite firstn_skipn. exact Dc. }
    destruct X as [pl Dp]. rewrite Dp. assert (Dn : deref (firstn (d - 1) cur ++ [n]) top = sfind n (lSecs pl)).
    { rewrite deref_app, Dp. cbn. destruct (sfind n (lSecs pl)); reflexivity. }
    destruct (sfind n (lSecs pl)) as [c|] eqn:Sn.
    + right. assert (OP : opened ls (firstn (d - 1) cur ++ [n])).
      { destruct (proj1 (O (firstn (d - 1) cur ++ [n])) (ex_intro _ c Dn)) as [Q|Q]; [destruct (snoc_not_nil (firstn (d - 1) cur) n); congruence|exact Q]. }
      split; [rewrite GL; tauto|]. destruct (V _ _ Dn) as [V1 _]. rewrite V1, app_length. cbn [List.length]. destruct (Nat.eqb_spec (List.length (firstn (d - 1) cur) + 1) 0); [lia|reflexivity].
    + left. split.
      * apply GL. split; [exact L|]. intros OP. destruct (proj2 (O _) (or_intror OP)) as [x Q]. congruence.
      * eexists. split; [reflexivity|]. now apply R_section.
  - destruct (trimmed_ex l) as [t T]. destruct (entry_inv _ _ _ _ E T) as [KV [NB NN]]. destruct t as [|c u]; [congruence|].
    rewrite (parse_rest top cur l (c :: u) c u (proj1 E) T eq_refl). destruct (Ascii.eqb_spec c "["%char) as [->|_]; [destruct (NB u eq_refl)|].
    rewrite (parseValue_keyval _ _ _ _ Dc), KV. cbn [bind fst snd].
    assert (NG : ~ ignored l) by (intros X; destruct (ignored_not _ X) as [_ Y]; exact (Y _ _ E)).
    assert (GL : good_line ls cur l <-> forall v', ~ defines ls cur k v').
    { split.
      - intros [X|[[d' [n' [X Y]]]|[k' [v' [X Y]]]]]; [contradiction|destruct (entry_not_heading _ _ _ E _ _ X)|]. destruct (entry_fun _ _ _ _ _ E X) as [-> _]. exact Y.
      - intros X. right. right. exists k, v. auto. }
    destruct (sfind k (lVals lc)) as [v0|] eqn:Sk.
    + right. split; [|reflexivity]. rewrite GL. intros X. apply Vk in Sk. exact (X _ Sk).
    + left. assert (ND : forall v', ~ defines ls cur k v') by (intros v' X; apply Vk in X; congruence). split; [now apply GL|]. eexists. split; [reflexivity|].
      now apply R_value.
  - right. split; [intros [X|[[d [n [X _]]]|[k [v [X _]]]]]; [contradiction|exact (NH _ _ X)|exact (NE _ _ X)]|].
    destruct (trimmed_ex l) as [t T]. assert (NC : ~ comment l) by (intros X; apply NI; now left).
    destruct t as [|c u]; [destruct NI; right; now apply trimmed_nil|]. rewrite (parse_rest top cur l (c :: u) c u NC T eq_refl).
    destruct (Ascii.eqb_spec c "["%char) as [->|N]; [destruct (heading_dec l _ u T eq_refl) as [d [n [X _]]]; destruct (NH _ _ X)|].
    rewrite (parseValue_keyval _ _ _ _ Dc).
    destruct (entry_dec l (c :: u) NC T ltac:(discriminate) ltac:(intros r [= Q _]; contradiction)) as [[k [v [X _]]]|[_ [-> _]]]; [destruct (NE _ _ X)|reflexivity].
Qed.
Lemma R_start : R [] (newLevel, []).
Proof.
  split; [constructor|]. split.
  - intros q. cbn [fst]. destruct q as [|n q]; cbn; [split; eauto|]. split; [intros [x X]; discriminate|]. intros [X|[a [l [b [d [n' [E _]]]]]]]; [discriminate|destruct a; discriminate].
  - intros q l. cbn [fst]. destruct q as [|n q]; cbn; [|discriminate]. intros [= <-]. split; [reflexivity|]. split; [reflexivity|]. intros k v. cbn. split; [discriminate|].
    intros [a [x [b [E _]]]]. destruct a; discriminate.
Qed.
Lemma loop rest : forall done st, R done st ->
  (exists st', foldM parseLine rest st = Ok st' /\ R (done ++ rest) st' /\
     forall a l b, rest = a ++ l :: b -> exists p, in_section (done ++ a) p /\ good_line (done ++ a) p l) \/
  (foldM parseLine rest st = Throw std_runtime_error /\ exists a l b p, rest = a ++ l :: b /\ in_section (done ++ a) p /\ ~ good_line (done ++ a) p l).
Proof.
  induction rest as [|x rest IH]; intros done st HR; cbn [foldM].
  - left. exists st. rewrite app_nil_r. split; [reflexivity|]. split; [exact HR|]. intros a l b E. destruct a; discriminate.
  - destruct (step done st x HR) as [[G [st' [-> HR']]]|[G ->]]; cbn [bind].
    + destruct (IH _ _ HR') as [[st2 [E [R2 H]]]|[E [a [l [b [p [Q [I N]]]]]]]].
      * left. exists st2. rewrite E. split; [reflexivity|]. rewrite <- app_assoc in R2. split; [exact R2|]. intros [|y a] l b Q.
        -- injection Q as <- <-. exists (snd st). rewrite app_nil_r. split; [apply HR|exact G].
        -- injection Q as <- ->. destruct (H a l b eq_refl) as [p X]. rewrite <- app_assoc in X. eauto.
      * right. rewrite E. split; [reflexivity|]. exists (x :: a), l, b, p. rewrite <- app_assoc in I, N. split; [cbn; congruence|]. auto.
    + right. split; [reflexivity|]. exists [], x, rest, (snd st). rewrite app_nil_r. split; [reflexivity|]. split; [apply HR|exact G].
Qed.
Lemma parse_pkg ls :
  (good_file ls -> exists top, parseLines ls = Ok top) /\
  (~ good_file ls -> parseLines ls = Throw std_runtime_error) /\
  (forall top, parseLines ls = Ok top -> good_file ls /\ exists cur, R ls (top, cur)).
Proof.
  unfold parseLines. destruct (loop ls [] _ R_start) as [[[top cur] [E [HR H]]]|[E [a [l [b [p [Q [I N]]]]]]]]; rewrite E; cbn [bind app fst] in *.
  - split; [eauto|]. split; [intros X; now destruct X|]. intros top' [= <-]. eauto.
  - assert (X : ~ good_file ls). { intros G. destruct (G a l b Q) as [p' [I' G']]. rewrite (in_section_fun _ _ _ I' I) in G'. contradiction. }
    split; [contradiction|]. split; [reflexivity|discriminate].
Qed.
Lemma meaning_pkg ls top : parseLines ls = Ok top -> forall p,
  ((exists l, deref p top = Some l) <-> p = [] \/ opened ls p) /\
  (forall l, deref p top = Some l -> lDepth l = List.length p /\ forall k v, sfind k (lVals l) = Some v <-> defines ls p k v).
Proof.
  intros E. destruct (proj2 (proj2 (parse_pkg ls)) _ E) as [_ [cur [_ [O V]]]]. intros p. split; [apply O|]. intros l D. destruct (V _ _ D) as [A [_ B]]. auto.
Qed.
