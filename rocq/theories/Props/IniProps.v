(** C54 *)
From Coq Require Import ZArith Ascii List String.
From Verif Require Import Base.Res Base.SMap Model.Ini Spec.IniSpec Proofs.IniP Proofs.IniP2 Proofs.IniP3 Proofs.IniP4.
Import ListNotations.
Local Open Scope list_scope.
Local Open Scope res_scope.

(** which files are accepted *)
Theorem C54_accepted (ls : list chars) : (good_file ls -> exists top, parseLines ls = Ok top) /\ (~ good_file ls -> parseLines ls = Throw std_runtime_error).
Proof. exact (let '(conj A (conj B _)) := parse_pkg ls in conj A B). Qed.
Print Assumptions C54_accepted.
(** what an accepted file means, at every level of nesting *)
Theorem C54_meaning (ls : list chars) (top : level) : parseLines ls = Ok top -> forall p,
  ((exists l, deref p top = Some l) <-> p = [] \/ opened ls p) /\
  (forall l, deref p top = Some l -> lDepth l = List.length p /\ forall k v, sfind k (lVals l) = Some v <-> defines ls p k v).
Proof. exact (meaning_pkg ls top). Qed.
Print Assumptions C54_meaning.
(** every text has lines, in one way *)
Theorem C54_lines (s : text) : (exists ls, lines_of s ls) /\ forall ls, lines_of s ls -> parseText s = parseLines ls.
Proof. exact (conj (lines_ex s) (fun ls H => f_equal parseLines (lines_ok s ls H))). Qed.
Print Assumptions C54_lines.
Theorem C54_trim (s : text) : exists t, trim s = Ok t /\ trimmed s t /\ forall t', trimmed s t' -> t' = t.
Proof. exact (let '(ex_intro _ t (conj A B)) := trim_ok s in ex_intro _ t (conj A (conj B (fun t' H => trimmed_fun s t' t H B)))). Qed.
Print Assumptions C54_trim.
Theorem C54_open (s : text) (ls : list chars) (st : loader) : lines_of s ls -> st <> Dangling ->
  (good_file ls -> exists top, cOpen (Some s) st = (Live top, Ok tt) /\ parseLines ls = Ok top) /\
  (~ good_file ls -> snd (cOpen (Some s) st) = Throw std_runtime_error).
Proof. exact (open_pkg s ls st). Qed.
Print Assumptions C54_open.
Theorem C54_open_missing (st : loader) : cOpen None st = (st, Throw IOError).
Proof. exact eq_refl. Qed.
Print Assumptions C54_open_missing.
(** Load returns the value of the entry that stands under the heading, with no other heading in between, and says which of the two is missing *)
Theorem C54_load (ls : list chars) (top : level) (s f : string) : parseLines ls = Ok top ->
  (forall v, cLoad s f (Live top) = Ok v <-> exists a h b e c, ls = a ++ h :: b ++ e :: c /\ heading h 1 s /\ Forall not_heading b /\ entry e f v) /\
  (cLoad s f (Live top) = Throw ConfigSectionMissing <-> forall h, In h ls -> ~ heading h 1 s) /\
  (cLoad s f (Live top) = Throw ConfigFieldMissing <->
     (exists h, In h ls /\ heading h 1 s) /\ forall a h b e c v, ls = a ++ h :: b ++ e :: c -> heading h 1 s -> Forall not_heading b -> ~ entry e f v).
Proof. exact (load_pkg ls top s f). Qed.
Print Assumptions C54_load.
(** into a container: what stands between the commas, less the empty items, not trimmed, after what was there *)
Theorem C54_load_list (s f : string) (old : list string) (st : loader) (v : string) (ps : list text) :
  cLoad s f st = Ok v -> pieces_of (list_ascii_of_string v) ps ->
  cLoadList s f old st = Ok (old ++ map str (filter (fun x => match x with [] => false | _ => true end) ps)).
Proof. exact (list_pkg s f old st v ps). Qed.
Print Assumptions C54_load_list.
Theorem C54_pieces_exist (v : text) : exists ps, pieces_of v ps.
Proof. exact (pieces_ex v). Qed.
Print Assumptions C54_pieces_exist.
Theorem C54_list_sections (ls : list chars) (top : level) (n : string) : parseLines ls = Ok top ->
  exists names, cListSections (Live top) = Ok names /\ (In n names <-> exists h, In h ls /\ heading h 1 n).
Proof. exact (sections_pkg ls top n). Qed.
Print Assumptions C54_list_sections.
Theorem C54_heading_form (d : nat) (name : text) : 1 <= d -> (forall r, name <> "["%char :: r) -> heading (repeat "["%char d ++ name ++ repeat "]"%char d) d (str name).
Proof. exact (heading_pkg d name). Qed.
Print Assumptions C54_heading_form.
(** closing brackets are not looked at: an unclosed heading silently loses its last character *)
Theorem C54_unclosed_heading_accepted (name : text) (c : ascii) : ~ is_blank c -> (forall r, name ++ [c] <> "["%char :: r) -> heading ("["%char :: name ++ [c]) 1 (str name).
Proof. exact (unclosed_pkg name c). Qed.
Print Assumptions C54_unclosed_heading_accepted.
(** a comment that is indented is not a comment: it makes the file unreadable *)
Theorem C54_indented_comment_refuted (b c : ascii) (r : text) : is_blank b -> c = "#"%char \/ c = ";"%char -> ~ In "="%char r ->
  forall before p, ~ good_line before p (b :: c :: r).
Proof. exact (indented_pkg b c r). Qed.
Print Assumptions C54_indented_comment_refuted.
(** opening a malformed file after a good one leaves the loader with a deleted parser: every later call is undefined *)
Theorem C54_failed_reopen_refuted (s : text) (ls : list chars) (top : level) : lines_of s ls -> ~ good_file ls ->
  cOpen (Some s) (Live top) = (Dangling, Throw std_runtime_error) /\ (forall sec f, cLoad sec f Dangling = UB) /\
  (forall t, snd (cOpen (Some t) Dangling) = UB) /\ snd (cClose Dangling) = UB /\ cListSections Dangling = UB.
Proof. exact (reopen_pkg s ls top). Qed.
Print Assumptions C54_failed_reopen_refuted.
(** so is loading before a file was opened, or after Close *)
Theorem C54_load_closed (sec f : string) : cLoad sec f Null = UB /\ forall top, cClose (Live top) = (Null, Ok tt).
Proof. exact (conj eq_refl (fun top => eq_refl)). Qed.
Print Assumptions C54_load_closed.

Definition ex_text : text := list_ascii_of_string "# comment
[a]
  x = 1=2 	
[[b]]
x=3

;more
[c]
y=,p,,q r,".
Example C54_nonvacuous : exists ls top, lines_of ex_text ls /\ good_file ls /\ parseLines ls = Ok top /\ cLoad "a" "x" (Live top) = Ok "1=2"%string /\
  cLoad "b" "x" (Live top) = Throw ConfigSectionMissing /\ cLoad "c" "x" (Live top) = Throw ConfigFieldMissing /\
  cLoadList "c" "y" ["o"%string] (Live top) = Ok ["o"; "p"; "q r"]%string /\ (exists l, deref ["a"; "b"]%string top = Some l /\ sfind "x"%string (lVals l) = Some "3"%string).
Proof.
  destruct (lines_ex ex_text) as [ls L]. pose proof (lines_ok _ _ L) as E. exists ls.
  assert (P : exists top, parseLines (getlines "010" ex_text []) = Ok top) by (eexists; vm_compute; reflexivity). rewrite E in P. destruct P as [top P]. exists top.
  split; [exact L|]. split; [exact (proj1 (proj2 (proj2 (parse_pkg ls)) _ P))|]. split; [exact P|].
  rewrite <- E in P. vm_compute in P. injection P as <-. repeat split; try (vm_compute; reflexivity). eexists. split; vm_compute; reflexivity.
Qed.
(** files that break each of the rules *)
Example C54_rejected : parseText (list_ascii_of_string "[a]
[a]") = Throw std_runtime_error /\ parseText (list_ascii_of_string "[a]
x=1
x = 2") = Throw std_runtime_error /\ parseText (list_ascii_of_string "[[a]]") = Throw std_runtime_error /\ parseText (list_ascii_of_string "hello") = Throw std_runtime_error /\
  (exists top, parseText (list_ascii_of_string "[a]
x=1
[b]
x=2
[[a]]") = Ok top).
Proof. repeat split; try (vm_compute; reflexivity). eexists. vm_compute. reflexivity. Qed.
