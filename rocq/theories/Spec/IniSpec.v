(** Independent vocabulary for C54: the meaning of an ini file, line by line. *)
From Coq Require Import List String Ascii.
Import ListNotations.
Local Open Scope list_scope.
Definition text := list ascii.
Definition str (s : text) : string := string_of_list_ascii s.

(** space, tab, carriage return, newline and NUL *)
Definition is_blank (c : ascii) : Prop := c = " "%char \/ c = "009"%char \/ c = "013"%char \/ c = "010"%char \/ c = "000"%char.
(** t is s without the blanks at its ends *)
Definition trimmed (s t : text) : Prop :=
  exists a b, s = a ++ t ++ b /\ Forall is_blank a /\ Forall is_blank b /\
    (forall c r, t = c :: r -> ~ is_blank c) /\ (forall c r, t = r ++ [c] -> ~ is_blank c).
Definition comment (l : text) : Prop := exists c r, l = c :: r /\ (c = "#"%char \/ c = ";"%char).
Definition ignored (l : text) : Prop := comment l \/ Forall is_blank l.
(** a heading at depth d: after trimming, d opening brackets; the name is what follows them, less d closing characters *)
Definition heading (l : text) (d : nat) (n : string) : Prop :=
  exists rest, trimmed l (repeat "["%char d ++ rest) /\ 1 <= d /\ (forall r, rest <> "["%char :: r) /\
    n = str (if Nat.leb d (List.length rest) then firstn (List.length rest - d) rest else rest).
(** key = value: split at the first '=' *)
Definition entry (l : text) (k v : string) : Prop :=
  ~ comment l /\ exists a b ka vb, trimmed l (a ++ "="%char :: b) /\ (forall r, a <> "["%char :: r) /\ ~ In "="%char a /\
    trimmed a ka /\ trimmed b vb /\ k = str ka /\ v = str vb.
Definition not_heading (l : text) : Prop := forall d n, ~ heading l d n.
(** the section (its name below those of the sections around it) that the line after ls belongs to *)
Inductive in_section : list text -> list string -> Prop :=
| is_top : in_section [] []
| is_heading ls p l d n : in_section ls p -> heading l d n -> d <= List.length p + 1 -> in_section (ls ++ [l]) (firstn (d - 1) p ++ [n])
| is_other ls p l : in_section ls p -> not_heading l -> in_section (ls ++ [l]) p.
(** section p has a heading in ls; ls gives the key k of section p the value v *)
Definition opened (ls : list text) (p : list string) : Prop :=
  exists a l b d n, ls = a ++ l :: b /\ heading l d n /\ in_section (a ++ [l]) p.
Definition defines (ls : list text) (p : list string) (k v : string) : Prop :=
  exists a l b, ls = a ++ l :: b /\ entry l k v /\ in_section a p.
(** the rules: a heading at most one deeper than the current section and not repeated; a key not repeated in its section *)
Definition good_line (before : list text) (p : list string) (l : text) : Prop :=
  ignored l \/
  (exists d n, heading l d n /\ d <= List.length p + 1 /\ ~ opened before (firstn (d - 1) p ++ [n])) \/
  (exists k v, entry l k v /\ forall v', ~ defines before p k v').
Definition good_file (ls : list text) : Prop := forall a l b, ls = a ++ l :: b -> exists p, in_section a p /\ good_line a p l.

(** the lines of a text *)
Inductive lines_of : text -> list text -> Prop :=
| lo_none : lines_of [] []
| lo_last l : l <> [] -> ~ In "010"%char l -> lines_of l [l]
| lo_line l s ls : ~ In "010"%char l -> lines_of s ls -> lines_of (l ++ "010"%char :: s) (l :: ls).
(** the pieces between the commas of a text *)
Inductive pieces_of : text -> list text -> Prop :=
| po_last l : ~ In ","%char l -> pieces_of l [l]
| po_more l s ls : ~ In ","%char l -> pieces_of s ls -> pieces_of (l ++ ","%char :: s) (l :: ls).
