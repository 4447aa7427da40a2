(** Vocabulary for C105: what a written number means. *)
From Coq Require Import ZArith QArith Qcanon Ascii List.
From Verif Require Import Base.Num Spec.IniSpec.
Import ListNotations.
Local Open Scope list_scope.

Definition is_digit (c : ascii) : Prop := exists d, (d <= 9)%nat /\ c = ascii_of_nat (48 + d).
(** white space: space, tab, newline, vertical tab, form feed, carriage return *)
Definition is_space (c : ascii) : Prop := In c [" "%char; "009"%char; "010"%char; "011"%char; "012"%char; "013"%char].
(** ds is a non-empty row of digits and n its value: each digit counts ten times the next *)
Inductive numeral : text -> Z -> Prop :=
| num_one d : (d <= 9)%nat -> numeral [ascii_of_nat (48 + d)] (Z.of_nat d)
| num_more ds n d : numeral ds n -> (d <= 9)%nat -> numeral (ds ++ [ascii_of_nat (48 + d)]) (10 * n + Z.of_nat d).
(** an optional sign *)
Inductive sign : text -> Z -> Prop := sg_none : sign [] 1 | sg_plus : sign ["+"%char] 1 | sg_minus : sign ["-"%char] (-1).
(** a whole number, and what cannot follow it without being part of it *)
Definition whole_number (t : text) (n : Z) : Prop := exists sg k ds m, sign sg k /\ numeral ds m /\ t = sg ++ ds /\ n = (k * m)%Z.
Definition no_digit_next (rest : text) : Prop := forall c r, rest = c :: r -> ~ is_digit c.
(** 10^e for any whole e *)
Definition power10 (e : Z) (p : Qc) : Prop := (0 <= e)%Z /\ p = qz (10 ^ e) \/ (e <= 0)%Z /\ (p * qz (10 ^ (- e)) = 1)%Qc.
(** digits, possibly with a decimal point among, before or after them: the value is n / 10^k *)
Definition mantissa (t : text) (n : Z) (k : nat) : Prop :=
  numeral t n /\ k = 0%nat \/ exists a b, t = a ++ "."%char :: b /\ numeral (a ++ b) n /\ k = List.length b.
Definition exponent (t : text) (e : Z) : Prop :=
  t = [] /\ e = 0%Z \/ exists c u, (c = "e"%char \/ c = "E"%char) /\ t = c :: u /\ whole_number u e.
Definition decimal (t : text) (q : Qc) : Prop :=
  exists sg k mt n f ex e p, sign sg k /\ mantissa mt n f /\ exponent ex e /\ power10 (e - Z.of_nat f) p /\
    t = sg ++ mt ++ ex /\ q = (qz (k * n) * p)%Qc.
(** what cannot follow a decimal number without being taken for part of it *)
Definition ends_decimal (rest : text) : Prop :=
  forall c r, rest = c :: r -> ~ is_digit c /\ c <> "."%char /\ c <> "e"%char /\ c <> "E"%char.
