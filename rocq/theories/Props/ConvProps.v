(** C105: numbers in configuration files. *)
From Coq Require Import ZArith QArith Qcanon Ascii Lia.
From Verif Require Import Base.Res Base.Num Base.SMap Model.Ini Model.Conv Model.Float Spec.IniSpec Spec.ConvSpec Proofs.IniP4 Proofs.ConvP Props.IniProps.
Local Open Scope list_scope.

(** C105. A field read into a signed type is the whole number at the start of its text; no number there, or one that does not fit, is a
    ValueError. *)
Theorem C105_int : forall lo hi s, (lo < 0)%Z ->
  (forall v, getInt lo hi s = Ok v <-> exists a t rest, s = a ++ t ++ rest /\ Forall is_space a /\ whole_number t v /\ no_digit_next rest /\ (lo <= v <= hi)%Z) /\
  ((forall v, getInt lo hi s <> Ok v) -> getInt lo hi s = Throw ValueError).
Proof. exact int_pkg. Qed.
Print Assumptions C105_int.
Theorem C105_every_number : forall n, exists t, whole_number t n.
Proof. exact every_pkg. Qed.
Print Assumptions C105_every_number.
(** unsigned types: the same for numbers without a minus sign *)
Theorem C105_unsigned_partial : forall hi a ds m rest, (0 <= hi)%Z -> Forall is_space a -> numeral ds m -> no_digit_next rest ->
  getInt 0 hi (a ++ ds ++ rest) = if Z.leb m hi then Ok m else Throw ValueError.
Proof. intros hi a ds m rest H1 H2 H3 H4. exact (proj1 (unsigned_pkg hi a ds m rest H1 H2 H3 H4)). Qed.
Print Assumptions C105_unsigned_partial.
(** doubles: a decimal number (point and exponent optional) is read as the rounding of its value and refused if it overflows; whatever is
    accepted is the rounding of a decimal number at the start of the text; everything else is a ValueError *)
Theorem C105_double : forall r big s,
  (forall a t rest q, s = a ++ t ++ rest -> Forall is_space a -> decimal t q -> ends_decimal rest ->
     (qabs (r q) <= big -> getDouble r big s = Ok (r q))%Qc /\ (big < qabs (r q) -> getDouble r big s = Throw ValueError)%Qc) /\
  (forall v, getDouble r big s = Ok v -> (qabs v <= big)%Qc /\ exists a t rest q, s = a ++ t ++ rest /\ Forall is_space a /\ decimal t q /\ v = r q) /\
  ((forall v, getDouble r big s <> Ok v) -> getDouble r big s = Throw ValueError).
Proof. exact double_pkg. Qed.
Print Assumptions C105_double.
(** in a file: the entry of the section is what is converted *)
Theorem C105_load : forall ls top s f a h b e c t n lo hi, parseLines ls = Ok top ->
  ls = a ++ h :: b ++ e :: c -> heading h 1 s -> Forall not_heading b -> entry e f (str t) -> whole_number t n -> (lo < 0)%Z -> (lo <= n <= hi)%Z ->
  cLoadInt lo hi s f (Live top) = Ok n.
Proof.
  intros ls top s f a h b e c t n lo hi HP HL HH HB HE HN H0 HR. unfold cLoadInt.
  destruct (C54_load ls top s f HP) as [L _]. rewrite (proj2 (L (str t))) by (exists a, h, b, e, c; auto). cbn [bind].
  unfold str. rewrite list_ascii_of_string_of_list_ascii. apply (proj1 (int_pkg lo hi t H0)). exists [], t, [].
  split; [now rewrite app_nil_r|]. split; [constructor|]. split; [exact HN|]. split; [intros ? ? C; discriminate C|exact HR].
Qed.
Print Assumptions C105_load.
Theorem C105_load_double : forall ls top s f a h b e c t q r big, parseLines ls = Ok top ->
  ls = a ++ h :: b ++ e :: c -> heading h 1 s -> Forall not_heading b -> entry e f (str t) -> decimal t q -> (qabs (r q) <= big)%Qc ->
  cLoadDouble r big s f (Live top) = Ok (r q).
Proof.
  intros ls top s f a h b e c t q r big HP HL HH HB HE HN HR. unfold cLoadDouble.
  destruct (C54_load ls top s f HP) as [L _]. rewrite (proj2 (L (str t))) by (exists a, h, b, e, c; auto). cbn [bind].
  unfold str. rewrite list_ascii_of_string_of_list_ascii. apply (proj1 (double_pkg r big t) [] t [] q); [now rewrite app_nil_r|constructor|exact HN|intros ? ? C; discriminate C|exact HR].
Qed.
Print Assumptions C105_load_double.
(** text after the number is ignored without an error: 1.5 and 1e3 into an int are 1, 10,000 is 10, 0x10 is 0 *)
Definition tx (s : string) : text := list_ascii_of_string s.
Theorem C105_trailing_text_refuted : let int32 := getInt (- 2 ^ 31) (2 ^ 31 - 1) in
  int32 (tx "1.5") = Ok 1%Z /\ int32 (tx "1e3") = Ok 1%Z /\ int32 (tx "10,000") = Ok 10%Z /\ int32 (tx "0x10") = Ok 0%Z /\
  getDouble b64 (qz (2 ^ 1024)) (tx "10,000") = Ok (qz 10) /\ getDouble b64 (qz (2 ^ 1024)) (tx "5 MeV") = Ok (qz 5).
Proof. vm_compute. repeat split; f_equal; apply Qc_is_canon; reflexivity. Qed.
Print Assumptions C105_trailing_text_refuted.
(** a negative number into an unsigned type is not refused but wraps: -1 is the largest value *)
Theorem C105_negative_unsigned_refuted : forall hi ds m, (0 < m <= hi)%Z -> numeral ds m -> getInt 0 hi ("-"%char :: ds) = Ok (hi + 1 - m)%Z.
Proof.
  intros hi ds m H N. pose proof (proj2 (unsigned_pkg hi [] ds m [] ltac:(lia) (Forall_nil _) N (fun c r (E : [] = c :: r) => ltac:(discriminate E)))) as G.
  cbn [app] in G. rewrite app_nil_r in G. rewrite G. destruct (Z.leb_spec m hi); [|lia]. f_equal. symmetry. apply (Z.mod_unique _ _ (-1)); lia.
Qed.
Print Assumptions C105_negative_unsigned_refuted.
Lemma ex_numeral : numeral (tx "42") 42.
Proof. exact (num_more (tx "4") 4 2 (num_one 4 ltac:(lia)) ltac:(lia)). Qed.
Example C105_nonvacuous : whole_number (tx "-42") (-42) /\ getInt (- 2 ^ 31) (2 ^ 31 - 1) (tx " -42 # x") = Ok (-42)%Z /\
  getInt (- 2 ^ 31) (2 ^ 31 - 1) (tx "2147483648") = Throw ValueError /\ getInt (- 2 ^ 31) (2 ^ 31 - 1) (tx "abc") = Throw ValueError /\
  decimal (tx "-4.2e1") (qz (-42)) /\ getDouble b64 (qz (2 ^ 1024)) (tx "-4.2e1") = Ok (qz (-42)) /\ getDouble b64 (qz (2 ^ 1024)) (tx "1e") = Throw ValueError /\
  getDouble b64 (qz (2 ^ 1024)) (tx "1e999") = Throw ValueError.
Proof.
  split; [exists (tx "-"), (-1)%Z, (tx "42"), 42%Z; split; [constructor|split; [exact ex_numeral|split; reflexivity]]|].
  split; [vm_compute; reflexivity|]. split; [vm_compute; reflexivity|]. split; [vm_compute; reflexivity|]. split.
  - exists (tx "-"), (-1)%Z, (tx "4.2"), 42%Z, 1%nat, (tx "e1"), 1%Z, 1%Qc. split; [constructor|]. split; [right; exists (tx "4"), (tx "2"); split; [reflexivity|split; [exact ex_numeral|reflexivity]]|].
    split; [right; exists "e"%char, (tx "1"); split; [now left|split; [reflexivity|]]; exists [], 1%Z, (tx "1"), 1%Z; split; [constructor|split; [exact (num_one 1 ltac:(lia))|split; reflexivity]]|].
    split; [left; split; [lia|apply Qc_is_canon; reflexivity]|]. split; [reflexivity|apply Qc_is_canon; reflexivity].
  - split; [vm_compute; f_equal; apply Qc_is_canon; reflexivity|]. split; vm_compute; reflexivity.
Qed.
(** a file with such an entry *)
Definition ex_ini : text := tx "[fit]
n = 42".
Example C105_load_nonvacuous : exists top, parseText ex_ini = Ok top /\ cLoadInt (- 2 ^ 31) (2 ^ 31 - 1) "fit" "n" (Live top) = Ok 42%Z.
Proof. exists (match parseText ex_ini with Ok t => t | _ => newLevel end). split; vm_compute; reflexivity. Qed.
