(** Model of Load into a number: /repo/src/config/ConfigLoader.hpp:5-11 and 20-32, over a model of operator>> of std::istringstream as
    libstdc++ implements it (num_get in the C locale: _M_extract_int and _M_extract_float in locale_facets.tcc, then __convert_to_v).
    Not modelled: bool and character types; the value of strtod is a rounding function of the exact decimal value. *)
From Coq Require Import ZArith Ascii.
From Verif Require Import Base.Res Base.Num Base.SMap Model.Ini.
Local Open Scope Qc_scope.
Local Open Scope res_scope.

(** the sentry of operator>> skips what isspace accepts *)
Definition space (c : ascii) : bool := existsb (Ascii.eqb c) [" "%char; "009"%char; "010"%char; "011"%char; "012"%char; "013"%char].
Fixpoint skipSpace (s : chars) : chars := match s with c :: t => if space c then skipSpace t else s | [] => [] end.
Definition takeSign (s : chars) : bool * chars :=
  match s with c :: t => if Ascii.eqb c "-" then (true, t) else if Ascii.eqb c "+" then (false, t) else (false, s) | [] => (false, s) end.
Definition isDigit (c : ascii) : bool := Nat.leb 48 (nat_of_ascii c) && Nat.leb (nat_of_ascii c) 57.
Fixpoint takeDigits (s : chars) : chars * chars :=
  match s with c :: t => if isDigit c then let '(d, r) := takeDigits t in (c :: d, r) else ([], s) | [] => ([], []) end.
(** strtoll: the value of a run of digits *)
Definition digitsVal (ds : chars) : Z := fold_left (fun v c => (10 * v + (Z.of_nat (nat_of_ascii c) - 48))%Z) ds 0%Z.
(** num_get<integer type with values lo..hi>: base 10; no digits or a value out of range sets failbit; a minus sign on an unsigned
    type is accepted and the value is taken modulo 2^bits *)
Definition getInt (lo hi : Z) (s : chars) : res Z :=
  let '(neg, s1) := takeSign (skipSpace s) in
  let '(ds, _) := takeDigits s1 in
  match ds with
  | [] => Throw ValueError
  | _ =>
      let m := digitsVal ds in
      if Z.ltb lo 0 then
        let v := if neg then (- m)%Z else m in
        if Z.leb lo v && Z.leb v hi then Ok v else Throw ValueError
      else if Z.leb m hi then Ok (if neg then ((- m) mod (hi + 1))%Z else m) else Throw ValueError
  end.
Definition ten_pow (e : Z) : Qc := if Z.leb 0 e then qz (10 ^ e) else / qz (10 ^ (- e)).
(** num_get<double>: sign, digits, '.', digits, then an exponent if there was a digit before; the characters taken must be a number for
    strtod, so an exponent without digits fails; overflow fails.  [r] is the rounding of strtod, [big] the largest double *)
Definition takeMantissa (s : chars) : chars * chars * chars :=
  let '(ip, s2) := takeDigits s in
  match s2 with
  | c :: t => if Ascii.eqb c "." then let '(fp, s3) := takeDigits t in (ip, fp, s3) else (ip, [], s2)
  | [] => (ip, [], s2)
  end.
Definition takeExp (s : chars) : res Z :=
  match s with
  | c :: t => if Ascii.eqb c "e" || Ascii.eqb c "E" then
                let '(neg, t1) := takeSign t in
                let '(es, _) := takeDigits t1 in
                match es with [] => Throw ValueError | _ => Ok (if neg then (- digitsVal es)%Z else digitsVal es) end
              else Ok 0%Z
  | [] => Ok 0%Z
  end.
Definition getDouble (r : Qc -> Qc) (big : Qc) (s : chars) : res Qc :=
  let '(neg, s1) := takeSign (skipSpace s) in
  let '(ip, fp, s3) := takeMantissa s1 in
  match ip ++ fp with
  | [] => Throw ValueError
  | ds =>
      do e <- takeExp s3;
      let m := qz (digitsVal ds) * ten_pow (e - Z.of_nat (List.length fp)) in
      let v := r (if neg then - m else m) in
      if qltb big (qabs v) then Throw ValueError else Ok v
  end.
(** ConfigLoader.hpp:5-11 Load into an integer or a double: the variable is assigned last, so a throw leaves it alone *)
Definition cLoadInt (lo hi : Z) (section field : string) (st : loader) : res Z :=
  do v <- cLoad section field st; getInt lo hi (list_ascii_of_string v).
Definition cLoadDouble (r : Qc -> Qc) (big : Qc) (section field : string) (st : loader) : res Qc :=
  do v <- cLoad section field st; getDouble r big (list_ascii_of_string v).
