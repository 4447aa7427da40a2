(** C105: numbers in configuration files. *)
From Coq Require Import ZArith QArith Qcanon Ascii Lia.
From Verif Require Import Base.Res Base.Num Base.SMap Model.Ini Model.Conv Spec.IniSpec Spec.ConvSpec.
Local Open Scope nat_scope.
Local Open Scope list_scope.

Lemma isDigit_iff c : isDigit c = true <-> is_digit c.
Proof.
  unfold isDigit, is_digit. rewrite Bool.andb_true_iff, !Nat.leb_le. split.
  - intros [A B]. exists (nat_of_ascii c - 48). split; [lia|]. replace (48 + (nat_of_ascii c - 48)) with (nat_of_ascii c) by lia. now rewrite ascii_nat_embedding.
  - intros [d [H ->]]. rewrite nat_ascii_embedding by lia. lia.
Qed.
Lemma digit_val d : d <= 9 -> nat_of_ascii (ascii_of_nat (48 + d)) = 48 + d.
Proof. intros H. apply nat_ascii_embedding. lia. Qed.
Lemma space_iff c : space c = true <-> is_space c.
Proof.
  unfold space, is_space. rewrite existsb_exists. split.
  - intros [x [Hx E]]. apply Ascii.eqb_eq in E as ->. exact Hx.
  - intros H. exists c. split; [exact H|apply Ascii.eqb_refl].
Qed.
Lemma digit_not_space c : is_digit c -> space c = false.
Proof.
  intros H. destruct (space c) eqn:E; [|reflexivity]. apply isDigit_iff in H. apply space_iff in E. unfold is_space in E. cbn in E.
  destruct E as [<-|[<-|[<-|[<-|[<-|[<-|[]]]]]]]; discriminate.
Qed.
Lemma skip_app a s : Forall is_space a -> (forall c r, s = c :: r -> space c = false) -> skipSpace (a ++ s) = s.
Proof.
  intros F H. induction F as [|c a Hc F IH]; cbn [app skipSpace].
  - destruct s as [|c r]; [reflexivity|]. cbn [skipSpace]. now rewrite (H c r eq_refl).
  - apply space_iff in Hc. now rewrite Hc.
Qed.
Lemma skip_split s : exists a, s = a ++ skipSpace s /\ Forall is_space a.
Proof.
  induction s as [|c s [a [IH F]]]; [exists []; now split|]. cbn [skipSpace]. destruct (space c) eqn:E.
  - exists (c :: a). split; [cbn; now rewrite <- IH|]. constructor; [now apply space_iff|exact F].
  - exists []. now split.
Qed.
Lemma take_app d r : Forall is_digit d -> no_digit_next r -> takeDigits (d ++ r) = (d, r).
Proof.
  intros F H. induction F as [|c d Hc F IH]; cbn [app takeDigits].
  - destruct r as [|c r]; [reflexivity|]. cbn [takeDigits]. destruct (isDigit c) eqn:E; [|reflexivity]. exfalso. apply (H c r eq_refl). now apply isDigit_iff.
  - apply isDigit_iff in Hc. rewrite Hc, IH. reflexivity.
Qed.
Lemma take_split s d r : takeDigits s = (d, r) -> s = d ++ r /\ Forall is_digit d /\ no_digit_next r.
Proof.
  revert d r. induction s as [|c s IH]; intros d r E; cbn [takeDigits] in E.
  - injection E as <- <-. repeat split; [constructor|intros ? ? C; discriminate C].
  - destruct (isDigit c) eqn:D.
    + destruct (takeDigits s) as [d' r'] eqn:E'. injection E as <- <-. destruct (IH _ _ eq_refl) as [-> [F N]]. repeat split; [|exact N]. constructor; [now apply isDigit_iff|exact F].
    + injection E as <- <-. repeat split; [constructor|]. intros c' r' [= <- <-] C. apply isDigit_iff in C. congruence.
Qed.
Lemma digitsVal_snoc ds c : digitsVal (ds ++ [c]) = (10 * digitsVal ds + (Z.of_nat (nat_of_ascii c) - 48))%Z.
Proof. unfold digitsVal. now rewrite fold_left_app. Qed.
Lemma numeral_iff ds n : numeral ds n <-> ds <> [] /\ Forall is_digit ds /\ n = digitsVal ds.
Proof.
  split.
  - intros H. induction H as [d Hd|ds n d H [IH1 [IH2 IH3]] Hd].
    + split; [discriminate|]. split; [repeat constructor; now exists d|]. change [ascii_of_nat (48 + d)] with ([] ++ [ascii_of_nat (48 + d)]). rewrite digitsVal_snoc, digit_val by exact Hd. change (digitsVal []) with 0%Z. lia.
    + split; [intros C; apply app_eq_nil in C as [_ C]; discriminate|]. split; [apply Forall_app; split; [exact IH2|repeat constructor; now exists d]|].
      rewrite digitsVal_snoc, digit_val by exact Hd. subst n. lia.
  - intros [H1 [H2 H3]]. subst n. induction ds as [|c ds IH] using rev_ind; [congruence|].
    apply Forall_app in H2 as [F Fc]. pose proof (Forall_inv Fc) as [d [Hd E]]. subst c. rewrite digitsVal_snoc, digit_val by exact Hd.
    replace (Z.of_nat (48 + d) - 48)%Z with (Z.of_nat d) by lia. destruct ds as [|x ds].
    + cbn [app]. replace (10 * digitsVal [] + Z.of_nat d)%Z with (Z.of_nat d) by reflexivity. now constructor.
    + constructor; [|exact Hd]. apply IH; [discriminate|exact F].
Qed.
Lemma digit_not_sign c : is_digit c -> Ascii.eqb c "-" = false /\ Ascii.eqb c "+" = false.
Proof.
  intros H. apply isDigit_iff in H. split; (destruct (Ascii.eqb_spec c "-") as [->|] || destruct (Ascii.eqb_spec c "+") as [->|]); try reflexivity; try discriminate.
  destruct (Ascii.eqb_spec c "+") as [->|]; [discriminate|reflexivity].
Qed.
Lemma takeSign_app sg k s : sign sg k -> (forall c r, s = c :: r -> c <> "-"%char /\ c <> "+"%char) ->
  takeSign (sg ++ s) = (Z.ltb k 0, s).
Proof.
  intros [] H; cbn; try reflexivity. destruct s as [|c r]; [reflexivity|]. destruct (H c r eq_refl) as [A B]. cbn.
  destruct (Ascii.eqb_spec c "-"); [contradiction|]. destruct (Ascii.eqb_spec c "+"); [contradiction|]. reflexivity.
Qed.
Lemma takeSign_split s neg t : takeSign s = (neg, t) -> exists sg k, sign sg k /\ s = sg ++ t /\ k = (if neg then -1 else 1)%Z.
Proof.
  destruct s as [|c s]; cbn; [intros [= <- <-]; exists [], 1%Z; repeat constructor|].
  destruct (Ascii.eqb_spec c "-") as [->|]; [intros [= <- <-]; exists ["-"%char], (-1)%Z; repeat constructor|].
  destruct (Ascii.eqb_spec c "+") as [->|]; intros [= <- <-]; [exists ["+"%char], 1%Z|exists [], 1%Z]; repeat constructor.
Qed.
Lemma sign_nospace sg k s : sign sg k -> (forall c r, s = c :: r -> space c = false) -> forall c r, sg ++ s = c :: r -> space c = false.
Proof. intros [] H c r E; [now apply (H c r)| |]; injection E as <- _; reflexivity. Qed.
Lemma digits_head ds r : ds <> [] -> Forall is_digit ds -> forall c t, ds ++ r = c :: t -> is_digit c.
Proof. intros H F c t E. destruct ds; [congruence|]. inversion F; subst. now injection E as <- _. Qed.

(** signed and unsigned whole numbers *)
Lemma getInt_app lo hi a sg k ds m rest : Forall is_space a -> sign sg k -> numeral ds m -> no_digit_next rest ->
  getInt lo hi (a ++ (sg ++ ds) ++ rest) =
    if Z.ltb lo 0 then if Z.leb lo (k * m) && Z.leb (k * m) hi then Ok (k * m)%Z else Throw ValueError
    else if Z.leb m hi then Ok (if Z.ltb k 0 then ((- m) mod (hi + 1))%Z else m) else Throw ValueError.
Proof.
  intros Fa Hs Hn Hr. apply numeral_iff in Hn as [N1 [N2 ->]]. pose proof (digits_head ds rest N1 N2) as HD. unfold getInt. rewrite <- app_assoc.
  rewrite skip_app; [|exact Fa|]. 2:{ apply (sign_nospace sg k); [exact Hs|]. intros c r E. apply digit_not_space. now apply (HD c r). }
  rewrite (takeSign_app sg k); [|exact Hs|]. 2:{ intros c r E. specialize (HD c r E). apply digit_not_sign in HD as [A B]. apply Ascii.eqb_neq in A, B. now split. }
  rewrite take_app by assumption. destruct ds as [|c ds]; [congruence|].
  assert (K : (if Z.ltb k 0 then - digitsVal (c :: ds) else digitsVal (c :: ds))%Z = (k * digitsVal (c :: ds))%Z) by (destruct Hs; cbn [Z.ltb Z.compare]; lia).
  destruct (Z.ltb lo 0); [|reflexivity]. rewrite K. reflexivity.
Qed.
Lemma getInt_inv lo hi s : getInt lo hi s = Throw ValueError \/
  exists v a sg k ds m rest, getInt lo hi s = Ok v /\ s = a ++ (sg ++ ds) ++ rest /\ Forall is_space a /\ sign sg k /\ numeral ds m /\ no_digit_next rest.
Proof.
  destruct (skip_split s) as [a [E F]]. destruct (takeSign (skipSpace s)) as [neg s1] eqn:E1. destruct (takeSign_split _ _ _ E1) as [sg [k [Hs [E2 Hk]]]].
  destruct (takeDigits s1) as [ds rest] eqn:E3. destruct (take_split _ _ _ E3) as [E4 [Fd N]].
  destruct ds as [|c ds].
  - left. unfold getInt. now rewrite E1, E3.
  - assert (Hn : numeral (c :: ds) (digitsVal (c :: ds))) by (apply numeral_iff; repeat split; [discriminate|exact Fd]).
    assert (ES : s = a ++ (sg ++ (c :: ds)) ++ rest) by (rewrite E at 1; rewrite E2, E4; now rewrite !app_assoc).
    pose proof (getInt_app lo hi a sg k (c :: ds) _ rest F Hs Hn N) as G. rewrite <- ES in G. rewrite G.
    destruct (Z.ltb lo 0); [destruct (Z.leb lo _ && Z.leb _ hi)|destruct (Z.leb _ hi)]; try (left; reflexivity); right; eexists; exists a, sg, k, (c :: ds), (digitsVal (c :: ds)), rest; (split; [reflexivity|]); repeat split; auto.
Qed.
Lemma int_pkg lo hi s : (lo < 0)%Z -> 
  (forall v, getInt lo hi s = Ok v <-> exists a t rest, s = a ++ t ++ rest /\ Forall is_space a /\ whole_number t v /\ no_digit_next rest /\ (lo <= v <= hi)%Z) /\
  ((forall v, getInt lo hi s <> Ok v) -> getInt lo hi s = Throw ValueError).
Proof.
  intros Hlo. assert (L : Z.ltb lo 0 = true) by (apply Z.ltb_lt; exact Hlo). split.
  - intros v. split.
    + intros E. destruct (getInt_inv lo hi s) as [C|[v' [a [sg [k [ds [m [rest [E' [ES [Fa [Hs [Hn N]]]]]]]]]]]]]; [congruence|].
      rewrite E in E'. injection E' as <-. rewrite ES in E. rewrite (getInt_app lo hi a sg k ds m rest) in E by assumption. rewrite L in E.
      destruct (Z.leb_spec lo (k * m)); cbn [andb] in E; [|discriminate]. destruct (Z.leb_spec (k * m) hi); [|discriminate]. injection E as <-.
      exists a, (sg ++ ds), rest. split; [exact ES|]. split; [exact Fa|]. split; [exists sg, k, ds, m; auto|]. split; [exact N|lia].
    + intros [a [t [rest [-> [Fa [[sg [k [ds [m [Hs [Hn [-> ->]]]]]]] [N R]]]]]]]. rewrite (getInt_app lo hi a sg k ds m rest) by assumption. rewrite L.
      destruct (Z.leb_spec lo (k * m)); [|lia]. destruct (Z.leb_spec (k * m) hi); [|lia]. reflexivity.
  - intros H. destruct (getInt_inv lo hi s) as [C|[v' [a [sg [k [ds [m [rest [E' _]]]]]]]]]; [exact C|]. exfalso. exact (H _ E').
Qed.
Lemma unsigned_pkg hi a ds m rest : (0 <= hi)%Z -> Forall is_space a -> numeral ds m -> no_digit_next rest ->
  getInt 0 hi (a ++ ds ++ rest) = (if Z.leb m hi then Ok m else Throw ValueError) /\
  getInt 0 hi (a ++ ("-"%char :: ds) ++ rest) = (if Z.leb m hi then Ok ((- m) mod (hi + 1))%Z else Throw ValueError).
Proof.
  intros Hh Fa Hn N. split.
  - rewrite (getInt_app 0 hi a [] 1 ds m rest Fa sg_none Hn N : getInt 0 hi (a ++ ds ++ rest) = _). reflexivity.
  - rewrite (getInt_app 0 hi a ["-"%char] (-1) ds m rest Fa sg_minus Hn N : getInt 0 hi (a ++ ("-"%char :: ds) ++ rest) = _). reflexivity.
Qed.
Lemma every_pkg n : exists t, whole_number t n.
Proof.
  assert (G : forall k, (0 <= k)%Z -> exists ds, numeral ds k).
  { intros k Hk. apply (Z_lt_induction (fun k => (0 <= k)%Z -> exists ds, numeral ds k)); [|exact Hk|exact Hk].
    intros x IH C. destruct (Z_lt_ge_dec x 10) as [D|D].
    - exists [ascii_of_nat (48 + Z.to_nat x)]. rewrite <- (Z2Nat.id x) at 2 by lia. constructor. lia.
    - destruct (IH (x / 10)%Z) as [ds H]; [split; [apply Z.div_pos; lia|apply Z.div_lt; lia]|apply Z.div_pos; lia|].
      pose proof (Z.mod_pos_bound x 10 ltac:(lia)) as B. exists (ds ++ [ascii_of_nat (48 + Z.to_nat (x mod 10))]).
      assert (X : x = (10 * (x / 10) + Z.of_nat (Z.to_nat (x mod 10)))%Z) by (rewrite Z2Nat.id by lia; apply Z.div_mod; lia). rewrite X at 2. constructor; [exact H|lia]. }
  destruct (Z_le_gt_dec 0 n) as [P|P].
  - destruct (G n P) as [ds H]. exists ds, [], 1%Z, ds, n. repeat split; [constructor|exact H|lia].
  - destruct (G (- n)%Z ltac:(lia)) as [ds H]. exists ("-"%char :: ds), ["-"%char], (-1)%Z, ds, (- n)%Z. repeat split; [constructor|exact H|lia].
Qed.

(** decimals *)
Lemma take_mantissa mt n f t : mantissa mt n f -> no_digit_next t -> (forall r, t <> "."%char :: r) ->
  exists ip fp, takeMantissa (mt ++ t) = (ip, fp, t) /\ ip ++ fp <> [] /\ digitsVal (ip ++ fp) = n /\ List.length fp = f.
Proof.
  intros [[Hn ->]|[a [b [-> [Hn ->]]]]] ND NP; apply numeral_iff in Hn as [N1 [N2 N3]].
  - exists mt, []. unfold takeMantissa. rewrite take_app by assumption. rewrite app_nil_r. split; [|repeat split; [exact N1|congruence]].
    destruct t as [|c t]; [reflexivity|]. destruct (Ascii.eqb_spec c ".") as [->|]; [exfalso; exact (NP t eq_refl)|reflexivity].
  - exists a, b. apply Forall_app in N2 as [Fa Fb]. unfold takeMantissa. rewrite <- app_assoc. cbn [app].
    rewrite take_app; [|exact Fa|]. 2:{ intros c r [= <- <-] C. apply isDigit_iff in C. discriminate. }
    cbn [Ascii.eqb Bool.eqb]. rewrite take_app by assumption. repeat split; [exact N1|congruence].
Qed.
Lemma take_mantissa_inv s ip fp t : takeMantissa s = (ip, fp, t) -> ip ++ fp <> [] ->
  exists mt, s = mt ++ t /\ mantissa mt (digitsVal (ip ++ fp)) (List.length fp) /\ no_digit_next t.
Proof.
  intros E N. unfold takeMantissa in E. destruct (takeDigits s) as [ip' s2] eqn:E1. destruct (take_split _ _ _ E1) as [-> [F1 ND]].
  assert (C0 : (ip', [], s2) = (ip, fp, t) -> exists mt, ip' ++ s2 = mt ++ t /\ mantissa mt (digitsVal (ip ++ fp)) (List.length fp) /\ no_digit_next t).
  { intros [= <- <- <-]. rewrite app_nil_r in *. exists ip'. split; [reflexivity|]. split; [|exact ND]. left. split; [|reflexivity]. apply numeral_iff. auto. }
  destruct s2 as [|c s2]; [exact (C0 E)|]. destruct (Ascii.eqb_spec c ".") as [->|]; [|exact (C0 E)]. clear C0.
  destruct (takeDigits s2) as [fp' s3] eqn:E2. injection E as <- <- <-. destruct (take_split _ _ _ E2) as [-> [F2 ND2]].
  exists (ip' ++ "."%char :: fp'). rewrite <- app_assoc. split; [reflexivity|]. split; [|exact ND2]. right. exists ip', fp'. split; [reflexivity|]. split; [|reflexivity].
  apply numeral_iff. split; [exact N|]. split; [apply Forall_app; now split|reflexivity].
Qed.
Lemma take_exp ex e rest : exponent ex e -> ends_decimal rest -> takeExp (ex ++ rest) = Ok e.
Proof.
  intros [[-> ->]|[c [u [Hc [-> [sg [k [ds [m [Hs [Hn [-> ->]]]]]]]]]]]] HE.
  - cbn [app]. destruct rest as [|c r]; [reflexivity|]. destruct (HE c r eq_refl) as [_ [_ [A B]]]. unfold takeExp.
    destruct (Ascii.eqb_spec c "e"); [contradiction|]. destruct (Ascii.eqb_spec c "E"); [contradiction|]. reflexivity.
  - cbn [app takeExp]. assert (X : Ascii.eqb c "e" || Ascii.eqb c "E" = true) by (destruct Hc as [-> | ->]; reflexivity). rewrite X. clear X.
    assert (Hn' := Hn). apply numeral_iff in Hn' as [N1 [N2 N3]]. pose proof (digits_head ds rest N1 N2) as HD. rewrite <- app_assoc.
    rewrite (takeSign_app sg k); [|exact Hs|]. 2:{ intros d r E. specialize (HD d r E). apply digit_not_sign in HD as [A B]. apply Ascii.eqb_neq in A, B. now split. }
    rewrite take_app; [|exact N2|intros d r E; now apply (HE d r)]. destruct ds as [|d ds]; [congruence|]. rewrite <- N3. f_equal. destruct Hs; cbn [Z.ltb Z.compare]; lia.
Qed.
Lemma take_exp_inv s e : no_digit_next s -> takeExp s = Ok e -> exists ex rest, s = ex ++ rest /\ exponent ex e.
Proof.
  intros ND E. destruct s as [|c s]; [injection E as <-; exists [], []; split; [reflexivity|now left]|]. cbn [takeExp] in E.
  destruct (Ascii.eqb c "e" || Ascii.eqb c "E") eqn:C; [|injection E as <-; exists [], (c :: s); split; [reflexivity|now left]].
  destruct (takeSign s) as [neg t1] eqn:E1. destruct (takeSign_split _ _ _ E1) as [sg [k [Hs [-> Hk]]]]. destruct (takeDigits t1) as [es rest] eqn:E2.
  destruct (take_split _ _ _ E2) as [-> [F _]]. destruct es as [|d es]; [discriminate|]. injection E as <-.
  exists (c :: sg ++ d :: es), rest. split; [cbn; now rewrite <- app_assoc|]. right. exists c, (sg ++ d :: es). split; [|split; [reflexivity|]].
  - apply Bool.orb_true_iff in C as [C|C]; apply Ascii.eqb_eq in C; auto.
  - exists sg, k, (d :: es), (digitsVal (d :: es)). split; [exact Hs|]. split; [apply numeral_iff; repeat split; [discriminate|exact F]|]. split; [reflexivity|]. subst k. destruct neg; lia.
Qed.
Lemma qz_zero z : qz z = 0%Qc -> z = 0%Z.
Proof. intros H. apply (f_equal this) in H. pose proof (this_qz z) as T. rewrite H in T. unfold Qeq, inject_Z in T. cbn in T. lia. Qed.
Lemma ten_pow_ok e : power10 e (ten_pow e).
Proof.
  unfold power10, ten_pow. destruct (Z.leb_spec 0 e) as [H|H]; [left; now split|right]. split; [lia|].
  rewrite Qcmult_comm. apply Qcmult_inv_r. intros C. apply qz_zero in C. pose proof (Z.pow_pos_nonneg 10 (- e) ltac:(lia) ltac:(lia)). lia.
Qed.
Lemma ten_pow_unique e p : power10 e p -> p = ten_pow e.
Proof.
  intros [[H ->]|[H E]]; unfold ten_pow.
  - destruct (Z.leb_spec 0 e); [reflexivity|lia].
  - destruct (Z.leb_spec 0 e) as [H0|H0].
    + assert (e = 0%Z) as -> by lia. change (qz (10 ^ (- 0))) with (1%Qc) in E. change (qz (10 ^ 0)) with 1%Qc. rewrite <- E. symmetry. apply Qcmult_1_r.
    + assert (X : qz (10 ^ (- e)) <> 0%Qc) by (intros C; rewrite C, Qcmult_0_r in E; discriminate).
      rewrite <- (Qcmult_1_r (/ qz (10 ^ (- e)))). rewrite <- E. rewrite (Qcmult_comm p). rewrite Qcmult_assoc, (Qcmult_comm (/ _)), Qcmult_inv_r by exact X. symmetry. apply Qcmult_1_l.
Qed.
Lemma signed_val k n (p : Qc) sg : sign sg k -> (if Z.ltb k 0 then (- (qz n * p)) else (qz n * p))%Qc = (qz (k * n) * p)%Qc.
Proof.
  intros []; cbn [Z.ltb Z.compare]; [now rewrite Z.mul_1_l|now rewrite Z.mul_1_l|]. replace (-1 * n)%Z with (- n)%Z by lia.
  replace (qz (- n)) with (- qz n)%Qc; [ring|]. apply Qc_is_canon. rewrite this_qz. change (this (- qz n)%Qc) with (Qred (- this (qz n))). rewrite Qred_correct, this_qz. unfold Qeq, inject_Z. cbn. lia.
Qed.
Lemma mantissa_head mt n f t : mantissa mt n f -> forall c r, mt ++ t = c :: r -> is_digit c \/ c = "."%char.
Proof.
  intros [[H _]|[a [b [-> [H _]]]]] c r E; apply numeral_iff in H as [N1 [N2 _]].
  - left. exact (digits_head mt t N1 N2 c r E).
  - destruct a as [|x a]; cbn in E; injection E as <- _; [now right|]. cbn in N2. inversion N2; subst. now left.
Qed.
Lemma getDouble_app r big a t q rest : Forall is_space a -> decimal t q -> ends_decimal rest ->
  getDouble r big (a ++ t ++ rest) = if qltb big (qabs (r q)) then Throw ValueError else Ok (r q).
Proof.
  intros Fa [sg [k [mt [n [f [ex [e [p [Hs [Hm [He [Hp [-> ->]]]]]]]]]]]]] HE. unfold getDouble. pose proof (mantissa_head mt n f (ex ++ rest) Hm) as HH.
  replace ((sg ++ mt ++ ex) ++ rest) with (sg ++ mt ++ ex ++ rest) by (now rewrite <- !app_assoc).
  rewrite skip_app; [|exact Fa|]. 2:{ apply (sign_nospace sg k); [exact Hs|]. intros c r0 E. destruct (HH c r0 E) as [D| ->]; [now apply digit_not_space|reflexivity]. }
  rewrite (takeSign_app sg k); [|exact Hs|]. 2:{ intros c r0 E. destruct (HH c r0 E) as [D| ->]; [|split; discriminate]. apply digit_not_sign in D as [A B]. apply Ascii.eqb_neq in A, B. now split. }
  assert (XD : forall c r0, ex ++ rest = c :: r0 -> ~ is_digit c /\ c <> "."%char).
  { intros c r0 E. destruct He as [[-> _]|[c' [u [Hc [-> _]]]]]; [destruct (HE c r0 E) as [A [B _]]; now split|]. injection E as <- _. split; [|destruct Hc as [-> | ->]; discriminate].
    intros D. apply isDigit_iff in D. destruct Hc as [-> | ->]; discriminate. }
  destruct (take_mantissa mt n f (ex ++ rest) Hm) as [ip [fp [E [N [V L]]]]].
  - intros c r0 E. now apply (XD c r0).
  - intros r0 E. now apply (XD "."%char r0 E).
  - rewrite E. rewrite (take_exp ex e rest He HE). cbn [bind]. rewrite L, <- (ten_pow_unique _ _ Hp). destruct (ip ++ fp) as [|d ds] eqn:EI; [congruence|]. rewrite V. rewrite (signed_val k n p sg Hs). reflexivity.
Qed.
Lemma getDouble_inv r big s : getDouble r big s = Throw ValueError \/
  exists a t rest q, s = a ++ t ++ rest /\ Forall is_space a /\ decimal t q /\ getDouble r big s = Ok (r q) /\ qltb big (qabs (r q)) = false.
Proof.
  destruct (skip_split s) as [a [E F]]. destruct (takeSign (skipSpace s)) as [neg s1] eqn:E1. destruct (takeSign_split _ _ _ E1) as [sg [k [Hs [E2 Hk]]]].
  destruct (takeMantissa s1) as [[ip fp] s3] eqn:E3. unfold getDouble. rewrite E1, E3. destruct (ip ++ fp) as [|d ds] eqn:EI; [now left|].
  destruct (take_mantissa_inv _ _ _ _ E3) as [mt [E4 [Hm ND]]]; [rewrite EI; discriminate|].
  destruct (takeExp s3) as [e|x| | |] eqn:E5; cbn [bind].
  - destruct (take_exp_inv s3 e ND E5) as [ex [rest [E6 He]]]. rewrite EI in Hm.
    pose (q := (qz (k * digitsVal (d :: ds)) * ten_pow (e - Z.of_nat (List.length fp)))%Qc).
    assert (Q : (if neg then - (qz (digitsVal (d :: ds)) * ten_pow (e - Z.of_nat (List.length fp))) else qz (digitsVal (d :: ds)) * ten_pow (e - Z.of_nat (List.length fp)))%Qc = q).
    { unfold q. rewrite <- (signed_val k _ _ sg Hs). subst k. destruct neg; reflexivity. }
    rewrite Q. destruct (qltb big (qabs (r q))) eqn:B; [now left|]. right. exists a, (sg ++ mt ++ ex), rest, q. split; [rewrite E at 1; rewrite E2, E4, E6; now rewrite <- !app_assoc|].
    split; [exact F|]. split; [|split; [reflexivity|exact B]]. exists sg, k, mt, (digitsVal (d :: ds)), (List.length fp), ex, e, (ten_pow (e - Z.of_nat (List.length fp))).
    split; [exact Hs|]. split; [exact Hm|]. split; [exact He|]. split; [apply ten_pow_ok|]. split; reflexivity.
  - left. destruct s3 as [|c s3]; [discriminate|]. cbn [takeExp] in E5. destruct (Ascii.eqb c "e" || Ascii.eqb c "E"); [|discriminate]. destruct (takeSign s3) as [? t1]. destruct (takeDigits t1) as [[|? ?] ?]; [|discriminate]. congruence.
  - exfalso. destruct s3 as [|c s3]; [discriminate|]. cbn [takeExp] in E5. destruct (Ascii.eqb c "e" || Ascii.eqb c "E"); [|discriminate]. destruct (takeSign s3) as [? t1]. destruct (takeDigits t1) as [[|? ?] ?]; discriminate.
  - exfalso. destruct s3 as [|c s3]; [discriminate|]. cbn [takeExp] in E5. destruct (Ascii.eqb c "e" || Ascii.eqb c "E"); [|discriminate]. destruct (takeSign s3) as [? t1]. destruct (takeDigits t1) as [[|? ?] ?]; discriminate.
  - exfalso. destruct s3 as [|c s3]; [discriminate|]. cbn [takeExp] in E5. destruct (Ascii.eqb c "e" || Ascii.eqb c "E"); [|discriminate]. destruct (takeSign s3) as [? t1]. destruct (takeDigits t1) as [[|? ?] ?]; discriminate.
Qed.
Lemma double_pkg r big s :
  (forall a t rest q, s = a ++ t ++ rest -> Forall is_space a -> decimal t q -> ends_decimal rest ->
     (qabs (r q) <= big -> getDouble r big s = Ok (r q))%Qc /\ (big < qabs (r q) -> getDouble r big s = Throw ValueError)%Qc) /\
  (forall v, getDouble r big s = Ok v -> (qabs v <= big)%Qc /\ exists a t rest q, s = a ++ t ++ rest /\ Forall is_space a /\ decimal t q /\ v = r q) /\
  ((forall v, getDouble r big s <> Ok v) -> getDouble r big s = Throw ValueError).
Proof.
  split; [|split].
  - intros a t rest q -> Fa Hd HE. rewrite (getDouble_app r big a t q rest Fa Hd HE). destruct (qltb_spec big (qabs (r q))) as [H|H]; split; intros K; try reflexivity; exfalso.
    + apply (Qclt_not_le _ _ H). exact K.
    + apply (Qclt_not_le _ _ K). exact H.
  - intros v E. destruct (getDouble_inv r big s) as [C|[a [t [rest [q [-> [Fa [Hd [E' B]]]]]]]]]; [congruence|]. rewrite E in E'. injection E' as ->.
    split; [apply Qcnot_lt_le; intros C; apply qltb_lt in C; congruence|]. exists a, t, rest, q. auto.
  - intros H. destruct (getDouble_inv r big s) as [C|[a [t [rest [q [_ [_ [_ [E' _]]]]]]]]]; [exact C|]. exfalso. exact (H _ E').
Qed.
