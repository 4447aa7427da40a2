From Coq Require Import ZArith Ascii.
From Verif Require Import Base.Res Base.Num Base.SMap Model.Axis Model.Event Model.Hist Model.Shrink Model.Data Model.IO Spec.IOSpec.
From Coq Require Import Lia.
Local Open Scope nat_scope.

(** splitting *)
Fixpoint split (s : string) : list string :=
  match s with
  | EmptyString => [EmptyString]
  | String c t => if Ascii.eqb c ioDelim then EmptyString :: split t
                  else match split t with h :: r => String c h :: r | [] => [String c EmptyString] end
  end.
Lemma split_len s : List.length (split s) = countDelim s + 1.
Proof.
  induction s as [|c t IH]; cbn; [reflexivity|]. destruct (Ascii.eqb c ioDelim); cbn; [lia|]. destruct (split t); cbn in *; lia.
Qed.
Lemma split_ne s : split s <> [].
Proof. intros E. pose proof (split_len s) as H. rewrite E in H. cbn in H. lia. Qed.
Lemma app_assoc_s (a b c : string) : ((a ++ b) ++ c = a ++ (b ++ c))%string.
Proof. induction a; cbn; congruence. Qed.
Lemma app_nil_s (a : string) : (a ++ EmptyString = a)%string. Proof. induction a; cbn; congruence. Qed.
Lemma upd_at {A} (l m : list A) x a : upd (l ++ x :: m) (List.length l) a = l ++ a :: m.
Proof. induction l; cbn; congruence. Qed.
Lemma vidx_at {A} (l m : list A) x : vidx (l ++ x :: m) (List.length l) = Ok x.
Proof. unfold vidx. rewrite nth_error_app2 by lia. rewrite Nat.sub_diag. reflexivity. Qed.
Lemma unpackLoop_split s : forall pre cur k, countDelim s <= k -> exists h r, split s = h :: r /\
  unpackLoop s (pre ++ cur :: repeat EmptyString k) (List.length pre) = Ok (pre ++ (cur ++ h)%string :: r ++ repeat EmptyString (k - countDelim s)).
Proof.
  induction s as [|c t IH]; intros pre cur k Hk; cbn [split unpackLoop countDelim] in *.
  - exists EmptyString, []. split; [reflexivity|]. rewrite app_nil_s, Nat.sub_0_r. reflexivity.
  - destruct (Ascii.eqb c ioDelim).
    + destruct k as [|k]; [lia|]. destruct (IH (pre ++ [cur]) EmptyString k ltac:(lia)) as [h [r [E1 E2]]]. exists EmptyString, (split t). split; [reflexivity|].
      rewrite app_length, <- app_assoc in E2. cbn [List.length app] in E2. rewrite Nat.add_1_r in E2. cbn [repeat]. rewrite E2, E1. rewrite app_nil_s, <- app_assoc. cbn [app String.append].
      replace (S k - (1 + countDelim t)) with (k - countDelim t) by lia. reflexivity.
    + cbn [Nat.add] in *. rewrite vidx_at. cbn [bind]. rewrite upd_at. destruct (IH pre (cur ++ String c EmptyString)%string k Hk) as [h [r [E1 E2]]].
      rewrite E1. exists (String c h), r. split; [reflexivity|]. rewrite E2, app_assoc_s. reflexivity.
Qed.
Lemma unpack_split s : unpackString s = Ok (split s).
Proof.
  unfold unpackString. replace (countDelim s + 1) with (S (countDelim s)) by lia. cbn [repeat]. destruct (unpackLoop_split s [] EmptyString (countDelim s) (le_n _)) as [h [r [E1 E2]]].
  cbn [app List.length] in E2. rewrite E2, E1, Nat.sub_diag. cbn. rewrite app_nil_r. reflexivity.
Qed.
Definition pr (l : list string) (s : string) : string := fold_left (fun acc x => (acc ++ String ioDelim x)%string) l s.
Lemma pr_app l : forall a b, pr l (a ++ b)%string = (a ++ pr l b)%string.
Proof. induction l as [|x l IH]; intros a b; cbn; [reflexivity|]. rewrite app_assoc_s. apply IH. Qed.
Lemma flatten_cons s x t : flattenNames (s :: x :: t) = (s ++ String ioDelim (flattenNames (x :: t)))%string.
Proof.
  cbn [flattenNames fold_left]. fold (pr t (s ++ String ioDelim x)%string) (pr t x). rewrite pr_app. f_equal.
  change (String ioDelim x) with (String ioDelim EmptyString ++ x)%string. rewrite pr_app. reflexivity.
Qed.
Lemma split_app_delim s t : no_char ioDelim s -> split (s ++ String ioDelim t)%string = s :: split t.
Proof.
  induction s as [|c s IH]; intros H; cbn; [reflexivity|]. destruct H as [H1 H2]. destruct (Ascii.eqb_spec c ioDelim); [congruence|]. rewrite IH by exact H2. reflexivity.
Qed.
Lemma split_plain s : no_char ioDelim s -> split s = [s].
Proof. induction s as [|c s IH]; intros H; cbn; [reflexivity|]. destruct H as [H1 H2]. destruct (Ascii.eqb_spec c ioDelim); [congruence|]. rewrite IH by exact H2. reflexivity. Qed.
Lemma split_flatten l : l <> [] -> Forall (no_char ioDelim) l -> split (flattenNames l) = l.
Proof.
  induction l as [|s [|x t] IH]; intros Hne F; [congruence| |].
  - cbn. inversion F; subst. apply split_plain. assumption.
  - inversion F; subst. rewrite flatten_cons, split_app_delim by assumption. rewrite IH by (assumption || discriminate). reflexivity.
Qed.
Lemma names_roundtrip_pkg l : l <> [] -> Forall (no_char ":"%char) l -> unpackString (flattenNames l) = Ok l.
Proof. intros Hne F. rewrite unpack_split, split_flatten by assumption. reflexivity. Qed.
Lemma flatten_split s : flattenNames (split s) = s.
Proof.
  induction s as [|c t IH]; [reflexivity|]. cbn [split]. destruct (Ascii.eqb_spec c ioDelim) as [->|Hn].
  - destruct (split t) as [|h r] eqn:E; [exfalso; exact (split_ne t E)|]. rewrite flatten_cons, IH. reflexivity.
  - destruct (split t) as [|h r] eqn:E; [exfalso; exact (split_ne t E)|]. destruct r as [|x r]; [cbn in *; congruence|]. rewrite flatten_cons in *. cbn. f_equal. exact IH.
Qed.
Lemma split_nodelim s : Forall (no_char ioDelim) (split s).
Proof.
  induction s as [|c t IH]; cbn; [repeat constructor|]. destruct (Ascii.eqb_spec c ioDelim) as [->|Hn]; [constructor; [exact I|exact IH]|].
  destruct (split t); [repeat constructor; exact Hn|]. inversion IH; subst. constructor; [split; assumption|assumption].
Qed.
Lemma names_back_pkg s : exists l, unpackString s = Ok l /\ flattenNames l = s /\ l <> [] /\ Forall (no_char ":"%char) l.
Proof. exists (split s). split; [apply unpack_split|]. split; [apply flatten_split|]. split; [apply split_ne|apply split_nodelim]. Qed.
Lemma names_injective_pkg l m : l <> [] -> m <> [] -> Forall (no_char ":"%char) l -> Forall (no_char ":"%char) m -> flattenNames l = flattenNames m -> l = m.
Proof. intros A B C D E. rewrite <- (split_flatten l A C), <- (split_flatten m B D), E. reflexivity. Qed.
(** attributes *)
Lemma length_app_s (a b : string) : String.length (a ++ b) = String.length a + String.length b.
Proof. induction a; cbn; congruence. Qed.
Lemma flatten_length l : String.length (flattenNames l) = joined l.
Proof. induction l as [|s [|x t] IH]; [reflexivity|reflexivity|]. rewrite flatten_cons, length_app_s. cbn [String.length]. rewrite IH. cbn [joined]. lia. Qed.
Lemma substring_all s : forall n, String.length s <= n -> substring 0 n s = s.
Proof. induction s as [|c s IH]; intros n H; [destruct n; reflexivity|]. cbn in H. destruct n; [lia|]. cbn. rewrite IH by lia. reflexivity. Qed.
Lemma substring_len s : forall n, n <= String.length s -> String.length (substring 0 n s) = n.
Proof. induction s as [|c s IH]; intros n H; [cbn in H; assert (n = 0) by lia; subst; reflexivity|]. destruct n; [reflexivity|]. cbn in *. rewrite IH by lia. reflexivity. Qed.
Lemma cut_nul_id s : no_char Ascii.zero s -> cut_nul s = s.
Proof. induction s as [|c s IH]; intros H; [reflexivity|]. destruct H as [H1 H2]. cbn. destruct (Ascii.eqb_spec c Ascii.zero); [congruence|]. rewrite IH by exact H2. reflexivity. Qed.
Lemma cut_nul_len s : String.length (cut_nul s) <= String.length s.
Proof. induction s as [|c s IH]; cbn; [lia|]. destruct (Ascii.eqb c Ascii.zero); cbn; lia. Qed.
Lemma no_char_app c a b : no_char c a -> no_char c b -> no_char c (a ++ b)%string.
Proof. induction a; cbn; [auto|]. intros [H1 H2] H. auto. Qed.
Lemma flatten_nonul l : Forall (no_char Ascii.zero) l -> no_char Ascii.zero (flattenNames l).
Proof.
  induction l as [|s [|x t] IH]; intros F; [exact I|inversion F; assumption|]. inversion F; subst. rewrite flatten_cons. apply no_char_app; [assumption|]. split; [discriminate|auto].
Qed.
Lemma plain_split l : Forall plain l -> Forall (no_char ioDelim) l /\ Forall (no_char Ascii.zero) l.
Proof. intros F. split; eapply Forall_impl; [|exact F| |exact F]; intros s [A B]; assumption. Qed.
Lemma attr_names l : l <> [] -> Forall plain l -> joined l <= 64 -> unpackString (attr64 (flattenNames l)) = Ok l.
Proof.
  intros Hne F Hj. destruct (plain_split l F) as [F1 F2]. unfold attr64. rewrite substring_all by (rewrite flatten_length; exact Hj). rewrite cut_nul_id by (apply flatten_nonul; exact F2).
  apply names_roundtrip_pkg; assumption.
Qed.
Lemma attr_too_long l : 64 < joined l -> exists l', unpackString (attr64 (flattenNames l)) = Ok l' /\ joined l' <= 64 /\ l' <> l.
Proof.
  intros H. exists (split (attr64 (flattenNames l))). split; [apply unpack_split|].
  assert (L : joined (split (attr64 (flattenNames l))) <= 64).
  { rewrite <- flatten_length, flatten_split. unfold attr64. etransitivity; [apply cut_nul_len|]. rewrite substring_len by (rewrite flatten_length; lia). lia. }
  split; [exact L|]. intros E. rewrite E in L. lia.
Qed.
