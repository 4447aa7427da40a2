From Coq Require Import ZArith Ascii.
From Verif Require Import Base.Res Base.Num Base.SMap Model.Axis Model.Event Model.Hist Model.Shrink Model.Data Model.IO Spec.IOSpec Proofs.IOP Proofs.IOP2.
From Coq Require Import Lia.
Local Open Scope nat_scope.

Lemma roundtrip_pkg d a : filled d -> dNObs d < Z.to_nat 10000 -> (values d < 2 ^ 32)%Z -> Forall plain (dNames d) -> joined (dNames d) <= 64 ->
  exists f d', saveData d = Ok f /\ loadData a f = Ok d' /\ rows d' = rows d /\ dNames d' = dNames d /\ dNObs d' = dNObs d /\ Forall (fun e => dvPtr e = Some a) (dData d').
Proof.
  intros Hf Hw Hb Hp Hj. eexists. pose proof (save_pkg d Hf Hw) as S. destruct Hf as [Hk [Hn [HF Hne]]].
  destruct (load_grown a (mkH5 (List.concat (rows d)) (attr64 (flattenNames (dNames d))) (Z.of_nat (dNObs d))) (dNObs d) (rows d) (dNames d)) as [d' [L [A [B [C D]]]]]; try assumption; try reflexivity.
  - cbn. apply attr_names; [|exact Hp|exact Hj]. intros E. rewrite E in Hn. cbn in Hn. lia.
  - exists d'. split; [exact S|]. auto.
Qed.
Lemma long_names_pkg d a : filled d -> dNObs d < Z.to_nat 10000 -> (values d < 2 ^ 32)%Z -> 64 < joined (dNames d) ->
  exists f d', saveData d = Ok f /\ loadData a f = Ok d' /\ rows d' = rows d /\ dNames d' <> dNames d.
Proof.
  intros Hf Hw Hb Hj. eexists. pose proof (save_pkg d Hf Hw) as S. destruct Hf as [Hk [Hn [HF Hne]]]. destruct (attr_too_long _ Hj) as [l' [E [_ D]]].
  destruct (load_grown a (mkH5 (List.concat (rows d)) (attr64 (flattenNames (dNames d))) (Z.of_nat (dNObs d))) (dNObs d) (rows d) l') as [d' [L [A [B [C _]]]]]; try assumption; try reflexivity.
  exists d'. split; [exact S|]. split; [exact L|]. split; [exact A|]. congruence.
Qed.
Lemma empty_pkg d : 0 < dNObs d -> List.length (dNames d) = dNObs d -> rows d = [] -> saveData d = Throw std_out_of_range.
Proof. intros Hk Hn E. rewrite saveData_eq; [|exact Hk|rewrite E; constructor|exact Hn]. unfold slabs, values. rewrite E. cbn [List.length Z.of_nat]. rewrite Z.mul_0_r. reflexivity. Qed.
Lemma wide_pkg d : filled d -> (Z.of_nat (List.length (rows d)) * 10000 <= values d)%Z -> saveData d = Throw std_out_of_range.
Proof.
  intros [Hk [Hn [HF Hne]]] Hw. rewrite saveData_eq by assumption. destruct (Z.ltb_spec (Z.of_nat (List.length (rows d))) (slabs d)) as [L|L]; [reflexivity|]. exfalso. unfold slabs in L.
  assert ((Z.of_nat (List.length (rows d)) <= values d / 10000)%Z) by (apply Z.div_le_lower_bound; lia). lia.
Qed.
(** no names, or a wrong number of names *)
Lemma names_pkg d : List.length (dNames d) <> dNObs d -> saveData d = Throw IOError.
Proof. intros H. unfold saveData. destruct (Nat.eqb_spec (List.length (dNames d)) (dNObs d)); [congruence|reflexivity]. Qed.
(** slabs *)
Lemma slabs_pkg n s : (1 <= s <= n)%Z -> slabStart n s 0 = 0%Z /\ (forall i, (0 <= i < s - 1)%Z -> slabStop n s i = slabStart n s (i + 1)) /\ slabStop n s (s - 1) = n /\
  forall i, (0 <= i < s)%Z -> (0 <= slabStart n s i < slabStop n s i)%Z.
Proof.
  intros H. assert (Q : (1 <= n / s)%Z) by (apply Z.div_le_lower_bound; lia). assert (M : (s * (n / s) <= n)%Z) by (apply Z.mul_div_le; lia).
  unfold slabStart, slabStop. split; [lia|]. split; [intros i Hi; destruct (Z.eqb_spec i (s - 1)); [lia|reflexivity]|]. split; [rewrite Z.eqb_refl; reflexivity|].
  intros i Hi. destruct (Z.eqb_spec i (s - 1)); nia.
Qed.

(** more than 2^32 values: two observables *)
Definition wrapped (C : nat) (xs : list (list Qc)) (c : nat) : list (list Qc) := firstn C (skipn (Z.to_nat ((Z.of_nat c * Z.of_nat C) mod 2 ^ 31)) xs).
Lemma wrapChunks a names (xs : list (list Qc)) f : Forall (fun r => List.length r = 2) xs -> f5Data f = List.concat xs -> f5NObs f = 2%Z ->
  (Z.of_nat (List.length xs) < 2 ^ 32)%Z -> forall C, Z.of_nat C = 100000%Z ->
  forall c d, grown a names 2 [] d -> c * C <= List.length xs ->
  exists d', foldM (loadChunk a f) (seq 0 c) d = Ok d' /\ grown a names 2 (List.concat (map (wrapped C xs) (seq 0 c))) d'.
Proof.
  intros F Hd Ho Hb C HC. induction c as [|c IH]; intros d G Hc; [exists d; split; [reflexivity|exact G]|].
  destruct (IH d G ltac:(lia)) as [d1 [E1 G1]]. rewrite seq_S, foldM_snoc, E1, map_app, concat_app. cbn [bind Nat.add map List.concat]. rewrite app_nil_r. unfold loadChunk. rewrite Hd, Ho.
  set (m := ((Z.of_nat c * Z.of_nat C) mod 2 ^ 31)%Z). assert (Hm : (0 <= m <= Z.of_nat c * Z.of_nat C)%Z).
  { split; [apply Z.mod_pos_bound; lia|apply Z.mod_le; lia]. }
  rewrite (h5read_rows 2 xs (Z.to_nat m) C) with (off := chunkOff 2 (Z.of_nat c)) (cnt := chunkLen 2); [|exact F|nia| |].
  2:{ unfold chunkOff, u32. rewrite <- HC. rewrite (Z.mod_small (Z.of_nat c * Z.of_nat C)) by nia. change (2 ^ 32)%Z with (2 ^ 31 * 2)%Z. rewrite Z.mul_mod_distr_r by lia. fold m. lia. }
  2:{ rewrite HC. reflexivity. }
  cbn [bind]. replace (Z.to_nat 100000) with C by lia. change (Z.to_nat 2) with 2.
  destruct (loadEvents_grown a names 2 _ (wrapped C xs c) ltac:(lia) ltac:(apply Forall_firstn, Forall_skipn; exact F) eq_refl C (List.concat (map (wrapped C xs) (seq 0 c))) d1) as [d2 [E2 [G2 _]]].
  - unfold wrapped. fold m. rewrite firstn_length, skipn_length. nia.
  - exact G1.
  - exists d2. unfold wrapped in E2 at 1. fold m in E2. split; [exact E2|]. rewrite firstn_all2 in G2 by (unfold wrapped; rewrite firstn_length; lia). exact G2.
Qed.
Lemma nth_chunks {A} k (l : list (list A)) i j : Forall (fun r => List.length r = k) l -> j < k -> forall r, nth_error l i = Some r -> nth_error (List.concat l) (i * k + j) = nth_error r j.
Proof.
  intros F. revert i. induction F as [|x l Hx F IH]; intros [|i] Hj r E; cbn in E; try discriminate.
  - injection E as ->. cbn. apply nth_error_app1. lia.
  - cbn [List.concat]. rewrite nth_error_app2 by (cbn; lia). rewrite Hx. replace (S i * k + j - k) with (i * k + j) by (cbn; lia). apply IH; assumption.
Qed.
Lemma nth_skip {A} (l : list A) a j : nth_error (skipn a l) j = nth_error l (a + j).
Proof. revert a. induction l as [|x l IH]; intros [|a]; cbn; try reflexivity; [destruct j; reflexivity|apply IH]. Qed.
Lemma nth_firstn_lt {A} (l : list A) a j : j < a -> nth_error (firstn a l) j = nth_error l j.
Proof. revert a j. induction l as [|x l IH]; intros [|a] [|j] H; cbn; try reflexivity; try lia. apply IH. lia. Qed.
Lemma wraps_pkg d a : filled d -> dNObs d = 2 -> (2147600000 <= Z.of_nat (List.length (rows d)) < 2 ^ 32)%Z -> Forall plain (dNames d) -> joined (dNames d) <= 64 ->
  exists f d', saveData d = Ok f /\ loadData a f = Ok d' /\ nth_error (rows d') (Z.to_nat 2147500000) = nth_error (rows d) (Z.to_nat 16352).
Proof.
  intros Hf H2 HN Hp Hj. eexists. pose proof (save_pkg d Hf ltac:(rewrite H2; lia)) as S. destruct Hf as [Hk [Hn [HF Hne]]]. rewrite H2 in *.
  set (xs := rows d) in *. set (f := mkH5 (List.concat xs) (attr64 (flattenNames (dNames d))) (Z.of_nat 2)) in *.
  assert (Un : unpackString (f5Names f) = Ok (dNames d)) by (apply attr_names; [intros E; rewrite E in Hn; discriminate|exact Hp|exact Hj]).
  assert (HL : List.length (f5Data f) = 2 * List.length xs) by (apply concat_len; exact HF).
  destruct (Z.of_nat (List.length xs) / 100000)%Z eqn:Eq; [exfalso| |exfalso].
  { assert (21476 <= 0)%Z; [|lia]. rewrite <- Eq. apply Z.div_le_lower_bound; lia. }
  2:{ assert (0 <= Z.neg p)%Z; [|lia]. rewrite <- Eq. apply Z.div_pos; lia. }
  pose (C := Z.to_nat 100000). assert (HC : Z.of_nat C = 100000%Z) by (unfold C; lia).
  pose proof (Z.div_mod (Z.of_nat (List.length xs)) 100000 ltac:(lia)) as DM. pose proof (Z.mod_pos_bound (Z.of_nat (List.length xs)) 100000 ltac:(lia)) as MB.
  assert (Lq : (21476 <= Z.of_nat (List.length xs) / 100000 < 2 ^ 32)%Z) by (split; [apply Z.div_le_lower_bound; lia|apply Z.div_lt_upper_bound; lia]). clear Eq p.
  set (q := (Z.of_nat (List.length xs) / 100000)%Z) in *. set (r := (Z.of_nat (List.length xs) mod 100000)%Z) in *.
  assert (G0 : grown a (dNames d) 2 [] (ds_setNames ds_new (dNames d))) by (split; [reflexivity|]; split; [reflexivity|]; right; split; reflexivity).
  destruct (wrapChunks a (dNames d) xs f HF eq_refl eq_refl ltac:(lia) C HC (Z.to_nat q) _ G0 ltac:(nia)) as [d1 [E1 G1]].
  set (ys := List.concat (map (wrapped C xs) (seq 0 (Z.to_nat q)))) in *.
  assert (Fy : Forall (fun w => List.length w = C) (map (wrapped C xs) (seq 0 (Z.to_nat q)))).
  { apply Forall_forall. intros w Hw. apply in_map_iff in Hw. destruct Hw as [c [<- Hc]]. apply in_seq in Hc. unfold wrapped.
    assert (Hm : (0 <= (Z.of_nat c * Z.of_nat C) mod 2 ^ 31 <= Z.of_nat c * Z.of_nat C)%Z) by (split; [apply Z.mod_pos_bound; lia|apply Z.mod_le; lia]).
    rewrite firstn_length, skipn_length. nia. }
  assert (Ly : List.length ys = C * Z.to_nat q) by (unfold ys; rewrite (concat_len C) by exact Fy; rewrite map_length, seq_length; reflexivity).
  assert (Hy : nth_error ys (Z.to_nat 2147500000) = nth_error xs (Z.to_nat 16352)).
  { replace (Z.to_nat 2147500000) with (Z.to_nat 21475 * C + 0) by lia. unfold ys. rewrite (nth_chunks C _ (Z.to_nat 21475) 0 Fy ltac:(lia) (wrapped C xs (Z.to_nat 21475))).
    - unfold wrapped. rewrite nth_firstn_lt by lia. rewrite nth_skip, Nat.add_0_r. apply f_equal. apply f_equal. rewrite HC, Z2Nat.id by lia. reflexivity.
    - rewrite nth_error_map. rewrite (nth_error_nth' (seq 0 (Z.to_nat q)) 0) by (rewrite seq_length; lia). rewrite seq_nth by lia. reflexivity. }
  assert (Hlt : Z.to_nat 2147500000 < List.length ys) by nia.
  assert (Load : exists d' zs, loadData a f = Ok d' /\ rows d' = ys ++ zs).
  { unfold loadData. rewrite Un. cbn [bind]. change (f5NObs f) with 2%Z. cbn [Z.eqb]. rewrite HL. replace (Z.of_nat (2 * List.length xs) / 2)%Z with (Z.of_nat (List.length xs)) by (rewrite Nat2Z.inj_mul, Z.mul_comm, Z.div_mul by lia; reflexivity).
    destruct (Z.ltb_spec (Z.of_nat (List.length xs)) 1000000); [lia|]. fold q. replace (u32 q) with q by (unfold u32; rewrite Z.mod_small by lia; reflexivity). change (chunkLen 2 =? 0)%Z with false. cbv iota.
    rewrite E1. cbn [bind]. fold r. destruct (Z.eqb_spec r 0) as [R|R].
    - exists d1, []. split; [reflexivity|]. rewrite app_nil_r. destruct G1 as [A _]. unfold rows. rewrite A, map_map. cbn. apply map_id.
    - change (f5Data f) with (List.concat xs). rewrite (h5read_rows 2 xs (Z.to_nat (q * 100000)) (Z.to_nat r)); [|exact HF|lia|lia|lia]. cbn [bind].
      destruct (loadEvents_grown a (dNames d) 2 _ (firstn (Z.to_nat r) (skipn (Z.to_nat (q * 100000)) xs)) ltac:(lia) ltac:(apply Forall_firstn, Forall_skipn; exact HF) eq_refl (Z.to_nat r) ys d1) as [d2 [E2 [G2 _]]].
      + rewrite firstn_length, skipn_length. lia.
      + exact G1.
      + change (Z.to_nat 2) with 2. exists d2. eexists. split; [exact E2|]. destruct G2 as [A _]. unfold rows. rewrite A, map_map. cbn. apply map_id. }
  destruct Load as [d' [zs [L R]]]. exists d'. split; [exact S|]. split; [exact L|]. rewrite R, nth_error_app1 by exact Hlt. exact Hy.
Qed.
Definition bigset (n m : nat) : dset :=
  mkDset (repeat (mkDevt [0%Qc; 0%Qc] None) n ++ repeat (mkDevt [1%Qc; 1%Qc] None) m) ["x"%string; "y"%string] 2.
Lemma rows_big n m : rows (bigset n m) = repeat [0%Qc; 0%Qc] n ++ repeat [1%Qc; 1%Qc] m.
Proof.
  assert (M : forall e n, map dvObs (repeat e n) = repeat (dvObs e) n) by (induction n0; cbn; congruence).
  unfold rows, bigset. cbn [dData]. rewrite map_app, !M. reflexivity.
Qed.
Lemma nth_repeat_eq {A} (x : A) n : forall i, i < n -> nth_error (repeat x n) i = Some x.
Proof. induction n; intros [|i] H; cbn; try lia; [reflexivity|apply IHn; lia]. Qed.
Lemma big_differs n m a b : a < n -> b = n -> 0 < m -> nth_error (rows (bigset n m)) b <> nth_error (rows (bigset n m)) a.
Proof.
  intros Ha -> Hm E. rewrite rows_big in E. rewrite nth_error_app2 in E by (rewrite repeat_length; lia). rewrite repeat_length, Nat.sub_diag in E. rewrite nth_repeat_eq in E by lia.
  rewrite nth_error_app1 in E by (rewrite repeat_length; lia). rewrite nth_repeat_eq in E by lia. apply (f_equal (option_map (map this))) in E. discriminate.
Qed.
Lemma big_filled n m : 0 < n -> filled (bigset n m).
Proof.
  intros H. split; [cbn; lia|]. split; [reflexivity|]. rewrite rows_big. split; [|destruct n; [lia|discriminate]].
  apply Forall_app. split; apply Forall_forall; intros r Hr; apply repeat_spec in Hr; subst; reflexivity.
Qed.
Lemma big_len n m : List.length (rows (bigset n m)) = n + m.
Proof. rewrite rows_big, app_length, !repeat_length. reflexivity. Qed.
Lemma large_gen a n m : Z.of_nat n = 2147500000%Z -> Z.of_nat m = 100000%Z ->
  exists d f d', filled d /\ dNObs d = 2 /\ Forall plain (dNames d) /\ joined (dNames d) <= 64 /\ saveData d = Ok f /\ loadData a f = Ok d' /\ rows d' <> rows d.
Proof.
  intros Hn Hm. exists (bigset n m). pose proof (big_len n m) as LL.
  assert (P : Forall plain (dNames (bigset n m))) by (cbn; repeat constructor; discriminate). assert (J : joined (dNames (bigset n m)) <= 64) by (cbn; lia).
  assert (Fl : filled (bigset n m)) by (apply big_filled; lia).
  destruct (wraps_pkg (bigset n m) a Fl eq_refl ltac:(rewrite LL; lia) P J) as [f [d' [E1 [E2 E3]]]]. exists f, d'. split; [exact Fl|]. split; [reflexivity|]. split; [exact P|]. split; [exact J|]. split; [exact E1|]. split; [exact E2|].
  intros E. rewrite E in E3. revert E3. apply big_differs; lia.
Qed.
Lemma large_pkg a : exists d f d', filled d /\ dNObs d = 2 /\ Forall plain (dNames d) /\ joined (dNames d) <= 64 /\ saveData d = Ok f /\ loadData a f = Ok d' /\ rows d' <> rows d.
Proof. exact (large_gen a (Z.to_nat 2147500000) (Z.to_nat 100000) (Z2Nat.id 2147500000 ltac:(lia)) (Z2Nat.id 100000 ltac:(lia))). Qed.
