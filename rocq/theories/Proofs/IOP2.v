From Coq Require Import ZArith Ascii.
From Verif Require Import Base.Res Base.Num Base.SMap Model.Axis Model.Event Model.Hist Model.Shrink Model.Data Model.IO Spec.IOSpec Proofs.IOP.
From Coq Require Import Lia.
Local Open Scope nat_scope.

(** flat lists of rows of length k *)
Lemma concat_len {A} k (l : list (list A)) : Forall (fun r => List.length r = k) l -> List.length (List.concat l) = k * List.length l.
Proof. induction 1; cbn; [lia|]. rewrite app_length. lia. Qed.
Lemma firstn_concat {A} k (l : list (list A)) n : Forall (fun r => List.length r = k) l -> n <= List.length l -> firstn (n * k) (List.concat l) = List.concat (firstn n l).
Proof.
  intros F. revert n. induction F as [|r l Hr F IH]; intros n Hn; [cbn in Hn; assert (n = 0) by lia; subst; reflexivity|]. destruct n; [reflexivity|].
  cbn [firstn List.concat Nat.mul]. rewrite firstn_app, Hr. replace (k + n * k - k) with (n * k) by lia. rewrite firstn_all2 by lia. rewrite IH by (cbn in Hn; lia). reflexivity.
Qed.
Lemma skipn_concat {A} k (l : list (list A)) n : Forall (fun r => List.length r = k) l -> n <= List.length l -> skipn (n * k) (List.concat l) = List.concat (skipn n l).
Proof.
  intros F. revert n. induction F as [|r l Hr F IH]; intros n Hn; [cbn in Hn; assert (n = 0) by lia; subst; reflexivity|]. destruct n; [reflexivity|].
  cbn [skipn List.concat Nat.mul]. rewrite skipn_app, Hr. replace (k + n * k - k) with (n * k) by lia. rewrite skipn_all2 by lia. rewrite IH by (cbn in Hn; lia). reflexivity.
Qed.
Lemma Forall_firstn {A} (P : A -> Prop) n l : Forall P l -> Forall P (firstn n l).
Proof. intros F. revert n. induction F; intros [|n]; cbn; constructor; auto. Qed.
Lemma Forall_skipn {A} (P : A -> Prop) n l : Forall P l -> Forall P (skipn n l).
Proof. intros F. revert n. induction F; intros [|n]; cbn; auto. Qed.
(** GetEntry over a range *)
Lemma get_range d a n : a + n <= ds_n d -> mapM (fun j => rmap dvObs (ds_get d j)) (seq a n) = Ok (firstn n (skipn a (rows d))).
Proof.
  unfold mapM. revert a. induction n as [|n IH]; intros a H; cbn [seq map seqM]; [reflexivity|]. unfold ds_get at 1. unfold ds_n in *.
  destruct (nth_error (dData d) a) as [e|] eqn:E; [|apply nth_error_None in E; lia]. cbn [rmap bind]. rewrite IH by lia. cbn [bind]. unfold rows.
  assert (Sk : skipn a (map dvObs (dData d)) = dvObs e :: skipn (S a) (map dvObs (dData d))).
  { clear -E. revert a E. generalize (dData d) as l. induction l as [|x l IH]; intros [|a] E; cbn in *; try discriminate; [congruence|]. apply IH. exact E. }
  rewrite Sk. reflexivity.
Qed.
Lemma h5write_next (done : list Qc) data (z : Qc) m : h5write (done ++ repeat z (List.length data + m)) (Z.of_nat (List.length done)) data = done ++ data ++ repeat z m.
Proof.
  unfold h5write. rewrite Nat2Z.id. rewrite firstn_app, Nat.sub_diag, firstn_all. cbn [firstn]. rewrite app_nil_r. f_equal. f_equal.
  rewrite skipn_app. rewrite skipn_all2 by lia. cbn. replace (List.length done + List.length data - List.length done) with (List.length data) by lia.
  rewrite repeat_app, skipn_app, skipn_all2 by (rewrite repeat_length; lia). rewrite repeat_length, Nat.sub_diag. reflexivity.
Qed.
Lemma foldM_snoc {A S} (f : S -> A -> res S) l x s : foldM f (l ++ [x]) s = bind (foldM f l s) (fun s' => f s' x).
Proof.
  revert s. induction l as [|y l IH]; intros s; cbn [app foldM]; [cbn; destruct (f s x); reflexivity|].
  destruct (f s y); cbn; auto.
Qed.
Lemma firstn_add_skip {A} (l : list A) a b : firstn (a + b) l = firstn a l ++ firstn b (skipn a l).
Proof. revert l. induction a as [|a IH]; intros [|x l]; cbn; [destruct b; reflexivity| |rewrite firstn_nil; reflexivity|rewrite IH]; reflexivity. Qed.

Section Save.
Variable d : dset.
Hypothesis Hk : 0 < dNObs d.
Hypothesis HF : Forall (fun r => List.length r = dNObs d) (rows d).
Let k := dNObs d.
Let N := List.length (rows d).
Lemma ds_n_rows : ds_n d = N. Proof. unfold ds_n, N, rows. rewrite map_length. reflexivity. Qed.
Lemma slab_write q a n : a + n <= N -> 0 < n -> (q = N - (a + n)) ->
  (mapM (fun j => rmap dvObs (ds_get d j)) (seq a n) = Ok (firstn n (skipn a (rows d)))) /\
  match List.concat (firstn n (skipn a (rows d))) with
  | [] => Throw std_out_of_range
  | data => Ok (h5write (List.concat (firstn a (rows d)) ++ repeat (Q2Qc 0) ((N - a) * k)) (Z.of_nat a * Z.of_nat k) data)
  end = Ok (List.concat (firstn (a + n) (rows d)) ++ repeat (Q2Qc 0) (q * k)).
Proof.
  intros H Hn ->. split; [apply get_range; rewrite ds_n_rows; exact H|].
  set (chunk := firstn n (skipn a (rows d))). assert (Lc : List.length (List.concat chunk) = k * n).
  { rewrite (concat_len k) by (apply Forall_firstn, Forall_skipn; exact HF). unfold chunk. rewrite firstn_length, skipn_length. fold N. f_equal. lia. }
  assert (La : List.length (List.concat (firstn a (rows d))) = k * a).
  { rewrite (concat_len k) by (apply Forall_firstn; exact HF). rewrite firstn_length. fold N. f_equal. lia. }
  destruct (List.concat chunk) as [|x t] eqn:E; [cbn in Lc; fold k in Hk; nia|]. rewrite <- E in *.
  replace (Z.of_nat a * Z.of_nat k)%Z with (Z.of_nat (List.length (List.concat (firstn a (rows d))))) by (rewrite La; lia).
  replace ((N - a) * k) with (List.length (List.concat chunk) + (N - (a + n)) * k) by (rewrite Lc; nia).
  rewrite h5write_next. rewrite firstn_add_skip, concat_app. fold chunk. rewrite <- app_assoc. reflexivity.
Qed.
Lemma save_prefix s (Q := N / s) : 0 < s -> s <= N -> forall i, i < s ->
  foldM (saveSlab d (Z.of_nat s)) (seq 0 i) (repeat (Q2Qc 0) (N * k)) = Ok (List.concat (firstn (i * Q) (rows d)) ++ repeat (Q2Qc 0) ((N - i * Q) * k)).
Proof.
  intros Hs HsN. assert (HQ : 0 < Q) by (apply Nat.div_str_pos; lia). assert (HQs : s * Q <= N) by (apply Nat.mul_div_le; lia).
  induction i as [|i IH]; intros Hi; [cbn; rewrite Nat.sub_0_r; reflexivity|].
  rewrite seq_S, foldM_snoc, IH by lia. cbn [bind Nat.add]. unfold saveSlab. rewrite ds_n_rows. unfold slabStart, slabStop.
  destruct (Z.eqb_spec (Z.of_nat i) (Z.of_nat s - 1)); [lia|]. rewrite <- Nat2Z.inj_div. fold Q.
  replace (Z.of_nat i * Z.of_nat Q)%Z with (Z.of_nat (i * Q)) by lia. replace ((Z.of_nat i + 1) * Z.of_nat Q - Z.of_nat (i * Q))%Z with (Z.of_nat Q) by lia. rewrite !Nat2Z.id.
  assert (Hle : i * Q + Q <= N) by nia.
  destruct (slab_write (N - (i * Q + Q)) (i * Q) Q Hle HQ eq_refl) as [E1 E2]. rewrite E1. cbn [bind]. fold k. rewrite E2. replace (S i * Q) with (i * Q + Q) by lia. reflexivity.
Qed.
Lemma save_flat s : 0 < s -> s <= N -> foldM (saveSlab d (Z.of_nat s)) (seq 0 s) (repeat (Q2Qc 0) (N * k)) = Ok (List.concat (rows d)).
Proof.
  intros Hs HsN. destruct s as [|s]; [lia|]. rewrite seq_S, foldM_snoc. rewrite save_prefix by lia. cbn [bind Nat.add]. set (Q := N / S s).
  assert (HQs : S s * Q <= N) by (apply Nat.mul_div_le; lia). assert (HQ : 0 < Q) by (apply Nat.div_str_pos; lia).
  unfold saveSlab. rewrite ds_n_rows. unfold slabStart, slabStop. destruct (Z.eqb_spec (Z.of_nat s) (Z.of_nat (S s) - 1)); [|lia]. rewrite <- Nat2Z.inj_div. fold Q.
  replace (Z.of_nat s * Z.of_nat Q)%Z with (Z.of_nat (s * Q)) by lia. replace (Z.of_nat N - Z.of_nat (s * Q))%Z with (Z.of_nat (N - s * Q)) by nia. rewrite !Nat2Z.id.
  destruct (slab_write 0 (s * Q) (N - s * Q) ltac:(nia) ltac:(nia) ltac:(nia)) as [E1 E2]. rewrite E1. cbn [bind]. fold k. rewrite E2.
  replace (s * Q + (N - s * Q)) with N by nia. unfold N. rewrite firstn_all. cbn. rewrite app_nil_r. reflexivity.
Qed.
Lemma save_none s : 0 < s -> N < s -> foldM (saveSlab d (Z.of_nat s)) (seq 0 s) (repeat (Q2Qc 0) (N * k)) = Throw std_out_of_range.
Proof.
  intros Hs H. destruct s as [|s]; [lia|]. cbn [seq foldM]. unfold saveSlab at 1. rewrite ds_n_rows. unfold slabStart, slabStop.
  rewrite <- Nat2Z.inj_div. rewrite Nat.div_small by exact H. destruct (Z.eqb_spec (Z.of_nat 0) (Z.of_nat (S s) - 1)) as [E|E].
  - assert (s = 0) by lia. assert (N = 0) by lia. rewrite H1. reflexivity.
  - reflexivity.
Qed.
End Save.

Definition slabs (d : dset) : Z := (values d / 10000 + 1)%Z.
Lemma saveData_eq d : 0 < dNObs d -> Forall (fun r => List.length r = dNObs d) (rows d) -> List.length (dNames d) = dNObs d ->
  saveData d = if (Z.of_nat (List.length (rows d)) <? slabs d)%Z then Throw std_out_of_range
               else Ok (mkH5 (List.concat (rows d)) (attr64 (flattenNames (dNames d))) (Z.of_nat (dNObs d))).
Proof.
  intros Hk HF Hn. unfold saveData. rewrite Hn, Nat.eqb_refl. cbn [negb]. unfold slabs, values. rewrite ds_n_rows. set (N := List.length (rows d)).
  set (D := (Z.of_nat (dNObs d) * Z.of_nat N)%Z). assert (HD : (0 <= D / 10000)%Z) by (apply Z.div_pos; unfold D; lia).
  replace (D / 10000 + 1)%Z with (Z.of_nat (Z.to_nat (D / 10000 + 1))) by lia. rewrite Nat2Z.id. set (s := Z.to_nat (D / 10000 + 1)). assert (Hs : 0 < s) by (unfold s; lia).
  replace (Z.to_nat D) with (N * dNObs d) by (unfold D; lia).
  destruct (Z.ltb_spec (Z.of_nat N) (Z.of_nat s)) as [L|L].
  - unfold N. rewrite (save_none d Hk s) by (unfold N in L; lia). reflexivity.
  - unfold N. rewrite (save_flat d Hk HF s) by (unfold N in L; lia). reflexivity.
Qed.
Lemma save_pkg d : filled d -> dNObs d < Z.to_nat 10000 ->
  saveData d = Ok (mkH5 (List.concat (rows d)) (attr64 (flattenNames (dNames d))) (Z.of_nat (dNObs d))).
Proof.
  intros [Hk [Hn [HF Hne]]] Hw. rewrite saveData_eq by assumption. destruct (Z.ltb_spec (Z.of_nat (List.length (rows d))) (slabs d)) as [L|L]; [|reflexivity]. exfalso.
  assert (HN : 0 < List.length (rows d)) by (destruct (rows d); [congruence|cbn; lia]). unfold slabs, values in L.
  assert ((Z.of_nat (dNObs d) * Z.of_nat (List.length (rows d)) / 10000 < Z.of_nat (List.length (rows d)))%Z); [|lia]. apply Z.div_lt_upper_bound; [lia|]. nia.
Qed.

(** loading *)
Lemma mapM_vat_range (l : list Qc) a n : a + n <= List.length l -> mapM (fun j => vat l (a + j)) (seq 0 n) = Ok (firstn n (skipn a l)).
Proof.
  intros H. assert (G : forall m j, j + m = n -> seqM (map (fun j => vat l (a + j)) (seq j m)) = Ok (firstn m (skipn (a + j) l))).
  { induction m as [|m IH]; intros j Hj; cbn [seq map seqM]; [reflexivity|]. unfold vat at 1. destruct (nth_error l (a + j)) as [x|] eqn:E; [|apply nth_error_None in E; lia].
    cbn [bind]. rewrite IH by lia. cbn [bind]. assert (Sk : skipn (a + j) l = x :: skipn (S (a + j)) l).
    { clear -E. revert E. generalize (a + j) as b. induction l as [|y l IH]; intros [|b] E; cbn in *; try discriminate; [congruence|]. apply IH. exact E. }
    rewrite Sk. replace (a + S j) with (S (a + j)) by lia. reflexivity. }
  unfold mapM. rewrite (G n 0) by lia. rewrite Nat.add_0_r. reflexivity.
Qed.
Lemma nth_chunk {A} k (l : list (list A)) i : Forall (fun r => List.length r = k) l -> forall r, nth_error l i = Some r -> firstn k (skipn (i * k) (List.concat l)) = r.
Proof.
  intros F r E. assert (i < List.length l) by (apply nth_error_Some; congruence). rewrite skipn_concat by (assumption || lia).
  assert (Sk : skipn i l = r :: skipn (S i) l).
  { clear -E. revert i E. induction l as [|x l IH]; intros [|i] E; cbn in *; try discriminate; [congruence|]. apply IH. exact E. }
  rewrite Sk. cbn [List.concat]. assert (Hr : List.length r = k) by (rewrite Forall_forall in F; apply F; eapply nth_error_In; exact E).
  rewrite firstn_app, Hr, Nat.sub_diag. cbn. rewrite app_nil_r. apply firstn_all2. lia.
Qed.
(** [grown a names k l d]: the object under construction holds exactly the events l *)
Definition grown (a : nat) (names : list string) (k : nat) (l : list (list Qc)) (d : dset) : Prop :=
  dData d = map (fun r => mkDevt r (Some a)) l /\ dNames d = names /\ (dNObs d = k \/ dNObs d = 0 /\ l = []).
Lemma loadEvent_grown a names k l d x i flat : 0 < k -> grown a names k l d -> firstn k (skipn (i * k) flat) = x -> i * k + k <= List.length flat ->
  exists d', loadEvent a flat k d i = Ok d' /\ grown a names k (l ++ [x]) d' /\ dNObs d' = k.
Proof.
  intros Hk [G1 [G2 G3]] Hx Hl. unfold loadEvent. rewrite mapM_vat_range by exact Hl. rewrite Hx. cbn [bind].
  assert (Lx : List.length x = k) by (rewrite <- Hx, firstn_length, skipn_length; lia).
  assert (E : exists d', ds_add a d x = (d', Ok tt) /\
      dData d' = dData d ++ [mkDevt x (Some a)] /\ dNames d' = dNames d /\ dNObs d' = k).
  { unfold ds_add. rewrite Lx. destruct (Nat.eqb_spec k 0); [lia|]. destruct G3 as [G3|[G3 _]]; rewrite G3.
    - destruct (Nat.eqb_spec k 0); [lia|]. rewrite Nat.eqb_refl. cbn [negb]. eexists. split; [reflexivity|]. cbn. auto.
    - cbn [Nat.eqb]. eexists. split; [reflexivity|]. cbn. auto. }
  destruct E as [d' [E [E1 [E2 E3]]]]. rewrite E. exists d'. split; [reflexivity|]. split; [|exact E3]. split; [rewrite E1, G1, map_app; reflexivity|]. split; [congruence|auto].
Qed.
Lemma loadEvents_grown a names k flat (xs : list (list Qc)) : 0 < k -> Forall (fun r => List.length r = k) xs -> flat = List.concat xs ->
  forall n l d, n <= List.length xs -> grown a names k l d -> exists d', loadEvents a flat k n d = Ok d' /\ grown a names k (l ++ firstn n xs) d' /\ (0 < n -> dNObs d' = k).
Proof.
  intros Hk F ->. unfold loadEvents. induction n as [|n IH]; intros l d Hn G.
  - exists d. cbn. rewrite app_nil_r. split; [reflexivity|]. split; [exact G|lia].
  - destruct (IH l d ltac:(lia) G) as [d1 [E1 [G1 _]]]. rewrite seq_S, foldM_snoc, E1. cbn [bind Nat.add].
    destruct (nth_error xs n) as [r|] eqn:Er; [|apply nth_error_None in Er; lia].
    destruct (loadEvent_grown a names k _ d1 r n (List.concat xs) Hk G1) as [d2 [E2 [G2 H2]]].
    + apply nth_chunk; assumption.
    + rewrite (concat_len k) by exact F. nia.
    + exists d2. split; [exact E2|]. split; [|auto]. replace (l ++ firstn (S n) xs) with ((l ++ firstn n xs) ++ [r]); [exact G2|]. rewrite <- app_assoc. f_equal.
      replace (S n) with (n + 1) by lia. rewrite firstn_add_skip. f_equal.
      clear -Er. revert xs Er. induction n; intros [|x t] E; cbn in *; try discriminate; [congruence|auto].
Qed.
Lemma h5read_rows k (xs : list (list Qc)) a n off cnt : Forall (fun r => List.length r = k) xs -> a + n <= List.length xs -> off = (Z.of_nat a * Z.of_nat k)%Z -> cnt = (Z.of_nat n * Z.of_nat k)%Z ->
  h5read (List.concat xs) off cnt = Ok (List.concat (firstn n (skipn a xs))).
Proof.
  intros F H -> ->. unfold h5read. rewrite (concat_len k) by exact F. destruct (Z.ltb_spec (Z.of_nat (k * List.length xs)) (Z.of_nat a * Z.of_nat k + Z.of_nat n * Z.of_nat k)); [nia|].
  replace (Z.to_nat (Z.of_nat a * Z.of_nat k)) with (a * k) by lia. replace (Z.to_nat (Z.of_nat n * Z.of_nat k)) with (n * k) by lia.
  rewrite skipn_concat by (assumption || lia). rewrite firstn_concat; [reflexivity|apply Forall_skipn; exact F|rewrite skipn_length; lia].
Qed.
Lemma loadChunks a names k (xs : list (list Qc)) f : 0 < k -> Forall (fun r => List.length r = k) xs -> f5Data f = List.concat xs -> f5NObs f = Z.of_nat k ->
  (Z.of_nat k * Z.of_nat (List.length xs) < 2 ^ 32)%Z -> let C := Z.to_nat 100000 in
  forall c d, grown a names k [] d -> c * C <= List.length xs -> 0 < List.length xs ->
  exists d', foldM (loadChunk a f) (seq 0 c) d = Ok d' /\ grown a names k (firstn (c * C) xs) d' /\ (0 < c -> dNObs d' = k).
Proof.
  intros Hk F Hd Ho Hb C. assert (HC : Z.of_nat C = 100000%Z) by (unfold C; lia). clearbody C.
  induction c as [|c IH]; intros d G Hc Hp; [exists d; cbn; split; [reflexivity|]; split; [exact G|lia]|].
  destruct (IH d G ltac:(nia) Hp) as [d1 [E1 [G1 _]]]. rewrite seq_S, foldM_snoc, E1. cbn [bind Nat.add]. unfold loadChunk. rewrite Hd, Ho.
  assert (HcC : c * C + C <= List.length xs) by nia.
  rewrite (h5read_rows k xs (c * C) C) with (off := chunkOff (Z.of_nat k) (Z.of_nat c)) (cnt := chunkLen (Z.of_nat k)); [|exact F|exact HcC| |].
  2:{ unfold chunkOff, u32. rewrite <- HC. rewrite (Z.mod_small (Z.of_nat c * Z.of_nat C)) by nia. rewrite Z.mod_small by nia. lia. }
  2:{ unfold chunkLen, u32. rewrite <- HC. rewrite Z.mod_small by nia. reflexivity. }
  cbn [bind]. rewrite Nat2Z.id. replace (Z.to_nat 100000) with C by lia.
  destruct (loadEvents_grown a names k _ (firstn C (skipn (c * C) xs)) Hk ltac:(apply Forall_firstn, Forall_skipn; exact F) eq_refl C (firstn (c * C) xs) d1) as [d2 [E2 [G2 H2]]].
  - rewrite firstn_length, skipn_length. lia.
  - exact G1.
  - exists d2. split; [exact E2|]. split; [|intros _; apply H2; lia]. rewrite firstn_firstn, Nat.min_id in G2. replace (S c * C) with (c * C + C) by lia. rewrite firstn_add_skip. exact G2.
Qed.
Lemma load_grown a f k xs names : 0 < k -> Forall (fun r => List.length r = k) xs -> f5Data f = List.concat xs -> f5NObs f = Z.of_nat k -> xs <> [] ->
  (Z.of_nat k * Z.of_nat (List.length xs) < 2 ^ 32)%Z -> unpackString (f5Names f) = Ok names ->
  exists d, loadData a f = Ok d /\ rows d = xs /\ dNames d = names /\ dNObs d = k /\ Forall (fun e => dvPtr e = Some a) (dData d).
Proof.
  intros Hk F Hd Ho Hne Hb Hn. assert (HL : List.length (f5Data f) = k * List.length xs) by (rewrite Hd; apply concat_len; exact F).
  assert (Hp : 0 < List.length xs) by (destruct xs; [congruence|cbn; lia]).
  assert (G0 : grown a names k [] (ds_setNames ds_new names)) by (split; [reflexivity|]; split; [reflexivity|]; right; split; reflexivity).
  assert (Fin : forall d, grown a names k xs d -> dNObs d = k -> rows d = xs /\ dNames d = names /\ dNObs d = k /\ Forall (fun e => dvPtr e = Some a) (dData d)).
  { intros d [A [B _]] E. split; [unfold rows; rewrite A, map_map; cbn; apply map_id|]. split; [exact B|]. split; [exact E|]. rewrite A. apply Forall_forall. intros e He. apply in_map_iff in He. destruct He as [r [<- _]]. reflexivity. }
  unfold loadData. rewrite Hn. cbn [bind]. rewrite Ho, HL. destruct (Z.eqb_spec (Z.of_nat k) 0); [lia|].
  replace (Z.of_nat (k * List.length xs) / Z.of_nat k)%Z with (Z.of_nat (List.length xs)) by (rewrite Nat2Z.inj_mul, Z.mul_comm, Z.div_mul by lia; reflexivity).
  rewrite !Nat2Z.id. destruct (Z.ltb_spec (Z.of_nat (List.length xs)) 1000000) as [L|L].
  - destruct (loadEvents_grown a names k (f5Data f) xs Hk F Hd (List.length xs) [] _ (le_n _) G0) as [d [E [G H]]]. rewrite firstn_all in G. cbn [app] in G.
    exists d. assert (NE : f5Data f <> []) by (intros X; rewrite X in HL; cbn in HL; nia). destruct (f5Data f) as [|x t] eqn:Ef; [congruence|]. rewrite <- Ef in *. split; [exact E|]. apply Fin; [exact G|apply H; exact Hp].
  - assert (CL : chunkLen (Z.of_nat k) = (100000 * Z.of_nat k)%Z) by (unfold chunkLen, u32; apply Z.mod_small; nia).
    destruct (Z.eqb_spec (chunkLen (Z.of_nat k)) 0); [lia|].
    assert (B1 : (0 <= Z.of_nat (List.length xs) / 100000 < 2 ^ 32)%Z) by (split; [apply Z.div_pos; lia|apply Z.div_lt_upper_bound; nia]).
    replace (u32 (Z.of_nat (List.length xs) / 100000)) with (Z.of_nat (List.length xs) / 100000)%Z by (unfold u32; rewrite Z.mod_small by exact B1; reflexivity).
    pose proof (Z.div_mod (Z.of_nat (List.length xs)) 100000 ltac:(lia)) as DM. pose proof (Z.mod_pos_bound (Z.of_nat (List.length xs)) 100000 ltac:(lia)) as MB.
    set (q := (Z.of_nat (List.length xs) / 100000)%Z) in *. set (r := (Z.of_nat (List.length xs) mod 100000)%Z) in *. clearbody q r.
    destruct (loadChunks a names k xs f Hk F Hd Ho Hb (Z.to_nat q) _ G0 ltac:(lia) Hp) as [d1 [E1 [G1 H1]]]. rewrite E1. cbn [bind].
    destruct (Z.eqb_spec r 0) as [R|R].
    + exists d1. split; [reflexivity|]. replace (Z.to_nat q * Z.to_nat 100000) with (List.length xs) in G1 by lia. rewrite firstn_all in G1. apply Fin; [exact G1|apply H1; lia].
    + rewrite Hd. rewrite (h5read_rows k xs (Z.to_nat (q * 100000)) (Z.to_nat r)); [|exact F|lia|lia|lia]. cbn [bind].
      destruct (loadEvents_grown a names k _ (firstn (Z.to_nat r) (skipn (Z.to_nat (q * 100000)) xs)) Hk ltac:(apply Forall_firstn, Forall_skipn; exact F) eq_refl (Z.to_nat r) (firstn (Z.to_nat q * Z.to_nat 100000) xs) d1) as [d2 [E2 [G2 H2]]].
      * rewrite firstn_length, skipn_length. lia.
      * exact G1.
      * exists d2. split; [exact E2|]. rewrite firstn_firstn, Nat.min_id in G2. replace (Z.to_nat q * Z.to_nat 100000) with (Z.to_nat (q * 100000)) in G2 by lia. rewrite <- firstn_add_skip in G2.
        rewrite firstn_all2 in G2 by lia. apply Fin; [exact G2|apply H2; lia].
Qed.
