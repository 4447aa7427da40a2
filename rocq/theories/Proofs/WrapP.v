(** C104: bin numbers with size_t wrap-around. *)
From Coq Require Import ZArith Lia.
From Verif Require Import Base.Res Base.Num Base.SMap Model.Axis Model.Hist Model.Wrap Spec.AxisSpec Spec.HistSpec Proofs.AxisP Proofs.AxisP2 Proofs.HistP Proofs.InterpP.
Local Open Scope nat_scope.

Definition small (ac : axcol) : Prop := Forall (fun a => (Z.of_nat (aNBins a) < 2 ^ 64)%Z) (acAxes ac).
Lemma flattenW_mod ac idx : ac_ok ac -> acAxes ac <> [] -> in_shape (ac_nb ac) idx -> small ac ->
  flattenW ac (map Z.of_nat idx) = Ok (w64 (Z.of_nat (rowmajor (ac_nb ac) idx))).
Proof.
  intros [_ [H2 [H3 _]]] Hne Hs Hb. pose proof (in_shape_length _ _ Hs) as Hl.
  assert (Hnl : List.length (ac_nb ac) = List.length (acAxes ac)) by apply map_length.
  assert (HB : forall i, (Z.of_nat (nth i idx 0%nat) < 2 ^ 64)%Z).
  { clear - Hs Hb. unfold ac_nb, small in *. revert idx Hs. induction (acAxes ac) as [|a l IH]; intros idx Hs i; inversion Hs; subst; [destruct i; cbn; lia|]. inversion Hb; subst. destruct i; cbn [nth]; [lia|now apply IH]. }
  unfold flattenW. rewrite H2, H3, map_length, Hl, Hnl, Nat.eqb_refl. cbn [negb]. fold (ac_nb ac).
  destruct (Nat.eqb_spec (List.length (acAxes ac)) 1) as [E1|E1].
  - destruct idx as [|i [|]]; cbn in Hl; try lia. destruct (ac_nb ac) as [|n [|]]; cbn in Hnl; try lia. cbn -[Z.pow]. f_equal. specialize (HB 0). cbn [nth] in HB. rewrite w64_id by lia. lia.
  - destruct (Nat.eqb_spec (List.length (acAxes ac)) 0) as [E0|E0]; [destruct (acAxes ac); [congruence|discriminate]|].
    f_equal. rewrite firstn_all2 by lia.
    assert (HN : forall i, (0 <= Z.of_nat (nth i idx 0%nat) < 2 ^ 64)%Z) by (intros i; specialize (HB i); lia).
    assert (HT : forall i, nth i (map Z.of_nat idx) 0%Z = Z.of_nat (nth i idx 0%nat)) by (intros i; change 0%Z with (Z.of_nat 0); apply map_nth).
    rewrite (fold_left_ext_in _ (fun x i => w64 (x + w64 (Z.of_nat (nth i idx 0 * prod (skipn (i + 1) (ac_nb ac)))%nat)))).
    2:{ intros i a _. rewrite HT. rewrite mulW by apply HN. rewrite <- Nat2Z.inj_mul. reflexivity. }
    assert (HL : last (map Z.of_nat idx) 0%Z = Z.of_nat (last idx 0%nat)).
    { clear -HT. induction idx as [|x [|y l] IH]; [reflexivity|reflexivity|]. change (last (map Z.of_nat (y :: l)) 0%Z = Z.of_nat (last (y :: l) 0%nat)). apply IH. intros i. exact (HT (S i)). }
    rewrite HL. rewrite addW by (rewrite last_nth_in; apply HN). rewrite <- Nat2Z.inj_add.
    rewrite <- Hnl. rewrite rowmajor_sum; [reflexivity|lia|intros C; rewrite C in Hnl; cbn in Hnl; lia].
Qed.
Lemma countW_mod ac : ac_ok ac -> acAxes ac <> [] -> countW ac = w64 (Z.of_nat (prod (ac_nb ac))).
Proof.
  intros [_ [H2 [H3 _]]] Hne. unfold countW. rewrite H2, H3. fold (ac_nb ac). assert (Hnl : List.length (ac_nb ac) = List.length (acAxes ac)) by apply map_length.
  destruct (Nat.eqb_spec (List.length (acAxes ac)) 0) as [E0|E0]; [destruct (acAxes ac); [congruence|discriminate]|]. rewrite firstn_all2 by lia. rewrite mulW by lia. now rewrite Z.mul_1_l.
Qed.
Lemma axes_idx ac vals : ac_ok ac -> List.length vals = List.length (acAxes ac) ->
  mapM (fun i => (do a <- vat (acAxes ac) i; Ok (Z.of_nat (findBin a (nth i vals (Q2Qc 0)))))%res) (seq 0 (acNDims ac)) = Ok (map Z.of_nat (axes_bins (acAxes ac) vals)).
Proof.
  intros [_ [_ [H3 _]]] Hl. rewrite H3. clear H3. revert vals Hl.
  assert (G : forall l pre vals pv, List.length vals = List.length l -> List.length pv = List.length pre ->
    mapM (fun i => (do a <- vat (pre ++ l) i; Ok (Z.of_nat (findBin a (nth i (pv ++ vals) (Q2Qc 0)))))%res) (seq (List.length pre) (List.length l)) = Ok (map Z.of_nat (axes_bins l vals))).
  { induction l as [|a l IH]; intros pre [|v vals] pv Hl Hp; cbn in Hl; try discriminate; [reflexivity|]. cbn [List.length seq]. unfold mapM in *. cbn [map seqM].
    unfold vat at 1. rewrite nth_error_app2 by lia. rewrite Nat.sub_diag. cbn [nth_error bind].
    rewrite app_nth2 by lia. rewrite Hp, Nat.sub_diag. cbn [nth].
    specialize (IH (pre ++ [a]) vals (pv ++ [v])). rewrite <- !app_assoc, !app_length in IH. cbn [app List.length] in IH. rewrite (Nat.add_1_r (List.length pre)) in IH. rewrite IH by lia. reflexivity. }
  intros vals Hl. apply (G (acAxes ac) [] vals [] Hl eq_refl).
Qed.
Lemma findBinW_mod ac vals : ac_ok ac -> acAxes ac <> [] -> small ac -> List.length vals = List.length (acAxes ac) ->
  ac_findBinW ac vals = Ok (w64 (Z.of_nat (rowmajor (ac_nb ac) (axes_bins (acAxes ac) vals)))).
Proof.
  intros Hok Hne Hs Hl. unfold ac_findBinW. pose proof Hok as [_ [_ [H3 _]]]. rewrite Hl, H3, Nat.eqb_refl. cbn [negb]. rewrite <- H3. rewrite (axes_idx ac vals Hok Hl). cbn [bind].
  apply flattenW_mod; auto. apply axes_bins_shape; [apply Hok|exact Hl].
Qed.
Lemma prod_skipn_le nb : Forall (fun n => 0 < n) nb -> forall d, 0 < prod (skipn d nb) <= prod nb.
Proof.
  intros F. induction F as [|n nb Hn F IH]; intros d; [destruct d; cbn; lia|]. assert (P : 0 < prod nb) by now apply prod_pos_all.
  destruct d; cbn [skipn prod]; [nia|]. specialize (IH d). nia.
Qed.
Lemma small_of ac : ac_ok ac -> (Z.of_nat (prod (ac_nb ac)) < 2 ^ 64)%Z -> Forall (fun n => 0 < n) (ac_nb ac) /\ small ac.
Proof.
  intros [_ [_ [_ [_ [_ F]]]]] H. assert (P : Forall (fun n => 0 < n) (ac_nb ac)).
  { unfold ac_nb. clear - F. induction F as [|a l Ha F IH]; constructor; [|exact IH]. apply built_facts in Ha. tauto. }
  split; [exact P|]. unfold small, ac_nb in *. clear F. induction (acAxes ac) as [|a l IH]; constructor; inversion P; subst; cbn [map prod] in H.
  - assert (0 < prod (map aNBins l)) by now apply prod_pos_all. nia.
  - apply IH; [|assumption]. assert (0 < prod (map aNBins l)) by now apply prod_pos_all. nia.
Qed.
Lemma unflattenW_same ac k d : ac_ok ac -> acAxes ac <> [] -> (Z.of_nat (prod (ac_nb ac)) < 2 ^ 64)%Z -> unflattenW ac (Z.of_nat k) d = rmap Z.of_nat (unflatten ac k d).
Proof.
  intros Hok Hne H. destruct (small_of ac Hok H) as [P S]. unfold unflattenW, unflatten. rewrite countW_mod by assumption. rewrite w64_id by lia. pose proof Hok as [_ [H2 [H3 _]]]. rewrite (ac_nb_prod ac Hok Hne).
  destruct (Nat.eqb (acNDims ac) 1); [reflexivity|].
  destruct (Nat.leb_spec (prod (ac_nb ac)) k) as [L|L]; destruct (Z.leb_spec (Z.of_nat (prod (ac_nb ac))) (Z.of_nat k)) as [L'|L']; try lia; [reflexivity|].
  rewrite H2, H3. fold (ac_nb ac). assert (Hnl : List.length (ac_nb ac) = List.length (acAxes ac)) by apply map_length. rewrite firstn_all2 by lia.
  rewrite mulW by lia. rewrite Z.mul_1_l. pose proof (prod_skipn_le _ P (d + 1)) as [Q1 Q2]. rewrite w64_id by lia.
  rewrite fold_left_mul, Nat.mul_1_l. destruct (nth_error (ac_nb ac) d) as [nb|]; [|reflexivity].
  destruct (Nat.eqb_spec (prod (skipn (d + 1) (ac_nb ac))) 0) as [C|C]; [lia|]. destruct (Z.eqb_spec (Z.of_nat (prod (skipn (d + 1) (ac_nb ac)))) 0) as [C'|C']; [lia|].
  destruct (Nat.eqb_spec nb 0) as [C2|C2]; cbn [orb]; [reflexivity|]. cbn [rmap bind]. now rewrite Nat2Z.inj_mod, Nat2Z.inj_div.
Qed.
Lemma seqM_rmap {A B C} (f : C -> B) (g : A -> res B) (h : A -> res C) l : (forall x, In x l -> g x = rmap f (h x)) -> seqM (map g l) = rmap (map f) (seqM (map h l)).
Proof.
  induction l as [|x l IH]; intros H; [reflexivity|]. cbn [map seqM]. rewrite H by now left. destruct (h x); try reflexivity. cbn [rmap bind]. rewrite IH by (intros; apply H; now right). destruct (seqM (map h l)); reflexivity.
Qed.
Lemma wrap_pkg ac : ac_reach ac -> acAxes ac <> [] -> (Z.of_nat (prod (map aNBins (acAxes ac))) < 2 ^ 64)%Z ->
  countW ac = Z.of_nat (acNBins ac) /\
  (forall idx, in_shape (map aNBins (acAxes ac)) idx -> flattenW ac (map Z.of_nat idx) = rmap Z.of_nat (flatten ac idx)) /\
  (forall k d, unflattenW ac (Z.of_nat k) d = rmap Z.of_nat (unflatten ac k d)) /\
  (forall k, unpackW ac (Z.of_nat k) = rmap (map Z.of_nat) (unpack ac k)) /\
  forall vals, ac_findBinW ac vals = rmap Z.of_nat (ac_findBin ac vals).
Proof.
  intros R Hne H. pose proof (ac_reach_ok ac R) as Hok. destruct (small_of ac Hok H) as [P S]. split; [|split; [|split; [|split]]].
  - rewrite countW_mod by assumption. fold (ac_nb ac) in H. rewrite w64_id by lia. now rewrite (ac_nb_prod ac Hok Hne).
  - intros idx Hi. rewrite flattenW_rowmajor by assumption. rewrite flatten_rowmajor; [reflexivity|exact Hok|exact Hne|]. apply in_shape_length in Hi. rewrite map_length in Hi. exact Hi.
  - intros k d. now apply unflattenW_same.
  - intros k. unfold unpackW, unpack, mapM. apply seqM_rmap. intros d _. now apply unflattenW_same.
  - intros vals. destruct (Nat.eq_dec (List.length vals) (List.length (acAxes ac))) as [E|E].
    + rewrite findBinW_mod by assumption. rewrite ac_findBin_eq by assumption. cbn [rmap bind]. f_equal. apply w64_id. assert (I : in_shape (ac_nb ac) (axes_bins (acAxes ac) vals)) by (apply axes_bins_shape; [apply Hok|exact E]). apply rowmajor_lt in I. fold (ac_nb ac) in H. lia.
    + unfold ac_findBinW, ac_findBin. pose proof Hok as [_ [_ [-> _]]]. destruct (Nat.eqb_spec (List.length vals) (List.length (acAxes ac))); [contradiction|reflexivity].
Qed.
Lemma wide_axis name : exists a, mk_equal name 0%Qc 1%Qc (Nat.pow 2 16) "" = Ok a /\ built a /\ aName a = name /\ aNBins a = Nat.pow 2 16 /\ in_bin a 0 0%Qc /\ findBin a 0%Qc = 0.
Proof.
  assert (N0 : Nat.pow 2 16 <> 0) by (apply Nat.pow_nonzero; lia). revert N0. generalize (Nat.pow 2 16). intros n N0.
  destruct (mk_equal_full name 0%Qc 1%Qc n "") as [_ H]. destruct (H ltac:(reflexivity) N0) as [a [E [Hn [Ha [Hmin [Hmax [Hlo [_ [Hc He]]]]]]]]].
  exists a. assert (B : built a) by (eapply built_equal; exact E). split; [exact E|]. split; [exact B|]. split; [exact Ha|]. split; [exact Hn|].
  assert (I : in_bin a 0 0%Qc).
  { destruct (built_facts a B) as [P [L1 [L2 _]]]. split; [exact P|]. split; [rewrite Hlo; apply Qcle_refl|].
    destruct (He 0 ltac:(lia)) as [l [h [c [w [E1 [E2 [_ [_ [Hw [Hd _]]]]]]]]]]. unfold binLow, binHigh in E1, E2.
    rewrite (vat_nth _ 0 0%Qc) in E1 by lia. rewrite (vat_nth _ 0 0%Qc) in E2 by lia. unfold lo_of in Hlo. rewrite Hlo in E1. injection E1 as <-. injection E2 as E2. unfold hi_of. rewrite E2.
    assert (W : (0 < w)%Qc). { rewrite Hw. assert (Q : (0 < qn n)%Qc) by (apply qn_pos; lia). replace ((1 - 0) / qn n)%Qc with (/ qn n)%Qc by (field; intros C; rewrite C in Q; discriminate).
      destruct (Qc_dec 0 (/ qn n)%Qc) as [[C|C]|C]; [exact C| |].
      - exfalso. assert (X : (qn n * / qn n = 1)%Qc) by (apply Qcmult_inv_r; intros D; rewrite D in Q; discriminate). revert C X Q. generalize (/ qn n)%Qc (qn n). intros u v C X Q. qnra.
      - exfalso. assert (X : (qn n * / qn n = 1)%Qc) by (apply Qcmult_inv_r; intros D; rewrite D in Q; discriminate). rewrite <- C, Qcmult_0_r in X. discriminate. }
    clear - W Hd. revert W Hd. set (hh := h). clearbody hh. intros. qlra. }
  split; [exact I|]. destruct (findBin_full a 0%Qc B) as [_ F]. destruct (F Hc) as [_ [_ F3]].
  symmetry. apply F3; [rewrite Hmin; apply Qcle_refl|rewrite Hmax; reflexivity|exact I].
Qed.
Lemma overflow_pkg a0 : built a0 -> aName a0 = "e"%string -> aNBins a0 = 2 -> findBin a0 (qq 1 2) = 0 -> findBin a0 (qq 3 2) = 1 ->
  exists a1 a2 a3 a4 ac, Forall (fun a => built a /\ aNBins a = Nat.pow 2 16 /\ in_bin a 0 0%Qc) [a1; a2; a3; a4] /\
    addAxes ac_empty [a0; a1; a2; a3; a4] = (ac, Ok tt) /\ acAxes ac = [a0; a1; a2; a3; a4] /\
    countW ac = 0%Z /\ ac_findBinW ac [qq 1 2; 0%Qc; 0%Qc; 0%Qc; 0%Qc] = Ok 0%Z /\ ac_findBinW ac [qq 3 2; 0%Qc; 0%Qc; 0%Qc; 0%Qc] = Ok 0%Z.
Proof.
  intros B0 N0 L0 F0 F1.
  destruct (wide_axis "x") as [a1 [_ [B1 [N1 [L1 [I1 G1]]]]]]. destruct (wide_axis "y") as [a2 [_ [B2 [N2 [L2 [I2 G2]]]]]].
  destruct (wide_axis "z") as [a3 [_ [B3 [N3 [L3 [I3 G3]]]]]]. destruct (wide_axis "t") as [a4 [_ [B4 [N4 [L4 [I4 G4]]]]]].
  assert (FB : Forall built [a0; a1; a2; a3; a4]) by (repeat constructor; assumption).
  destruct (addAxes ac_empty [a0; a1; a2; a3; a4]) as [ac r] eqn:E.
  pose proof (addAxes_prefix [a0; a1; a2; a3; a4] ac_empty (ac_reach_ok _ ar_empty) FB) as [p [s [E1 [E2 E3]]]].
  rewrite E in E2, E3. cbn [fst snd] in E2, E3. change (acAxes ac_empty) with (@nil axis) in E2, E3. cbn [app] in E2, E3.
  assert (s = []) as ->.
  { destruct s as [|b s]; [reflexivity|exfalso]. destruct E3 as [_ E3].
    assert (ND : NoDup (map aName (p ++ b :: s))). { rewrite <- E1. cbn [map]. rewrite N0, N1, N2, N3, N4. repeat constructor; cbn; intuition discriminate. }
    rewrite map_app in ND. cbn [map] in ND. apply NoDup_remove_2 in ND. apply ND. apply in_or_app. now left. }
  rewrite app_nil_r in E1. subst p.
  assert (R : ac_reach ac) by (replace ac with (fst (addAxes ac_empty [a0; a1; a2; a3; a4])) by (rewrite E; reflexivity); apply ar_adds; [constructor|exact FB]).
  pose proof (ac_reach_ok ac R) as Hok. assert (Hne : acAxes ac <> []) by (rewrite E2; discriminate).
  assert (NB : ac_nb ac = [2; Nat.pow 2 16; Nat.pow 2 16; Nat.pow 2 16; Nat.pow 2 16]) by (unfold ac_nb; rewrite E2; cbn [map]; rewrite L0, L1, L2, L3, L4; reflexivity).
  assert (ZP : Z.of_nat (Nat.pow 2 16) = (2 ^ 16)%Z) by (rewrite Nat2Z.inj_pow; reflexivity).
  assert (SM : small ac). { unfold small. rewrite E2. repeat (apply Forall_cons || apply Forall_nil); rewrite ?L0, ?L1, ?L2, ?L3, ?L4, ?ZP; reflexivity. }
  exists a1, a2, a3, a4, ac. split; [|split; [rewrite E, E3; reflexivity|split; [exact E2|]]].
  { clear E. repeat (apply Forall_cons || apply Forall_nil); auto. }
  revert NB ZP. generalize (Nat.pow 2 16). intros N NB ZP.
  assert (LV : forall v, List.length [v; 0%Qc; 0%Qc; 0%Qc; 0%Qc] = List.length (acAxes ac)) by (intros; rewrite E2; reflexivity).
  split; [|split].
  - rewrite countW_mod by assumption. rewrite NB. unfold prod. rewrite !Nat2Z.inj_mul, ZP. reflexivity.
  - rewrite (findBinW_mod ac _ Hok Hne SM (LV _)). rewrite NB, E2. unfold axes_bins. cbn [combine map fst snd]. rewrite F0, G1, G2, G3, G4. unfold rowmajor, prod. rewrite ?Nat2Z.inj_add, ?Nat2Z.inj_mul. rewrite ?ZP. reflexivity.
  - rewrite (findBinW_mod ac _ Hok Hne SM (LV _)). rewrite NB, E2. unfold axes_bins. cbn [combine map fst snd]. rewrite F1, G1, G2, G3, G4. unfold rowmajor, prod. rewrite ?Nat2Z.inj_add, ?Nat2Z.inj_mul. rewrite ?ZP. reflexivity.
Qed.
