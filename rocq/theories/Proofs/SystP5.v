(** Caches (C24), Renorm, symmetric matrices and products (C63). *)
From Verif Require Import Base.Res Base.Num Base.SMap Model.Axis Model.Event Model.Hist Model.Matrix Model.Syst
  Spec.AxisSpec Spec.HistSpec Spec.SystSpec Proofs.AxisP Proofs.HistP Proofs.HistP2.
Local Open Scope Qc_scope.

(** * bookkeeping sizes never change *)
Definition bk (m m' : smat) : Prop := sNR m' = sNR m /\ sNC m' = sNC m.
Lemma bk_refl m : bk m m. Proof. split; reflexivity. Qed.
Lemma bk_trans a b c : bk a b -> bk b c -> bk a c.
Proof. unfold bk. intuition congruence. Qed.
Lemma bk_set m r c v : bk m (fst (m_set m r c v)).
Proof. unfold m_set. destruct (_ || _); [apply bk_refl|]. destruct (_ && _); split; reflexivity. Qed.
Lemma iterS_bk {A} (f : smat -> A -> smat * res unit) l : (forall m x, bk m (fst (f m x))) ->
  forall m, bk m (fst (iterS f l m)).
Proof.
  intros H. induction l as [|x l IH]; intros m; cbn [iterS]; [apply bk_refl|].
  pose proof (H m x) as Hx. destruct (f m x) as [m1 [u|e| | |]]; cbn [fst] in *; try exact Hx.
  eapply bk_trans; [exact Hx|apply IH].
Qed.
Lemma obind_bk {A} (m : smat) (x : res A) k : (forall a, bk m (fst (k a))) -> bk m (fst (obind m x k)).
Proof. intros H. destruct x; cbn [obind fst]; try apply bk_refl. apply H. Qed.
Lemma fillResp_bk w vals : bk (sbResp (wB w)) (fst (w_fillResp w vals)).
Proof.
  unfold w_fillResp. unfold m_setZeros.
  destruct (Nat.eqb (sNR (sbResp (wB w))) 0 || Nat.eqb (sNC (sbResp (wB w))) 0); [apply bk_refl|].
  match goal with |- bk _ (fst (iterS ?f ?l ?m0)) => apply (bk_trans _ m0); [split; reflexivity|apply (iterS_bk f l)] end.
  intros m o. apply obind_bk. intros b. apply obind_bk. intros prs. apply iterS_bk. intros mm p.
  destruct (_ || _); [apply bk_refl|apply bk_set].
Qed.

(** * the cache of a warp: valid whenever the flag is up, as long as only parameters change *)
Definition w_inv (b0 : sbase) (w : warp) : Prop :=
  sbAxes (wB w) = sbAxes b0 /\ sbTrans (wB w) = sbTrans b0 /\ sbDist (wB w) = sbDist b0 /\
  bk (sbResp b0) (sbResp (wB w)) /\
  (wCached w = true -> w_cacheOf b0 = Ok (wBinMap w, wMapR w, wMapC w, wMap w)).
Lemma cacheOf_base b b' : sbAxes b' = sbAxes b -> sbTrans b' = sbTrans b -> sbDist b' = sbDist b ->
  w_cacheOf b' = w_cacheOf b.
Proof. destruct b, b'; cbn; intros; subst. reflexivity. Qed.
Lemma check_base k b b' : sbAxes b' = sbAxes b -> sbTrans b' = sbTrans b -> w_check k b' = w_check k b.
Proof. destruct b, b'; cbn; intros; subst. reflexivity. Qed.
Lemma axis_base b b' : sbAxes b' = sbAxes b -> sbTrans b' = sbTrans b -> sbDist b' = sbDist b ->
  w_axis b' = w_axis b.
Proof. destruct b, b'; cbn; intros; subst. reflexivity. Qed.

Lemma w_inv_construct b0 w : w_inv b0 w -> w_inv b0 (fst (w_construct w)).
Proof.
  intros HI. pose proof HI as [H1 [H2 [H3 [H4 H5]]]]. unfold w_construct.
  destruct (w_check (wKind w) (wB w)); cbn [obind fst]; try exact HI.
  destruct (if wCached w then _ else _) as [[[[bm mr] mc] mf]|e| | |] eqn:Ec; cbn [obind fst]; try exact HI.
  assert (Ec' : w_cacheOf b0 = Ok (bm, mr, mc, mf)).
  { destruct (wCached w); [rewrite H5 by reflexivity; exact Ec|]. rewrite <- Ec. symmetry. now apply cacheOf_base. }
  assert (HI1 : w_inv b0 (mkWarp (wB w) (wKind w) true bm mr mc mf)).
  { unfold w_inv. cbn. auto. }
  destruct (w_axis (wB w)) as [ax0|e1| | |]; cbn [obind fst]; try exact HI1.
  destruct (mapM _ _) as [vals|e1| | |]; cbn [obind fst]; try exact HI1.
  pose proof (fillResp_bk (mkWarp (wB w) (wKind w) true bm mr mc mf) vals) as Hbk.
  destruct (w_fillResp _ vals) as [m o]. cbn [fst] in *. unfold w_inv, w_onB. cbn.
  repeat split; try assumption; try (eapply bk_trans; [exact H4|exact Hbk]). intros _. exact Ec'.
Qed.

(** construct from a valid state: outcome and response are those of the fresh object *)
Lemma w_construct_same b0 w wf : w_inv b0 w -> w_inv b0 wf -> wKind wf = wKind w ->
  snd (w_construct w) = snd (w_construct wf) /\
  (snd (w_construct w) = Ok tt -> sbResp (wB (fst (w_construct w))) = sbResp (wB (fst (w_construct wf)))).
Proof.
  intros [H1 [H2 [H3 [H4 H5]]]] [G1 [G2 [G3 [G4 G5]]]] Hk. unfold w_construct.
  rewrite Hk, (check_base (wKind w) b0 (wB w)), (check_base (wKind w) b0 (wB wf)) by assumption.
  destruct (w_check (wKind w) b0) as [u|e| | |]; cbn [obind fst snd]; try (split; [reflexivity|discriminate]).
  assert (Ew : (if wCached w then Ok (wBinMap w, wMapR w, wMapC w, wMap w) else w_cacheOf (wB w)) = w_cacheOf b0).
  { destruct (wCached w); [symmetry; auto|now apply cacheOf_base]. }
  assert (Ef : (if wCached wf then Ok (wBinMap wf, wMapR wf, wMapC wf, wMap wf) else w_cacheOf (wB wf)) = w_cacheOf b0).
  { destruct (wCached wf); [symmetry; auto|now apply cacheOf_base]. }
  rewrite Ew, Ef. destruct (w_cacheOf b0) as [[[[bm mr] mc] mf]|e| | |]; cbn [obind fst snd]; try (split; [reflexivity|discriminate]).
  rewrite (axis_base b0 (wB w)), (axis_base b0 (wB wf)) by assumption.
  destruct (w_axis b0) as [ax0|e| | |]; cbn [obind fst snd]; try (split; [reflexivity|discriminate]).
  destruct (mapM _ _) as [vals|e| | |]; cbn [obind fst snd]; try (split; [reflexivity|discriminate]).
  unfold w_fillResp. cbn [wB wBinMap wMapC wMapR wMap]. unfold m_setZeros.
  destruct H4 as [B1 B2], G4 as [C1 C2]. rewrite B1, B2, C1, C2, H1, G1.
  destruct (_ || _); cbn [fst snd]; [split; [reflexivity|discriminate]|].
  destruct (iterS _ _ _) as [m o]. cbn. auto.
Qed.

(** histories after the configuration: parameter changes and Construct calls *)
Lemma wrun_inv b0 l : forall w, w_inv b0 w -> w_inv b0 (wrun w l).
Proof.
  induction l as [|[k|] l IH]; intros w H; cbn; [exact H| |]; apply IH; [exact H|now apply w_inv_construct].
Qed.
Lemma warp_history_pkg k0 k b ops :
  let fresh := mkWarp b k false [] 0 0 (fun _ _ => 0%nat) in
  let used := wrun (mkWarp b k0 false [] 0 0 (fun _ _ => 0%nat)) (ops ++ [WSet k]) in
  snd (w_construct used) = snd (w_construct fresh) /\
  (snd (w_construct used) = Ok tt ->
     sbResp (wB (fst (w_construct used))) = sbResp (wB (fst (w_construct fresh)))).
Proof.
  intros fresh used.
  assert (I0 : forall k', w_inv b (mkWarp b k' false [] 0 0 (fun _ _ => 0%nat))).
  { intros k'. unfold w_inv. cbn. repeat split; discriminate. }
  apply (w_construct_same b).
  - unfold used. apply wrun_inv. apply I0.
  - apply I0.
  - unfold used, wrun. rewrite fold_left_app. reflexivity.
Qed.

(** * Renorm *)
Lemma renorm_pkg r : 
  (acNBins (sbAxes (rnB r)) = 0%nat -> rn_construct r = (r, Throw LogicError)) /\
  (acNBins (sbAxes (rnB r)) <> 0%nat -> forall n, square (sbResp (rnB r)) n -> n <> 0%nat -> forall k, rnScale r = Some k ->
     exists r', rn_construct r = (r', Ok tt) /\ square (sbResp (rnB r')) n /\
       forall i j, resp (rnB r') i j = if Nat.eqb i j then k else 0).
Proof.
  unfold rn_construct. split.
  - intros ->. reflexivity.
  - intros H n [S1 [S2 [S3 S4]]] Hn k Hk. destruct (Nat.eqb_spec (acNBins (sbAxes (rnB r))) 0); [contradiction|].
    unfold m_setIdentity. rewrite S1, S2, Nat.eqb_refl. destruct (Nat.eqb_spec n 0); [contradiction|]. cbn [orb negb].
    rewrite Hk. eexists. split; [reflexivity|]. split; [repeat split; cbn; assumption|].
    intros i j. unfold resp. cbn. destruct (Nat.eqb i j); ring.
Qed.

(** * products *)
Lemma product_pkg m o v : sC m = sR o -> List.length v = sC o ->
  exists p ov out, m_mul m o = (p, Ok tt) /\ m_apply o v = Ok ov /\ m_apply m ov = Ok out /\ m_apply p v = Ok out.
Proof.
  intros H Hv. unfold m_mul. rewrite H, Nat.eqb_refl. do 3 eexists. split; [reflexivity|].
  unfold m_apply at 1. rewrite Hv, Nat.eqb_refl. split; [reflexivity|].
  unfold m_apply at 1. rewrite map_length, seq_length, <- H, Nat.eqb_refl. split; [reflexivity|].
  unfold m_apply. cbn [sC sR sF]. rewrite Hv, Nat.eqb_refl. f_equal. apply map_ext. intros i.
  transitivity (qsum (map (fun j => qsum (map (fun k => sF m i k * sF o k j * nth j v 0) (seq 0 (sC m)))) (seq 0 (sC o)))).
  - apply qsum_map_ext. intros j _. unfold fmul. rewrite Qcmult_comm, <- qsum_map_mul. apply qsum_map_ext. intros k _. ring.
  - rewrite (qsum_map_swap (fun j k => sF m i k * sF o k j * nth j v 0)). apply qsum_map_ext. intros k Hk. apply in_seq in Hk.
    rewrite nth_map_seq by lia. rewrite <- qsum_map_mul. apply qsum_map_ext. intros j _. ring.
Qed.
Lemma product_mismatch_pkg m o : sC m <> sR o -> m_mul m o = (m, Throw std_logic_error).
Proof. intros H. unfold m_mul. destruct (Nat.eqb_spec (sC m) (sR o)); [contradiction|reflexivity]. Qed.
(** operator* overwrites its left operand *)
Lemma product_overwrites : exists m o v, square m 2 /\ square o 2 /\
  m_apply (fst (m_mul m o)) v <> m_apply m v.
Proof.
  exists (mkMat 2 2 2 2 (fun i j => if Nat.eqb i j then 1 else 0)),
         (mkMat 2 2 2 2 (fun i j => if Nat.eqb i j then qz 2 else 0)), [1; 1].
  split; [repeat split|split; [repeat split|]]. vm_compute. congruence.
Qed.

(** * packed symmetric matrices *)
Lemma tri_S n : tri (S n) = (tri n + S n)%nat.
Proof.
  unfold tri. replace (S n * (S n + 1))%nat with (n * (n + 1) + (S n) * 2)%nat by lia.
  rewrite Nat.div_add by lia. reflexivity.
Qed.
Lemma lower_pairs_S n : lower_pairs (S n) = lower_pairs n ++ map (pair n) (seq 0 (S n)).
Proof. unfold lower_pairs. rewrite seq_S, flat_map_app. f_equal. cbn [flat_map]. rewrite app_nil_r, <- seq_S. reflexivity. Qed.
Lemma lower_pairs_length n : List.length (lower_pairs n) = tri n.
Proof.
  induction n as [|n IH]; [reflexivity|]. rewrite lower_pairs_S, app_length, IH, map_length, seq_length, tri_S. lia.
Qed.
Lemma lower_pairs_nth n : forall j k, (k <= j < n)%nat -> nth (tri j + k) (lower_pairs n) (0, 0)%nat = (j, k).
Proof.
  induction n as [|n IH]; intros j k H; [lia|]. rewrite lower_pairs_S.
  destruct (Nat.eq_dec j n) as [->|Hne].
  - rewrite app_nth2; rewrite lower_pairs_length; [|lia]. replace (tri n + k - tri n)%nat with k by lia.
    rewrite (nth_map2 _ _ _ 0%nat) by (rewrite seq_length; lia). rewrite seq_nth by lia. reflexivity.
  - rewrite app_nth1; [apply IH; lia|]. rewrite lower_pairs_length.
    assert (G : forall q, (j < q)%nat -> (tri j + k < tri q)%nat).
    { induction q as [|q IHq]; intros Hq; [lia|]. rewrite tri_S.
      destruct (Nat.eq_dec j q) as [->|]; [lia|]. specialize (IHq ltac:(lia)). lia. }
    apply G. lia.
Qed.
Lemma lower_pairs_in n p : In p (lower_pairs n) -> (snd p <= fst p < n)%nat.
Proof.
  unfold lower_pairs. intros H. apply in_flat_map in H as [j [Hj H]]. apply in_map_iff in H as [k [<- Hk]].
  apply in_seq in Hj, Hk. cbn. lia.
Qed.

Definition lastw {P : Type} (t : P -> bool) (v : P -> Qc) (l : list P) (d : Qc) : Qc :=
  fold_left (fun acc p => if t p then v p else acc) l d.
Lemma lastw_some {P} (t : P -> bool) v l x : (forall p, In p l -> t p = true -> v p = x) ->
  forall d, (d = x \/ exists p, In p l /\ t p = true) -> lastw t v l d = x.
Proof.
  unfold lastw. induction l as [|p l IH]; intros H d Hd.
  - destruct Hd as [->|[p [[] _]]]. reflexivity.
  - cbn [fold_left]. apply IH; [intros q Hq; apply H; now right|].
    destruct (t p) eqn:E; [left; apply H; [now left|exact E]|].
    destruct Hd as [->|[q [[->|Hq] Eq]]]; [now left|congruence|right; exists q; auto].
Qed.
Definition touches (a b : nat) (p : nat * (nat * nat)) : bool :=
  (Nat.eqb a (fst (snd p)) && Nat.eqb b (snd (snd p))) || (Nat.eqb a (snd (snd p)) && Nat.eqb b (fst (snd p))).
Lemma sym_iter inp n l : (forall p, In p l -> (fst p < List.length inp)%nat /\ (fst (snd p) < n)%nat /\ (snd (snd p) < n)%nat) ->
  forall m, square m n ->
  exists m', iterS (fun mm (p : nat * (nat * nat)) =>
                obind mm (vat inp (fst p)) (fun v =>
                  let j := fst (snd p) in let k := snd (snd p) in
                  if Nat.ltb j (sR mm) && Nat.ltb k (sC mm) && Nat.ltb k (sR mm) && Nat.ltb j (sC mm)
                  then (mkMat (sNR mm) (sNC mm) (sR mm) (sC mm) (fset (fset (sF mm) k j v) j k v), Ok tt)
                  else (mm, Throw std_logic_error))) l m = (m', Ok tt) /\ square m' n /\
    forall a b, sF m' a b = lastw (touches a b) (fun p => nth (fst p) inp 0) l (sF m a b).
Proof.
  induction l as [|p l IH]; intros Hl m Hm.
  - exists m. split; [reflexivity|split; [exact Hm|reflexivity]].
  - destruct (Hl p (or_introl eq_refl)) as [H1 [H2 H3]]. cbn [iterS]. rewrite (vat_nth inp _ 0 H1). cbn [obind].
    pose proof Hm as [A [B [C D]]]. cbv zeta. rewrite C, D.
    rewrite !(proj2 (Nat.ltb_lt _ _)) by assumption. cbn [andb].
    edestruct (IH (fun q Hq => Hl q (or_intror Hq))
       (mkMat (sNR m) (sNC m) n n (fset (fset (sF m) (snd (snd p)) (fst (snd p)) (nth (fst p) inp 0)) (fst (snd p)) (snd (snd p)) (nth (fst p) inp 0))))
      as [m' [E [Sq F]]]; [repeat split; assumption|].
    exists m'. split; [exact E|split; [exact Sq|]]. intros a b. rewrite F. unfold lastw at 2. cbn [fold_left sF].
    unfold lastw. f_equal. unfold fset, touches.
    destruct (Nat.eqb a (fst (snd p)) && Nat.eqb b (snd (snd p))); cbn [orb]; reflexivity.
Qed.
Lemma symmetric_pkg m n inp : square m n ->
  (List.length inp <> tri n -> m_setSymmetric m inp = (m, Throw DimensionError)) /\
  (List.length inp = tri n -> exists m', m_setSymmetric m inp = (m', Ok tt) /\ square m' n /\
     forall j k, (k <= j < n)%nat ->
       m_get m' j k = Ok (nth (tri j + k) inp 0) /\ m_get m' k j = Ok (nth (tri j + k) inp 0)).
Proof.
  intros Hm. pose proof Hm as [A [B [C D]]]. unfold m_setSymmetric. rewrite A, B, Nat.eqb_refl. cbn [negb].
  fold (tri n). split.
  - intros H. destruct (Nat.eqb_spec (tri n) (List.length inp)); [congruence|reflexivity].
  - intros H. rewrite <- H, Nat.eqb_refl. cbn [negb].
    set (L := combine (seq 0 (List.length (lower_pairs n))) (lower_pairs n)).
    assert (HL : forall p, In p L -> (fst p < tri n)%nat /\ In (snd p) (lower_pairs n) /\
                                   nth (fst p) (lower_pairs n) (0, 0)%nat = snd p).
    { intros p Hp. apply (In_nth _ _ (0, (0, 0))%nat) in Hp as [q [Hq E]].
      unfold L in Hq, E. rewrite combine_length, seq_length, Nat.min_id in Hq.
      rewrite combine_nth, seq_nth in E by (rewrite ?seq_length; auto). subst p. cbn [fst snd plus].
      rewrite <- lower_pairs_length. split; [exact Hq|split; [apply nth_In; exact Hq|reflexivity]]. }
    edestruct (sym_iter inp n L) as [m' [E [Sq F]]]; [|exact Hm|].
    { intros p Hp. destruct (HL p Hp) as [H1 [H2 _]]. apply lower_pairs_in in H2. rewrite H. lia. }
    exists m'. split; [exact E|split; [exact Sq|]].
    assert (G : forall a b j k, (k <= j < n)%nat -> ((a = j /\ b = k) \/ (a = k /\ b = j)) -> sF m' a b = nth (tri j + k) inp 0).
    { intros a b j k Hjk Hab. rewrite F. apply lastw_some.
      - intros p Hp Ht. destruct (HL p Hp) as [H1 [H2 H3]]. apply lower_pairs_in in H2.
        assert (Ep : snd p = (j, k)).
        { destruct (snd p) as [pj pk] eqn:Es. cbn [fst snd] in H2. unfold touches in Ht. rewrite Es in Ht. cbn [fst snd] in Ht.
          apply orb_true_iff in Ht as [Ht|Ht]; apply andb_true_iff in Ht as [T1 T2];
            apply Nat.eqb_eq in T1, T2; f_equal; lia. }
        f_equal. (* the position of (j,k) in the list is unique *)
        clear -H1 H3 Ep Hjk. rewrite Ep in H3. revert H1 H3. generalize (fst p). clear p Ep. 
        induction n as [|n' IH]; intros q Hq H3; [unfold tri in Hq; cbn in Hq; lia|].
        rewrite lower_pairs_S in H3. rewrite tri_S in Hq.
        destruct (Nat.lt_ge_cases q (tri n')) as [C|C].
        + rewrite app_nth1 in H3 by (rewrite lower_pairs_length; exact C).
          apply IH; [|exact C|exact H3].
          assert (Hin : In (j, k) (lower_pairs n')) by (rewrite <- H3; apply nth_In; now rewrite lower_pairs_length).
          apply lower_pairs_in in Hin. cbn in Hin. lia.
        + rewrite app_nth2 in H3 by (rewrite lower_pairs_length; exact C). rewrite lower_pairs_length in H3.
          rewrite (nth_map2 _ _ _ 0%nat) in H3 by (rewrite seq_length; lia). rewrite seq_nth in H3 by lia.
          injection H3 as <- H3. lia.
      - right. exists ((tri j + k)%nat, (j, k)).
        assert (Hlt : (tri j + k < tri n)%nat).
        { assert (G : forall q, (j < q)%nat -> (tri j + k < tri q)%nat).
          { induction q as [|q IHq]; intros Hq; [lia|]. rewrite tri_S.
            destruct (Nat.eq_dec j q) as [->|]; [lia|]. specialize (IHq ltac:(lia)). lia. }
          apply G; lia. }
        split.
        + unfold L. replace ((tri j + k)%nat, (j, k)) with (nth (tri j + k) L (0, (0, 0))%nat).
          * apply nth_In. unfold L. rewrite combine_length, seq_length, Nat.min_id, lower_pairs_length. exact Hlt.
          * unfold L. rewrite combine_nth by apply seq_length. rewrite seq_nth by (rewrite lower_pairs_length; exact Hlt).
            now rewrite lower_pairs_nth.
        + unfold touches. cbn [fst snd]. destruct Hab as [[-> ->]|[-> ->]]; rewrite !Nat.eqb_refl; cbn [andb orb]; [reflexivity|apply orb_true_r]. }
    intros j k Hjk. pose proof Sq as [A' [B' [C' D']]]. unfold m_get. rewrite A', B', C', D'.
    rewrite !(proj2 (Nat.leb_gt _ _)) by lia. cbn [orb]. rewrite !(proj2 (Nat.ltb_lt _ _)) by lia. cbn [andb].
    rewrite (G j k j k) by auto. rewrite (G k j j k) by auto. auto.
Qed.
Lemma symmetric_nonsquare_pkg m inp : sNR m <> sNC m -> m_setSymmetric m inp = (m, Throw DimensionError).
Proof. intros H. unfold m_setSymmetric. destruct (Nat.eqb_spec (sNR m) (sNC m)); [contradiction|reflexivity]. Qed.
