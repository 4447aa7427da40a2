(** GetSlice. *)
From Coq Require Import ZArith.
From Verif Require Import Base.Res Base.Num Base.SMap Model.Axis Model.Hist Spec.AxisSpec Spec.HistSpec Proofs.AxisP Proofs.HistP Proofs.HistP2.
Local Open Scope Qc_scope.
Local Open Scope res_scope.

Fixpoint set_all (ps ts coords : list nat) : list nat :=
  match ps, ts with
  | p :: ps', t :: ts' => set_all ps' ts' (upd coords p t)
  | _, _ => coords
  end.
Lemma recurse_tuples rf : forall coords,
  recurse rf coords = map (fun t => set_all (map fst rf) t coords) (tuples (map snd rf)).
Proof.
  induction rf as [|[p n] rf IH]; intros coords; cbn [recurse map fst snd tuples]; [reflexivity|].
  rewrite flat_map_map. apply flat_map_ext. intros i. rewrite IH, map_map. apply map_ext. reflexivity.
Qed.
Lemma set_all_length ps : forall ts c, List.length (set_all ps ts c) = List.length c.
Proof. induction ps as [|p ps IH]; intros [|t ts] c; cbn [set_all]; auto. rewrite IH. apply upd_length. Qed.
Lemma set_all_nth ps : forall ts c idx, NoDup ps -> List.length ts = List.length ps ->
  (forall p, In p ps -> (p < List.length c)%nat) ->
  (forall k, (k < List.length ps)%nat -> nth k ts 0%nat = nth (nth k ps 0%nat) idx 0%nat) ->
  forall q, nth q (set_all ps ts c) 0%nat = if in_dec Nat.eq_dec q ps then nth q idx 0%nat else nth q c 0%nat.
Proof.
  induction ps as [|p ps IH]; intros [|t ts] c idx Hnd Hl Hp Ht q; cbn in Hl; try discriminate; cbn [set_all].
  - destruct (in_dec Nat.eq_dec q []) as [[]|]; reflexivity.
  - inversion Hnd as [|? ? Hni Hnd']; subst.
    rewrite (IH ts (upd c p t) idx Hnd').
    + destruct (in_dec Nat.eq_dec q ps) as [H1|H1], (in_dec Nat.eq_dec q (p :: ps)) as [H2|H2]; try reflexivity.
      * exfalso. apply H2. now right.
      * rewrite nth_upd by (apply Hp; now left). destruct H2 as [->|]; [|contradiction].
        rewrite Nat.eqb_refl. exact (Ht 0%nat ltac:(cbn; lia)).
      * rewrite nth_upd by (apply Hp; now left). destruct (Nat.eqb_spec q p) as [->|]; [|reflexivity].
        exfalso. apply H2. now left.
    + lia.
    + intros p' Hp'. rewrite upd_length. apply Hp. now right.
    + intros k Hk. apply (Ht (S k)). cbn. lia.
Qed.

Lemma tuples_length shape : List.length (tuples shape) = prod shape.
Proof. rewrite <- (map_length (rowmajor shape)), map_rowmajor_tuples, seq_length. reflexivity. Qed.
Lemma nth_tuples shape t : in_shape shape t -> nth_error (tuples shape) (rowmajor shape t) = Some t.
Proof.
  intros H. pose proof (rowmajor_lt _ _ H) as Hlt.
  assert (Hk : (rowmajor shape t < List.length (tuples shape))%nat) by (rewrite tuples_length; exact Hlt).
  rewrite (nth_error_nth' _ [] Hk). f_equal.
  assert (Hin : In (nth (rowmajor shape t) (tuples shape) []) (tuples shape)) by (apply nth_In; exact Hk).
  apply in_tuples in Hin. apply (rowmajor_inj shape); auto.
  rewrite <- (nth_map2 (rowmajor shape) (tuples shape) _ [] 0%nat) by exact Hk.
  rewrite map_rowmajor_tuples. apply seq_nth. exact Hlt.
Qed.

(** loop storing successive values *)
Lemma store_loop {A} (L : list A) (val : A -> res Qc) (v : A -> Qc) : forall (s : hist) k,
  h_ok s -> (k + List.length L <= hNBins s)%nat -> (forall x, In x L -> val x = Ok (v x)) ->
  exists s', foldM (fun (st : hist * nat) x =>
                do c <- val x;
                do s' <- ret (addBinContent (fst st) (snd st) c);
                Ok (s', S (snd st))) L (s, k) = Ok (s', (k + List.length L)%nat) /\ same_shape s s' /\
    forall i, cont s' i = cont s i + (if Nat.ltb i k then 0 else match nth_error L (i - k) with Some x => v x | None => 0 end).
Proof.
  induction L as [|x L IH]; intros s k Hok Hk Hv; cbn [foldM List.length].
  - exists s. rewrite Nat.add_0_r. split; [reflexivity|]. split; [apply same_shape_refl|].
    intros i. destruct (Nat.ltb i k); [ring|]. destruct (i - k)%nat; cbn; ring.
  - cbn [List.length] in Hk. rewrite Hv by (now left). cbn [bind fst snd].
    rewrite addBin_lt by lia. destruct (add_at_ok s k (v x) Hok ltac:(lia)) as [s1 [E1 [S1 N1]]].
    rewrite E1. cbn [ret bind].
    destruct (IH s1 (S k)) as [s' [E [SS N]]].
    + eapply same_shape_ok; eassumption.
    + destruct S1 as [_ [-> _]]. lia.
    + intros y Hy. apply Hv. now right.
    + exists s'. split; [rewrite E; f_equal; f_equal; lia|]. split; [eapply same_shape_trans; eassumption|].
      intros i. rewrite N, N1. destruct (Nat.ltb_spec i (S k)), (Nat.ltb_spec i k), (Nat.eqb_spec i k); try lia; try ring.
      * subst. rewrite Nat.sub_diag. cbn. ring.
      * replace (i - k)%nat with (S (i - S k))%nat by lia. cbn. ring.
Qed.

(** building the free axes *)
Lemma slice_axes ac names : ac_ok ac -> incl names (map aName (acAxes ac)) -> forall acc nb, ac_ok acc ->
  NoDup (map aName (acAxes acc) ++ names) ->
  exists nac, foldM (fun (st : axcol * list nat) (ni : string * nat) =>
                      do a <- getAxis ac (snd ni);
                      do c <- addAxis (fst st) a;
                      do b <- getAxisByName c (fst ni);
                      Ok (c, snd st ++ [aNBins b]))
                   (combine names (map (pos_named ac) names)) (acc, nb)
     = Ok (nac, nb ++ map aNBins (map (ax_named ac) names)) /\ ac_ok nac /\
    acAxes nac = acAxes acc ++ map (ax_named ac) names.
Proof.
  intros Hok Hin. induction names as [|n names IH]; intros acc nb Hacc Hnd; cbn [foldM map combine].
  - exists acc. rewrite !app_nil_r. auto.
  - destruct (named_facts ac n Hok) as [_ [_ [_ [Hnth [Hn [_ Hb]]]]]]; [apply Hin; now left|].
    cbn [fst snd]. unfold getAxis at 1. rewrite Hnth. cbn [bind].
    assert (Hni : ~ In (aName (ax_named ac n)) (map aName (acAxes acc))).
    { rewrite Hn. intros C. apply NoDup_remove_2 in Hnd. apply Hnd. apply in_or_app. now left. }
    destruct (addAxis_new acc _ Hni) as [acc' E]. rewrite E. cbn [bind].
    destruct (addAxis_ok _ _ _ Hacc Hb E) as [Hacc' [Ha' _]].
    assert (Hin' : In n (map aName (acAxes acc'))).
    { rewrite Ha', map_app, in_app_iff. right. cbn. left. exact Hn. }
    destruct (named_facts acc' n Hacc' Hin') as [Eg [_ [_ [Hnth' [Hn' _]]]]]. rewrite Eg. cbn [bind].
    assert (Esame : ax_named acc' n = ax_named ac n).
    { pose proof Hacc' as [_ [_ [_ [_ [Hd _]]]]].
      assert (Hx : In (ax_named acc' n) (acAxes acc')) by (eapply nth_error_In; exact Hnth').
      assert (Hy : In (ax_named ac n) (acAxes acc')) by (rewrite Ha', in_app_iff; right; now left).
      destruct (In_nth _ _ axis0 Hx) as [i [Hi Ei]]. destruct (In_nth _ _ axis0 Hy) as [j [Hj Ej]].
      rewrite <- Ei, <- Ej. f_equal.
      apply (proj1 (NoDup_nth (map aName (acAxes acc')) EmptyString)); [exact Hd|now rewrite map_length|now rewrite map_length|].
      rewrite !(nth_map2 aName _ _ axis0) by assumption. rewrite Ei, Ej. congruence. }
    rewrite Esame.
    destruct (IH) with (acc := acc') (nb := nb ++ [aNBins (ax_named ac n)]) as [nac [E' [Ho' Hax]]].
    + intros x Hx. apply Hin. now right.
    + exact Hacc'.
    + rewrite Ha', map_app. cbn [map]. rewrite Hn, <- app_assoc. exact Hnd.
    + exists nac. split.
      * rewrite E'. rewrite <- app_assoc. reflexivity.
      * split; [exact Ho'|]. rewrite Hax, Ha', <- app_assoc. reflexivity.
Qed.

Definition free_names (h : hist) (fixed : smap nat) : list string :=
  filter (fun n => negb (shas n fixed)) (names_of h).

Lemma NoDup_filter' {A} (f : A -> bool) l : NoDup l -> NoDup (filter f l).
Proof. apply NoDup_filter. Qed.

Lemma pos_named_inj ac n m : ac_ok ac -> In n (map aName (acAxes ac)) -> In m (map aName (acAxes ac)) ->
  pos_named ac n = pos_named ac m -> n = m.
Proof.
  intros Hok Hn Hm E. destruct (named_facts ac n Hok Hn) as [_ [_ [_ [H1 [H2 _]]]]].
  destruct (named_facts ac m Hok Hm) as [_ [_ [_ [H3 [H4 _]]]]]. rewrite E in H1. congruence.
Qed.

Lemma NoDup_map_inj {A B} (f : A -> B) l : (forall x y, In x l -> In y l -> f x = f y -> x = y) -> NoDup l -> NoDup (map f l).
Proof.
  intros Hf H. induction H as [|x l Hx Hl IH]; cbn; constructor.
  - intros C. apply in_map_iff in C as [y [Ey Hy]]. apply Hx. rewrite (Hf x y); auto; [now left|now right].
  - apply IH. intros a b Ha Hb. apply Hf; now right.
Qed.

Lemma sfind_shas {V} k (m : smap V) : shas k m = match sfind k m with Some _ => true | None => false end.
Proof. reflexivity. Qed.

Lemma free_nonempty h fixed : h_ok h -> swf fixed -> (List.length fixed < hNDims h)%nat -> free_names h fixed <> [].
Proof.
  intros Hok Hwf Hlt C. pose proof Hok as [Hac _].
  assert (Hincl : incl (names_of h) (skeys fixed)).
  { intros n Hn. destruct (sfind n fixed) eqn:E.
    - apply sfind_in. eauto.
    - exfalso. assert (In n (free_names h fixed)).
      { apply filter_In. split; [exact Hn|]. unfold shas. rewrite E. reflexivity. }
      rewrite C in H. exact H. }
  assert (Hnd : NoDup (names_of h)) by apply Hac.
  pose proof (NoDup_incl_length Hnd Hincl) as HL. unfold skeys, names_of in HL. rewrite !map_length in HL.
  rewrite (h_ok_ndims h Hok) in Hlt. lia.
Qed.

Lemma slice_ok h fixed : h_ok h -> swf fixed -> incl (skeys fixed) (names_of h) ->
  (List.length fixed < hNDims h)%nat ->
  (forall n b, sfind n fixed = Some b -> (b < aNBins (ax_named (hAxes h) n))%nat) ->
  exists s, getSlice h fixed = Ok s /\ h_ok s /\
    acAxes (hAxes s) = map (ax_named (hAxes h)) (free_names h fixed) /\
    forall idx, in_shape (shape_of h) idx -> (forall n b, sfind n fixed = Some b -> coord (names_of h) idx n = b) ->
      cont s (rowmajor (rev (shape_of s)) (rev (project (names_of h) idx (free_names h fixed)))) = cont_at h idx.
Proof.
  intros Hok Hwf Hin Hlt Hrange. pose proof Hok as [Hac [Hax [Hnb [Hndim Hlen]]]].
  unfold getSlice.
  assert (En : acNames (hAxes h) = names_of h) by apply Hac. rewrite En.
  assert (Ec : mapM (fun kv : string * nat => if in_dec string_dec (fst kv) (names_of h) then Ok tt else Throw NotFoundError) fixed
               = Ok (map (fun _ => tt) fixed)).
  { apply (seqM_ok _ (fun _ => tt)). intros kv Hkv. destruct (in_dec string_dec (fst kv) (names_of h)) as [|C]; [reflexivity|].
    exfalso. apply C, Hin. unfold skeys. apply in_map. exact Hkv. }
  rewrite Ec. cbn [bind]. destruct (Nat.leb_spec (hNDims h) (List.length fixed)); [lia|].
  change (filter (fun n => negb (shas n fixed)) (names_of h)) with (free_names h fixed).
  set (fn := free_names h fixed).
  assert (Hfin : incl fn (names_of h)) by (intros x Hx; apply filter_In in Hx; apply Hx).
  assert (Hfnd : NoDup fn) by (apply NoDup_filter'; apply Hac).
  assert (Hfne : fn <> []) by (apply free_nonempty; assumption).
  rewrite (seqM_ok (getAxisIndex (hAxes h)) (pos_named (hAxes h))).
  2:{ intros n Hn. apply (named_facts _ n Hac (Hfin n Hn)). }
  cbn [bind].
  destruct (slice_axes (hAxes h) fn Hac Hfin ac_empty [] ac_empty_ok Hfnd) as [nac [Enac [Hnac Hnax]]].
  rewrite Enac. cbn [bind fst snd app]. cbn [acAxes ac_empty app] in Hnax.
  set (fshape := map aNBins (map (ax_named (hAxes h)) fn)).
  set (cf := fun i => match sfind (nth i (names_of h) EmptyString) fixed with Some b => b | None => 0%nat end).
  rewrite (seqM_ok _ cf).
  2:{ intros i Hi. apply in_seq in Hi. rewrite (vat_nth _ _ EmptyString).
      - cbn [bind]. unfold cf. destruct (sfind _ fixed); reflexivity.
      - unfold names_of. rewrite map_length, <- (h_ok_ndims h Hok). lia. }
  cbn [bind]. set (coords := map cf (seq 0 (hNDims h))).
  assert (Hnn : acAxes nac <> []) by (rewrite Hnax; destruct fn; [congruence|discriminate]).
  set (s0 := mk_hist nac). assert (Hs0 : h_ok s0) by (apply mk_hist_ok; assumption).
  assert (Esh0 : shape_of s0 = fshape) by (unfold shape_of, s0; cbn; now rewrite Hnax).
  set (pos := map (pos_named (hAxes h)) fn).
  assert (Hlp : List.length pos = List.length fshape) by (unfold pos, fshape; now rewrite !map_length).
  assert (Eff : forall l : list nat, List.length l = List.length fshape -> map fst (combine l fshape) = l /\ map snd (combine l fshape) = fshape).
  { intros l. generalize fshape. clear. induction l as [|x l IH]; intros [|y f] H; cbn in *; try discriminate; auto.
    destruct (IH f) as [-> ->]; [lia|auto]. }
  destruct (Eff pos Hlp) as [Ef1 Ef2].
  rewrite recurse_tuples, !map_rev, Ef1, Ef2.
  set (full := fun t => set_all (rev pos) t coords).
  assert (Hcl : List.length coords = List.length (acAxes (hAxes h))).
  { unfold coords. rewrite map_length, seq_length. apply h_ok_ndims. exact Hok. }
  assert (Hpn : NoDup (rev pos)).
  { apply NoDup_rev. unfold pos. apply NoDup_map_inj; [|exact Hfnd].
    intros x y Hx Hy. apply pos_named_inj; auto. }
  assert (Hpr : forall p, In p (rev pos) -> (p < List.length coords)%nat).
  { intros p Hp. apply in_rev in Hp. unfold pos in Hp. apply in_map_iff in Hp as [n [<- Hn]]. rewrite Hcl.
    apply (named_facts _ n Hac (Hfin n Hn)). }
  assert (Hrs : List.length (rev pos) = List.length (rev fshape)) by (rewrite !rev_length; exact Hlp).
  (* each enumerated tuple gives an index tuple of h *)
  assert (Hfull : forall t, in_shape (rev fshape) t -> in_shape (shape_of h) (full t)).
  { intros t Ht. pose proof (in_shape_length _ _ Ht) as Htl.
    set (tgt := fun q => match find (fun k => Nat.eqb (nth k (rev pos) 0%nat) q) (seq 0 (List.length (rev pos))) with
                         | Some k => nth k t 0%nat | None => 0%nat end).
    set (idx := map tgt (seq 0 (List.length coords))).
    assert (Hn := set_all_nth (rev pos) t coords idx Hpn ltac:(lia) Hpr).
    assert (Hk : forall k, (k < List.length (rev pos))%nat -> nth k t 0%nat = nth (nth k (rev pos) 0%nat) idx 0%nat).
    { intros k Hk. unfold idx. assert (Hpk : (nth k (rev pos) 0 < List.length coords)%nat) by (apply Hpr, nth_In, Hk).
      rewrite (nth_map2 _ _ _ 0%nat) by (rewrite seq_length; exact Hpk). rewrite seq_nth by exact Hpk. cbn [Nat.add].
      unfold tgt. destruct (find _ _) as [k'|] eqn:Ef.
      - apply find_some in Ef as [Hk' Ek]. apply in_seq in Hk'. apply Nat.eqb_eq in Ek. f_equal.
        symmetry. apply (proj1 (NoDup_nth (rev pos) 0%nat) Hpn); auto; lia.
      - exfalso. apply (find_none _ _ Ef k) in Hk as C || (assert (C := find_none _ _ Ef k ltac:(apply in_seq; lia))).
        cbn in C. rewrite Nat.eqb_refl in C. discriminate. }
    specialize (Hn Hk). unfold in_shape.
    assert (G : forall s l, List.length l = List.length s -> (forall q, (q < List.length s)%nat -> (nth q l 0 < nth q s 0)%nat) ->
      Forall2 (fun i n => (i < n)%nat) l s).
    { clear. induction s as [|x s IH]; intros [|y l] Hl H; cbn in Hl; try discriminate; constructor.
      - apply (H 0%nat). cbn. lia.
      - apply IH; [lia|]. intros q Hq. apply (H (S q)). cbn. lia. }
    apply G.
    - unfold full. rewrite set_all_length, Hcl. symmetry. apply h_ok_shape_len.
    - rewrite h_ok_shape_len. intros q Hq. unfold full. rewrite Hn. clear G.
      unfold shape_of. rewrite (nth_map2 _ _ _ axis0) by exact Hq.
      destruct (in_dec Nat.eq_dec q (rev pos)) as [Hq'|Hq'].
      + destruct (In_nth _ _ 0%nat Hq') as [k [Hkl Ek]]. rewrite <- Ek at 1. rewrite <- Hk by exact Hkl.
        assert (G2 : forall s t p, Forall2 (fun i n => (i < n)%nat) t s -> (p < List.length t)%nat -> (nth p t 0 < nth p s 0)%nat).
        { clear. intros s t p H. revert p. induction H; intros [|p] Hp; cbn in *; try lia. apply IHForall2. lia. }
        assert (Hb := G2 _ _ k Ht ltac:(lia)).
        assert (Ex : nth k (rev fshape) 0%nat = aNBins (nth q (acAxes (hAxes h)) axis0)).
        { unfold fshape, pos in *. rewrite <- Ek. rewrite <- !map_rev in *. rewrite map_length in Hkl.
          rewrite !(nth_map2 _ _ _ EmptyString) by exact Hkl || (rewrite !map_map; rewrite (nth_map2 _ _ _ EmptyString) by exact Hkl).
          rewrite ?map_map, ?(nth_map2 _ _ _ EmptyString) by exact Hkl.
          assert (Hni : In (nth k (rev fn) EmptyString) fn) by (apply in_rev; apply nth_In; exact Hkl).
          destruct (named_facts _ _ Hac (Hfin _ Hni)) as [_ [_ [_ [Hnth _]]]].
          rewrite (nth_error_nth _ _ axis0 Hnth). reflexivity. }
        rewrite Ex in Hb. exact Hb.
      + unfold coords. rewrite (nth_map2 _ _ _ 0%nat) by (rewrite seq_length, (h_ok_ndims h Hok); exact Hq).
        rewrite seq_nth by (rewrite (h_ok_ndims h Hok); exact Hq). cbn [Nat.add]. unfold cf.
        assert (Hnm : In (nth q (names_of h) EmptyString) (names_of h)) by (apply nth_In; unfold names_of; rewrite map_length; exact Hq).
        destruct (named_facts _ _ Hac Hnm) as [_ [_ [Hpl [Hnth [Hnn' [Hix _]]]]]].
        assert (Epos : pos_named (hAxes h) (nth q (names_of h) EmptyString) = q).
        { pose proof (index_of_spec (nth q (names_of h) EmptyString) (acNames (hAxes h))) as Hi. rewrite Hix in Hi.
          destruct Hi as [Hi _]. rewrite En in Hi.
          assert (Hq2 : nth_error (names_of h) q = Some (nth q (names_of h) EmptyString)).
          { apply nth_error_nth'. unfold names_of. rewrite map_length. exact Hq. }
          assert (Hnd : NoDup (names_of h)) by apply Hac.
          rewrite NoDup_nth_error in Hnd. symmetry. apply Hnd; [unfold names_of; rewrite map_length; exact Hq|]. congruence. }
        destruct (sfind (nth q (names_of h) EmptyString) fixed) as [b|] eqn:Efx.
        * specialize (Hrange _ _ Efx). rewrite Epos in Hnth. rewrite (nth_error_nth _ _ axis0 Hnth). exact Hrange.
        * exfalso. apply Hq'. apply in_rev. rewrite rev_involutive. unfold pos. apply in_map_iff.
          exists (nth q (names_of h) EmptyString). split; [exact Epos|]. apply filter_In. split; [exact Hnm|].
          unfold shas. rewrite Efx. reflexivity. }
  fold full.
  change (foldM (fun (st : hist * nat) idx =>
                do old <- flatten (hAxes h) idx;
                do c <- vat (hCont h) old;
                do s' <- ret (addBinContent (fst st) (snd st) c);
                Ok (s', S (snd st))) (map (fun t => set_all (rev pos) t coords) (tuples (rev fshape))) (s0, 0%nat))
    with (foldM (fun (st : hist * nat) idx =>
                do old <- flatten (hAxes h) idx;
                do c <- vat (hCont h) old;
                do s' <- ret (addBinContent (fst st) (snd st) c);
                Ok (s', S (snd st))) (map full (tuples (rev fshape))) (s0, 0%nat)).
  assert (Efold : forall L st, foldM (fun (st : hist * nat) idx =>
                do old <- flatten (hAxes h) idx;
                do c <- vat (hCont h) old;
                do s' <- ret (addBinContent (fst st) (snd st) c);
                Ok (s', S (snd st))) L st =
      foldM (fun (st : hist * nat) idx =>
                do c <- (do old <- flatten (hAxes h) idx; vat (hCont h) old);
                do s' <- ret (addBinContent (fst st) (snd st) c);
                Ok (s', S (snd st))) L st).
  { induction L as [|x L IH]; intros st; cbn [foldM]; [reflexivity|].
    destruct (flatten (hAxes h) x); cbn [bind]; try reflexivity.
    destruct (vat (hCont h) a); cbn [bind]; try reflexivity.
    destruct (ret _); cbn [bind]; try reflexivity. apply IH. }
  rewrite Efold. clear Efold.
  destruct (store_loop (map full (tuples (rev fshape)))
     (fun idx => do old <- flatten (hAxes h) idx; vat (hCont h) old) (cont_at h) s0 0 Hs0) as [s [E [SS N]]].
  { cbn [Nat.add]. rewrite map_length, tuples_length, (h_ok_nbins s0 Hs0), Esh0.
    assert (Hpr2 : prod (rev fshape) = prod fshape).
    { clear. induction fshape as [|x f IH]; cbn; [reflexivity|]. rewrite prod_app, IH. cbn. lia. }
    lia. }
  { intros x Hx. apply in_map_iff in Hx as [t [<- Ht]]. apply in_tuples in Ht. specialize (Hfull t Ht).
    rewrite flatten_rowmajor; auto.
    - cbn [bind]. rewrite (vat_nth _ _ 0); [reflexivity|]. rewrite Hlen, (h_ok_nbins h Hok). apply rowmajor_lt. exact Hfull.
    - rewrite (in_shape_length _ _ Hfull). apply h_ok_shape_len. }
  rewrite E. cbn [bind]. exists s. split; [reflexivity|]. split; [eapply same_shape_ok; eassumption|].
  pose proof SS as [SA [SB _]]. split; [rewrite SA; exact Hnax|].
  intros idx Hidx Hfix.
  assert (Esh : shape_of s = fshape) by (unfold shape_of; rewrite SA; unfold s0; cbn; rewrite Hnax; reflexivity).
  rewrite Esh. set (t := rev (project (names_of h) idx fn)).
  destruct (project_in_shape h idx fn Hok Hfin Hidx) as [Hp1 Hp2].
  assert (Ht : in_shape (rev fshape) t).
  { unfold t, in_shape. unfold fshape. unfold in_shape in Hp1. clear -Hp1.
    induction Hp1; cbn; [constructor|]. apply Forall2_app; [assumption|]. constructor; [assumption|constructor]. }
  rewrite N. cbn [Nat.ltb Nat.leb]. rewrite Nat.sub_0_r.
  rewrite (map_nth_error full _ _ (nth_tuples _ _ Ht)).
  unfold s0. rewrite mk_hist_cont, Qcplus_0_l. f_equal.
  apply nth_ext with (d := 0%nat) (d' := 0%nat).
  - unfold full. rewrite set_all_length, Hcl, (in_shape_length _ _ Hidx). symmetry. apply h_ok_shape_len.
  - intros q Hq. unfold full in *. rewrite set_all_length, Hcl in Hq.
    rewrite (set_all_nth (rev pos) t coords idx Hpn).
    + destruct (in_dec Nat.eq_dec q (rev pos)) as [Hq'|Hq']; [reflexivity|].
      unfold coords. rewrite (nth_map2 _ _ _ 0%nat) by (rewrite seq_length, (h_ok_ndims h Hok); exact Hq).
      rewrite seq_nth by (rewrite (h_ok_ndims h Hok); exact Hq). cbn [Nat.add]. unfold cf.
      assert (Hnm : In (nth q (names_of h) EmptyString) (names_of h)) by (apply nth_In; unfold names_of; rewrite map_length; exact Hq).
      destruct (named_facts _ _ Hac Hnm) as [_ [_ [Hpl [Hnth [Hnn' [Hix _]]]]]].
      assert (Epos : pos_named (hAxes h) (nth q (names_of h) EmptyString) = q).
      { pose proof (index_of_spec (nth q (names_of h) EmptyString) (acNames (hAxes h))) as Hi. rewrite Hix in Hi.
        destruct Hi as [Hi _]. rewrite En in Hi.
        assert (Hq2 : nth_error (names_of h) q = Some (nth q (names_of h) EmptyString)).
        { apply nth_error_nth'. unfold names_of. rewrite map_length. exact Hq. }
        assert (Hnd : NoDup (names_of h)) by apply Hac.
        rewrite NoDup_nth_error in Hnd. symmetry. apply Hnd; [unfold names_of; rewrite map_length; exact Hq|]. congruence. }
      destruct (sfind (nth q (names_of h) EmptyString) fixed) as [b|] eqn:Efx.
      * rewrite <- (Hfix _ _ Efx). rewrite En in Hix. rewrite (coord_index _ _ idx _ Hix).
        -- now rewrite Epos.
        -- unfold names_of. rewrite map_length, (in_shape_length _ _ Hidx). apply h_ok_shape_len.
      * exfalso. apply Hq'. apply in_rev. rewrite rev_involutive. unfold pos. apply in_map_iff.
        exists (nth q (names_of h) EmptyString). split; [exact Epos|]. apply filter_In. split; [exact Hnm|].
        unfold shas. rewrite Efx. reflexivity.
    + rewrite (in_shape_length _ _ Ht). symmetry. exact Hrs.
    + exact Hpr.
    + intros k Hk. unfold t, pos in *. rewrite Hp2. rewrite <- !map_rev in *. rewrite map_length in Hk.
      rewrite !(nth_map2 _ _ _ EmptyString) by exact Hk. reflexivity.
Qed.
