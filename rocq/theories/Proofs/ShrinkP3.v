From Coq Require Import ZArith.
From Verif Require Import Base.Res Base.Num Base.SMap Model.Axis Model.Event Model.Hist Model.ED Model.Shrink
  Spec.AxisSpec Spec.HistSpec Spec.ShrinkSpec Proofs.AxisP Proofs.HistP Proofs.HistP2 Proofs.ShrinkP Proofs.ShrinkP2.
Local Open Scope Qc_scope.
Local Open Scope res_scope.

Lemma axis_le_prod (l : list nat) n : Forall (fun k => (0 < k)%nat) l -> In n l -> (n <= prod l)%nat.
Proof.
  induction l as [|x l IH]; intros Hp Hi; [destruct Hi|]. inversion Hp; subst. cbn [prod].
  assert (0 < prod l)%nat by (apply prod_pos_all; assumption).
  destruct Hi as [<-|Hi]; [nia|]. specialize (IH H2 Hi). nia.
Qed.

Lemma built_pos axs : Forall built axs -> Forall (fun n => (0 < n)%nat) (map aNBins axs).
Proof. induction 1 as [|a l Ha Hl IH]; cbn; constructor; auto. apply (built_facts a Ha). Qed.

Lemma wanted00 ops n : unsigned_sizes ops ->
  (0 <= fst (wanted ops n (0, 0)%Z) < 2 ^ 32 /\ 0 <= snd (wanted ops n (0, 0)%Z) < 2 ^ 32)%Z.
Proof. intros H. apply wanted_range; [exact H|]. cbn. lia. Qed.

(** configuration of a new shrinker followed by SetBinMap *)
Lemma setBinMap_ok ops (b : bed) : unsigned_sizes ops -> some_buffer ops -> h_ok (bdHist b) ->
  (Z.of_nat (hNBins (bdHist b)) < 2 ^ 31)%Z ->
  Forall (fun a => (lower ops a + upper ops a < aNBins a)%nat) (acAxes (hAxes (bdHist b))) ->
  let m := shBuf (configured ops) in
  exists nac,
    sh_setBinMap (configured ops) b =
      (mkShr m (map (gbin m (hAxes (bdHist b)) nac) (seq 0 (hNBins (bdHist b))))
               (map (ubin m (hAxes (bdHist b)) nac (over_wanted ops false)) (seq 0 (hNBins (bdHist b))))
               (over_wanted ops false) nac, Ok tt) /\
    ac_ok nac /\ m <> [] /\ (forall a, bl m a = lower ops a) /\
    Forall (buf_ok m) (acAxes (hAxes (bdHist b))) /\
    Forall2 (fun a a' => trimmed (bl m a) (bu m a) a a') (acAxes (hAxes (bdHist b))) (acAxes nac) /\
    Forall2 (fun a a' => trimmed (lower ops a) (upper ops a) a a') (acAxes (hAxes (bdHist b))) (acAxes nac).
Proof.
  intros Hu [n0 [l0 [u0 Hin]]] Hok Hsmall Hfit. cbv zeta.
  destruct (conf_facts ops sh_new Hu) as [A [B [C [D [F G]]]]]. fold (configured ops) in *.
  cbn [sh_new shBin shUse shAxes shOver shBuf] in *.
  set (s := configured ops) in *. set (m := shBuf s) in *.
  assert (Hm : m <> []).
  { intros E. apply G in E as [_ E]. apply E. exists n0, l0, u0. exact Hin. }
  assert (Fb : forall n, bufZ m n = wanted ops n (0, 0)%Z) by (intros n; rewrite F; reflexivity).
  assert (Fl : forall a, bl m a = lower ops a) by (intros a; unfold bl, lower; now rewrite Fb).
  assert (Fu : forall a, bu m a = upper ops a) by (intros a; unfold bu, upper; now rewrite Fb).
  pose proof Hok as [Hac [Hax [Hnb [Hndim Hlen]]]].
  set (h := bdHist b) in *. set (axes := hAxes h) in *.
  assert (Hbuilt : Forall built (acAxes axes)) by apply Hac.
  assert (Hbuf : Forall (buf_ok m) (acAxes axes)).
  { rewrite Forall_forall in *. intros a Ha. specialize (Hfit a Ha). specialize (Hbuilt a Ha).
    destruct (wanted00 ops (aName a) Hu) as [W1 W2]. unfold lower, upper in Hfit. unfold buf_ok. rewrite Fb.
    split; [exact Hbuilt|]. split; [lia|]. split; [lia|]. split; [lia|].
    assert (aNBins a <= hNBins h)%nat; [|lia]. rewrite (h_ok_nbins h Hok). unfold shape_of. apply axis_le_prod.
    - apply built_pos. rewrite Forall_forall. intros x Hx. destruct Hac as [_ [_ [_ [_ [_ Q]]]]]. rewrite Forall_forall in Q. auto.
    - apply in_map. exact Ha. }
  unfold sh_setBinMap. fold m. fold h. fold axes.
  destruct (addAxes_loop (acAxes axes) s) as [nac [axs' [E1 [E2 [E3 E4]]]]].
  - rewrite C. apply ac_empty_ok.
  - exact Hbuf.
  - rewrite C. cbn. destruct Hac as [_ [_ [_ [_ [Q _]]]]]. exact Q.
  - rewrite C in E3. cbn [ac_empty acAxes app] in E3. subst axs'.
    exists nac. split; [|split; [exact E2|split; [exact Hm|split; [exact Fl|split; [exact Hbuf|split; [exact E4|]]]]]].
    + transitivity (iterS (sh_mapBin axes (hNDims h)) (seq 0 (hNBins h)) (withAxes s nac)).
      { rewrite E1. destruct m; [congruence|reflexivity]. }
      pose proof (h_ok_ndims h Hok) as End. fold axes in End. rewrite End.
      rewrite (mapBin_loop m axes nac (over_wanted ops false) Hac E2 Hax Hbuf E4 (hNBins h) 0 (withAxes s nac)); cbn [withAxes shBuf shBin shUse shOver shAxes]; auto.
      * rewrite A, B. reflexivity.
      * now rewrite B.
      * rewrite (h_ok_nbins h Hok). unfold shape_of. fold axes. unfold ac_nb. lia.
    + clear -E4 Fl Fu. fold m in E4. induction E4 as [|a a' l l' H H' IH]; constructor; auto. rewrite <- Fl, <- Fu. exact H.
Qed.

Lemma shrink_pkg ops (b : bed) : unsigned_sizes ops -> some_buffer ops -> h_reach (bdHist b) ->
  (Z.of_nat (hNBins (bdHist b)) < 2 ^ 31)%Z ->
  Forall (fun a => (lower ops a + upper ops a < aNBins a)%nat) (acAxes (hAxes (bdHist b))) ->
  exists s, sh_setBinMap (configured ops) b = (s, Ok tt) /\
    forall d, h_reach (bdHist d) -> hAxes (bdHist d) = hAxes (bdHist b) ->
    exists d', sh_shrink s d = Ok d' /\ bdName d' = (bdName d ++ "_shrunk")%string /\
      osNames (bdObs d') = osNames (bdObs d) /\ 
      Forall2 (fun a a' => trimmed (lower ops a) (upper ops a) a a') (acAxes (hAxes (bdHist d))) (acAxes (hAxes (bdHist d'))) /\
      (over_wanted ops false = false -> forall J, in_shape (shape_of (bdHist d')) J ->
         cont_at (bdHist d') J = cont_at (bdHist d) (old_index (map (lower ops) (acAxes (hAxes (bdHist d)))) J)) /\
      (over_wanted ops false = true ->
         (forall J, in_shape (shape_of (bdHist d')) J ->
            cont_at (bdHist d') J =
            qsum (map (cont_at (bdHist d))
                   (filter (fun t => nlist_eqb (nearests (map (lower ops) (acAxes (hAxes (bdHist d)))) (shape_of (bdHist d')) t) J)
                           (tuples (shape_of (bdHist d)))))) /\
         total (bdHist d') = total (bdHist d)).
Proof.
  intros Hu Hs Hr Hsmall Hfit. apply h_reach_ok in Hr.
  destruct (setBinMap_ok ops b Hu Hs Hr Hsmall Hfit) as [nac [E1 [Hnac [Hm [Fl [Hbuf [Htr Htr2]]]]]]].
  eexists. split; [exact E1|]. intros d Hd Ed. apply h_reach_ok in Hd.
  set (m := shBuf (configured ops)) in *. set (axes := hAxes (bdHist b)) in *.
  pose proof Hr as [Hac [Hax _]]. fold axes in Hac, Hax.
  assert (Enb : hNBins (bdHist d) = hNBins (bdHist b)).
  { rewrite (h_ok_nbins _ Hd), (h_ok_nbins _ Hr). unfold shape_of. rewrite Ed. reflexivity. }
  destruct (shrink_core m axes nac (over_wanted ops false) Hnac Hax Htr d
     (mkShr m (map (gbin m axes nac) (seq 0 (hNBins (bdHist b)))) (map (ubin m axes nac (over_wanted ops false)) (seq 0 (hNBins (bdHist b)))) (over_wanted ops false) nac)
     Hd Ed) as [d' [S1 [S2 [S3 [S4 [S5 [S6 S7]]]]]]]; cbn [shAxes shBuf shBin shUse]; auto.
  - now rewrite Enb.
  - now rewrite Enb.
  - apply built_pos. apply Hnac.
  - exists d'. split; [exact S1|]. split; [exact S2|]. split; [exact S3|]. 
    split; [rewrite S4, Ed; exact Htr2|].
    assert (Elos : map (lower ops) (acAxes (hAxes (bdHist d))) = map (bl m) (acAxes axes)).
    { rewrite Ed. apply map_ext. intros a. symmetry. apply Fl. }
    assert (Esh : shape_of (bdHist d') = map aNBins (acAxes nac)) by (unfold shape_of; now rewrite S4).
    assert (Eshd : shape_of (bdHist d) = ac_nb axes) by (unfold shape_of; now rewrite Ed).
    rewrite Elos, Esh, Eshd. set (los := map (bl m) (acAxes axes)) in *. set (ns := map aNBins (acAxes nac)) in *.
    assert (Lns : List.length ns = List.length los).
    { unfold ns, los. rewrite !map_length. apply (len_eq m axes nac Htr). }
    assert (Lidx : forall t, in_shape (ac_nb axes) t -> List.length t = List.length los).
    { intros t Ht. rewrite (in_shape_length _ _ Ht). unfold los, ac_nb. now rewrite !map_length. }
    assert (Dg : forall t, in_shape (ac_nb axes) t -> digits (ac_nb axes) (rowmajor (ac_nb axes) t) = t).
    { intros t Ht. apply (rowmajor_inj (ac_nb axes)); [|exact Ht|]; destruct (digits_spec (ac_nb axes) _ (rowmajor_lt _ _ Ht)); auto. }
    assert (Hpos : Forall (fun n => (0 < n)%nat) ns) by (apply built_pos; apply Hnac).
    assert (Hnb' : hNBins (bdHist d) = prod (ac_nb axes)).
    { rewrite (h_ok_nbins _ Hd), Eshd. reflexivity. }
    split.
    + intros Eo J HJ. unfold cont_at. rewrite S6, Esh, Eshd, Hnb'.
      set (k0 := rowmajor (ac_nb axes) (old_index los J)).
      assert (HoJ : in_shape (ac_nb axes) (old_index los J)).
      { clear -HJ Htr. unfold in_shape, los, ns, ac_nb in *. revert J HJ. induction Htr as [|a a' l l' T T' IH]; intros J HJ; inversion HJ; subst; cbn.
        - constructor.
        - constructor; [|apply IH; assumption]. destruct T as [_ [-> _]]. lia. }
      rewrite (qsum_map_ext _ (fun k => if Nat.eqb k k0 then cont (bdHist d) k else 0)).
      * rewrite (qsum_seq_single (fun k => cont (bdHist d) k)); [reflexivity|]. split; [lia|]. cbn [Nat.add]. apply rowmajor_lt. exact HoJ.
      * intros k Hk. apply in_seq in Hk. unfold gbin, ubin. fold los. fold ns. rewrite Eo. cbn [orb].
        destruct (digits_spec (ac_nb axes) k) as [Hdk Hrk]; [lia|].
        pose proof (nearest_inside los ns (digits (ac_nb axes) k) J Lns (Lidx _ Hdk) HJ) as Hin.
        assert (HN : in_shape ns (nearests los ns (digits (ac_nb axes) k))) by (apply nearests_shape; auto).
        destruct (Nat.eqb_spec k k0) as [Ek|Ek].
        -- assert (Edk : digits (ac_nb axes) k = old_index los J) by (rewrite Ek; unfold k0; apply Dg; exact HoJ).
           apply Hin in Edk as [-> ->]. rewrite Nat.eqb_refl. reflexivity.
        -- destruct (Nat.eqb_spec (rowmajor ns J) (rowmajor ns (nearests los ns (digits (ac_nb axes) k)))) as [Er|]; [|reflexivity].
           destruct (outsides los ns (digits (ac_nb axes) k)) eqn:Eout; [reflexivity|]. exfalso. apply Ek.
           apply (rowmajor_inj ns) in Er; auto. rewrite <- Hrk. unfold k0. f_equal. apply Hin. auto.
    + intros Eo. split.
      * intros J HJ. unfold cont_at at 1. rewrite S6, Esh, Hnb'. rewrite (qsum_bins_tuples (ac_nb axes)), qsum_filter.
        apply qsum_map_ext. intros t Ht. apply in_tuples in Ht. unfold gbin, ubin. fold los. fold ns. rewrite Eo. cbn [orb].
        rewrite Dg by exact Ht. unfold cont_at. rewrite Eshd.
        assert (HN : in_shape ns (nearests los ns t)) by (apply nearests_shape; auto).
        unfold nlist_eqb. destruct (list_eq_dec Nat.eq_dec (nearests los ns t) J) as [<-|Cn].
        -- rewrite Nat.eqb_refl. reflexivity.
        -- destruct (Nat.eqb_spec (rowmajor ns J) (rowmajor ns (nearests los ns t))) as [Er|]; [|reflexivity].
           exfalso. apply Cn. symmetry. eapply (rowmajor_inj ns); eauto.
      * rewrite S7. unfold total. apply qsum_map_ext. intros k _. unfold ubin. rewrite Eo. reflexivity.
Qed.

Lemma shrink_big_pkg ops (b : bed) : unsigned_sizes ops -> h_reach (bdHist b) ->
  (Z.of_nat (hNBins (bdHist b)) < 2 ^ 31)%Z ->
  (forall a, (Z.of_nat (lower ops a) + Z.of_nat (upper ops a) < 2 ^ 32)%Z) ->
  Exists (fun a => (aNBins a <= lower ops a + upper ops a)%nat) (acAxes (hAxes (bdHist b))) ->
  snd (sh_setBinMap (configured ops) b) = Throw ValueError.
Proof.
  intros Hu Hr Hsmall Hsum Hex. apply h_reach_ok in Hr.
  destruct (conf_facts ops sh_new Hu) as [A [B [C [D [F G]]]]]. fold (configured ops) in *.
  cbn [sh_new shBin shUse shAxes shOver shBuf] in *.
  set (s := configured ops) in *. set (m := shBuf s) in *.
  assert (Fb : forall n, bufZ m n = wanted ops n (0, 0)%Z) by (intros n; rewrite F; reflexivity).
  pose proof Hr as [Hac [Hax _]].
  unfold sh_setBinMap. fold m.
  assert (Hm : m <> []).
  { intros E. apply Exists_exists in Hex as [a [Ha Hn]].
    assert (bufZ m (aName a) = (0, 0)%Z) as Eb by (rewrite E; reflexivity). rewrite Fb in Eb.
    unfold lower, upper in Hn. rewrite Eb in Hn. cbn in Hn.
    destruct Hac as [_ [_ [_ [_ [_ Q]]]]]. rewrite Forall_forall in Q. destruct (built_facts a (Q a Ha)). lia. }
  assert (E : snd (iterS sh_addAxis (acAxes (hAxes (bdHist b))) s) = Throw ValueError).
  { apply addAxes_big.
    - rewrite C. apply ac_empty_ok.
    - rewrite Forall_forall. intros a Ha. destruct (wanted00 ops (aName a) Hu) as [W1 W2].
      specialize (Hsum a). unfold lower, upper in Hsum. fold m. rewrite Fb.
      destruct Hac as [_ [_ [_ [_ [_ Q]]]]]. assert (Q' := Q). rewrite Forall_forall in Q'.
      split; [auto|]. split; [|lia].
      assert (aNBins a <= hNBins (bdHist b))%nat; [|lia]. rewrite (h_ok_nbins _ Hr). unfold shape_of. apply axis_le_prod.
      + apply built_pos. exact Q.
      + apply in_map. exact Ha.
    - rewrite C. cbn. destruct Hac as [_ [_ [_ [_ [Q _]]]]]. exact Q.
    - apply Exists_exists in Hex as [a [Ha Hn]]. apply Exists_exists. exists a. split; [exact Ha|].
      fold m. rewrite Fb. destruct (wanted00 ops (aName a) Hu) as [W1 W2]. unfold lower, upper in Hn. lia. }
  destruct (iterS sh_addAxis _ s) as [s1 o]; cbn in E; subst o. destruct m; [congruence|reflexivity].
Qed.

Lemma shrink_none_pkg ops (b d : bed) : unsigned_sizes ops -> ~ some_buffer ops ->
  sh_setBinMap (configured ops) b = (configured ops, Ok tt) /\ sh_shrink (configured ops) d = Ok d.
Proof.
  intros Hu Hn. destruct (conf_facts ops sh_new Hu) as [_ [_ [_ [_ [_ G]]]]]. fold (configured ops) in G.
  assert (E : shBuf (configured ops) = []) by (apply G; split; [reflexivity|exact Hn]).
  unfold sh_setBinMap, sh_shrink. rewrite E. auto.
Qed.
