(** Proofs about DistortEDs (C27) and the uniqueness checks (C68). *)
From Verif Require Import Base.Res Base.Num Base.SMap Model.Axis Model.Event Model.Hist Model.Matrix Model.ED Model.SystMan
  Spec.SystManSpec.
From Verif Require Import Proofs.AxisP Proofs.HistP Proofs.InterpP Proofs.SystManP.
Local Open Scope Qc_scope.

Lemma mv_length n m v : List.length (mv n m v) = n.
Proof. unfold mv. now rewrite map_length, seq_length. Qed.
Lemma mv_nth n m v i : (i < n)%nat -> nth i (mv n m v) 0 = qsum (map (fun j => sF m i j * nth j v 0) (seq 0 n)).
Proof. intros H. unfold mv. rewrite (nth_map_seq) by exact H. reflexivity. Qed.
Lemma mv_mul n a b v r c : mv n (mkMat r c n n (fmul n (sF a) (sF b))) v = mv n a (mv n b v).
Proof.
  unfold mv at 1 2. apply map_ext_in. intros i Hi. apply in_seq in Hi. cbn [sF].
  transitivity (qsum (map (fun j => qsum (map (fun k => sF a i k * sF b k j * nth j v 0) (seq 0 n))) (seq 0 n))).
  - apply qsum_map_ext. intros j _. unfold fmul. rewrite Qcmult_comm, <- qsum_map_mul.
    apply qsum_map_ext. intros k _. ring.
  - rewrite qsum_map_swap. apply qsum_map_ext. intros k Hk. apply in_seq in Hk.
    rewrite mv_nth by lia. rewrite <- qsum_map_mul. apply qsum_map_ext. intros j _. ring.
Qed.
Lemma m_apply_mv n m v : sized n m -> List.length v = n -> m_apply m v = Ok (mv n m v).
Proof. intros [A B] L. unfold m_apply. rewrite L, A, B, Nat.eqb_refl. reflexivity. Qed.

Lemma groupResp_mvs s ps n m : Forall (fun p => sized n (syResp (smObj s p))) ps -> sm_groupResp s ps = Ok m ->
  sized n m /\ forall v, mv n m v = mvs n (map (fun p => syResp (smObj s p)) ps) v.
Proof.
  intros F. destruct ps as [|p0 t]; [discriminate|]. unfold sm_groupResp. cbn [vat nth_error bind tl map].
  inversion F as [|? ? F0 Ft]; subst. clear F. cbn [mvs fold_left].
  revert F0. generalize (syResp (smObj s p0)) as r0.
  induction Ft as [|p t Hp Ft IH]; intros r0 F0 H; cbn [foldM map] in *.
  - inversion H; subst. split; [exact F0|]. reflexivity.
  - unfold m_mul in H at 1. destruct Hp as [HpR HpC], F0 as [F0R F0C]. rewrite HpC, F0R, Nat.eqb_refl in H. cbn [bind] in H.
    rewrite HpR, F0C in H.
    match type of H with foldM _ _ ?r = _ => assert (sized n r) as Sr by (split; reflexivity) end.
    destruct (IH _ Sr H) as [Sz E]. split; [exact Sz|]. intros v. rewrite E.
    unfold mvs. cbn [fold_left]. f_equal. apply mv_mul.
Qed.
Lemma groupResp_ok s ps n : ps <> [] -> Forall (fun p => sized n (syResp (smObj s p))) ps -> exists m, sm_groupResp s ps = Ok m.
Proof.
  intros Hne F. destruct ps as [|p0 t]; [congruence|]. clear Hne. unfold sm_groupResp. cbn [vat nth_error bind tl].
  inversion F as [|? ? F0 Ft]; subst. clear F. revert F0. generalize (syResp (smObj s p0)) as r0.
  induction Ft as [|p t Hp Ft IH]; intros r0 F0; cbn [foldM]; [eauto|].
  destruct Hp as [HpR HpC], F0 as [F0R F0C].
  assert (m_mul (syResp (smObj s p)) r0 = (mkMat (sNR (syResp (smObj s p))) (sNC (syResp (smObj s p))) n n (fmul n (sF (syResp (smObj s p))) (sF r0)), Ok tt)) as E
    by (unfold m_mul; rewrite HpC, F0R, Nat.eqb_refl, HpR, F0C; reflexivity).
  rewrite E. cbn [bind].
  apply IH. split; reflexivity.
Qed.

(** ** DistortEDs *)
Definition bed_sized (n : nat) (b : bed) : Prop := List.length (hCont (bdHist b)) = n /\ hNBins (bdHist b) = n.

Lemma with_same b : with_contents b (hCont (bdHist b)) = b.
Proof. destruct b as [n [a c k d] o]. reflexivity. Qed.
Lemma with_with b c d : with_contents (with_contents b c) d = with_contents b d.
Proof. reflexivity. Qed.
Lemma setContents_ok n b c : bed_sized n b -> List.length c = n -> bed_ret (bed_setContents b c) = Ok (with_contents b c).
Proof.
  intros [L N] E. unfold bed_setContents, bed_on, setBinContents. rewrite N, E, Nat.eqb_refl. cbn [negb bed_ret bind].
  unfold with_contents, bed_setHist. rewrite N. reflexivity.
Qed.
Lemma with_sized n b c : bed_sized n b -> List.length c = n -> bed_sized n (with_contents b c).
Proof. intros [L N] E. split; [exact E|exact N]. Qed.

Section Distort.
Variable s : sman.     (* after a successful Construct *)
Variable n : nat.
Hypothesis Inv : sm_inv s.
Hypothesis Tot : forall g, sm_grp s g <> [] -> exists m, sfind g (smTotal s) = Some m /\ sm_groupResp s (sm_grp s g) = Ok m.
Definition resps (ps : list nat) := map (fun p => syResp (smObj s p)) ps.

Lemma applyGroup_ok g b : sm_grp s g <> [] -> Forall (fun p => sized n (syResp (smObj s p))) (sm_grp s g) ->
  bed_sized n b -> sm_applyGroup s g b = Ok (with_contents b (mvs n (resps (sm_grp s g)) (hCont (bdHist b)))).
Proof.
  intros Hne F B. destruct (Tot g Hne) as (m & Fm & R). destruct (groupResp_mvs _ _ _ _ F R) as [Sz E].
  unfold sm_applyGroup, sm_total. rewrite Fm. cbn [bind]. destruct B as [L N].
  rewrite (m_apply_mv _ _ _ Sz L). cbn [bind]. rewrite (setContents_ok n) by (first [apply mv_length|split; assumption]).
  rewrite E. reflexivity.
Qed.
Lemma mvs_length ms v : List.length v = n -> List.length (mvs n ms v) = n.
Proof. revert v. induction ms as [|m t IH]; intros v L; cbn; [exact L|]. apply IH, mv_length. Qed.
Lemma mvs_app a b v : mvs n (a ++ b) v = mvs n b (mvs n a v).
Proof. unfold mvs. apply fold_left_app. Qed.

Lemma grp_empty_named g : shas g (smGroups s) = true -> g <> EmptyString -> sm_grp s g <> [].
Proof.
  destruct Inv as (_ & _ & NE & _). intros H1 H2. unfold sm_grp, shas in *. destruct (sfind g (smGroups s)) as [l|] eqn:E; [|discriminate].
  intros ->. exact (NE _ H2 E).
Qed.

Lemma distort_groups g0 gs : sfind EmptyString (smGroups s) = Some g0 -> forall b,
  (forall g, In g gs -> shas g (smGroups s) = true) ->
  Forall (fun p => sized n (syResp (smObj s p))) (flat_map (sm_grp s) gs) -> bed_sized n b ->
  foldM (fun b g =>
           if String.eqb g EmptyString && Nat.eqb (List.length g0) 0 then Ok b
           else bind (sat g (smGroups s)) (fun l => if Nat.eqb (List.length l) 0 then Throw LogicError else sm_applyGroup s g b)) gs b
  = Ok (with_contents b (mvs n (resps (flat_map (sm_grp s) gs)) (hCont (bdHist b)))).
Proof.
  intros E0. induction gs as [|g t IH]; intros b K F B; cbn [foldM flat_map resps map].
  - cbn [mvs fold_left]. now rewrite with_same.
  - cbn [flat_map] in F. apply Forall_app in F as [F1 F2].
    assert (shas g (smGroups s) = true) as Hg by (apply K; now left).
    assert (forall g, In g t -> shas g (smGroups s) = true) as K' by (intros; apply K; now right).
    unfold resps. rewrite map_app, mvs_app.
    destruct (String.eqb_spec g EmptyString) as [->|Hne]; cbn [andb].
    + unfold sm_grp at 1 2. rewrite E0.
      destruct g0 as [|p0 g0]; cbn [List.length Nat.eqb bind].
      * cbn [map]. change (mvs n [] (hCont (bdHist b))) with (hCont (bdHist b)). apply IH; assumption.
      * unfold sat. rewrite E0. cbn [bind List.length Nat.eqb].
        assert (sm_grp s EmptyString = p0 :: g0) as EG by (unfold sm_grp; now rewrite E0).
        rewrite applyGroup_ok; [|rewrite EG; discriminate|assumption|assumption]. cbn [bind].
        rewrite IH; [|assumption|assumption|]. 
        -- rewrite with_with. cbn [with_contents bdHist hCont]. unfold resps. rewrite EG. reflexivity.
        -- apply with_sized; [assumption|]. apply mvs_length, B.
    + pose proof (grp_empty_named g Hg Hne) as Hn.
      unfold sat. pose proof Hn as Hn'. unfold sm_grp in Hn'. destruct (sfind g (smGroups s)) as [l|] eqn:Eg; [|congruence].
      cbn [bind]. destruct l as [|p l]; [congruence|]. cbn [List.length Nat.eqb].
      rewrite applyGroup_ok by assumption. cbn [bind]. rewrite IH; [|assumption|assumption|].
      * rewrite with_with. cbn [with_contents bdHist hCont]. reflexivity.
      * apply with_sized; [assumption|]. apply mvs_length, B.
Qed.

Lemma distort1_ok gs o : (forall g, In g gs -> shas g (smGroups s) = true) ->
  Forall (fun p => sized n (syResp (smObj s p))) (acting (sm_grp s) gs) -> bed_sized n o ->
  sm_distort1 s gs o = Ok (with_contents o (mvs n (resps (acting (sm_grp s) gs)) (hCont (bdHist o)))).
Proof.
  intros K F B. unfold sm_distort1. destruct Inv as (W & E0 & NE & D). unfold sat, shas in *.
  destruct (sfind EmptyString (smGroups s)) as [g0|] eqn:Eg; [|discriminate]. cbn [bind].
  assert (sm_grp s EmptyString = g0) as EG by (unfold sm_grp; now rewrite Eg).
  unfold acting in *. apply Forall_app in F as [F1 F2].
  destruct (in_dec string_dec EmptyString gs) as [Hin|Hn].
  - apply inb_In in Hin. rewrite Hin. cbn [negb andb app]. apply (distort_groups _ _ Eg); assumption.
  - destruct (inb EmptyString gs) eqn:Ei; [apply inb_In in Ei; contradiction|]. cbn [negb andb].
    destruct g0 as [|p0 g0]; cbn [List.length Nat.eqb negb].
    + rewrite EG. cbn [app]. apply (distort_groups _ _ Eg); assumption.
    + rewrite applyGroup_ok; [|rewrite EG; discriminate|assumption|assumption]. cbn [bind].
      etransitivity; [apply (distort_groups _ _ Eg); [assumption|assumption|]|].
      * apply with_sized; [assumption|]. apply mvs_length, B.
      * rewrite with_with. cbn [with_contents bdHist hCont]. unfold resps. rewrite map_app, mvs_app. reflexivity.
Qed.
End Distort.

(** ** the whole loop *)
Definition dstep (G : nat -> option (bed * Qc)) (st : list bed * option (list Qc)) (j : nat) : list bed * option (list Qc) :=
  match G j with
  | None => st
  | Some (b, i) => (upd (fst st) j b, match snd st with None => None | Some ns => Some (upd ns j i) end)
  end.
Lemma dstep_fold G k : forall a ws ns, (a + k <= List.length ws)%nat ->
  (forall l, ns = Some l -> (a + k <= List.length l)%nat) ->
  let r := fold_left (dstep G) (seq a k) (ws, ns) in
  List.length (fst r) = List.length ws /\
  (forall j, nth_error (fst r) j = if Nat.leb a j && Nat.ltb j (a + k) then match G j with Some (b, _) => Some b | None => nth_error ws j end else nth_error ws j) /\
  match ns with
  | None => snd r = None
  | Some l => exists l', snd r = Some l' /\ List.length l' = List.length l /\
      forall j, nth_error l' j = if Nat.leb a j && Nat.ltb j (a + k) then match G j with Some (_, i) => Some i | None => nth_error l j end else nth_error l j
  end.
Proof.
  induction k as [|k IH]; intros a ws ns Hw Hn; cbn [seq fold_left].
  - cbn zeta. split; [reflexivity|]. assert (forall j, Nat.leb a j && Nat.ltb j (a + 0) = false) as Z.
    { intros j. destruct (Nat.leb_spec a j), (Nat.ltb_spec j (a + 0)); cbn; try reflexivity; lia. }
    split; [intros j; now rewrite Z|]. destruct ns as [l|]; [|reflexivity]. exists l. split; [reflexivity|].
    split; [reflexivity|]. intros j. now rewrite Z.
  - set (st1 := dstep G (ws, ns) a).
    assert (List.length (fst st1) = List.length ws /\ (forall j, nth_error (fst st1) j = if Nat.eqb j a then match G a with Some (b,_) => Some b | None => nth_error ws j end else nth_error ws j)) as [L1 N1].
    { unfold st1, dstep. cbn [fst snd]. destruct (G a) as [[b i]|]; cbn [fst].
      - split; [apply upd_length|]. intros j. rewrite nth_error_upd by lia. reflexivity.
      - split; [reflexivity|]. intros j. destruct (Nat.eqb j a); reflexivity. }
    destruct st1 as [ws1 ns1] eqn:E1. cbn [fst snd] in *.
    specialize (IH (S a) ws1 ns1).
    assert (forall j, Nat.leb a j && Nat.ltb j (a + S k) = Nat.eqb j a || (Nat.leb (S a) j && Nat.ltb j (S a + k))) as Z.
    { intros j. destruct (Nat.leb_spec a j), (Nat.ltb_spec j (a + S k)), (Nat.eqb_spec j a), (Nat.leb_spec (S a) j), (Nat.ltb_spec j (S a + k)); cbn; try reflexivity; lia. }
    unfold st1, dstep in E1. cbn [fst snd] in E1.
    assert (forall l1, ns1 = Some l1 -> (S a + k <= List.length l1)%nat) as Hn1.
    { intros l1 El1. destruct (G a) as [[b i]|]; injection E1 as <- <-.
      - destruct ns as [l|]; [|discriminate]. injection El1 as <-. rewrite upd_length. specialize (Hn _ eq_refl). lia.
      - specialize (Hn _ El1). lia. }
    destruct IH as (A & B & C); [lia|exact Hn1|]. split; [lia|]. split.
    + intros j. rewrite B, Z, N1. destruct (Nat.eqb_spec j a) as [->|]; cbn [orb].
      * destruct (Nat.leb_spec (S a) a); [lia|]. cbn [andb]. reflexivity.
      * reflexivity.
    + destruct ns as [l|].
      * specialize (Hn l eq_refl).
        assert (exists l1, ns1 = Some l1 /\ List.length l1 = List.length l /\ forall j, nth_error l1 j = if Nat.eqb j a then match G a with Some (_,i) => Some i | None => nth_error l j end else nth_error l j) as (l1 & -> & L2 & N2).
        { destruct (G a) as [[b i]|]; injection E1 as <- <-.
          - exists (upd l a i). split; [reflexivity|]. split; [apply upd_length|]. intros j. rewrite nth_error_upd by lia. reflexivity.
          - exists l. split; [reflexivity|]. split; [reflexivity|]. intros j. destruct (Nat.eqb j a); reflexivity. }
        destruct C as (l' & C1 & C2 & C3). exists l'. split; [exact C1|]. split; [lia|]. intros j. rewrite C3, Z, N2.
        destruct (Nat.eqb_spec j a) as [->|]; cbn [orb]; [|reflexivity]. destruct (Nat.leb_spec (S a) a); [lia|]. reflexivity.
      * destruct (G a) as [[b i]|]; injection E1 as <- <-; exact C.
Qed.

Lemma integral_cont h : List.length (hCont h) = hNBins h -> integral h = Ok (qsum (hCont h)).
Proof.
  intros L. unfold integral. rewrite foldM_sum.
  - rewrite <- L. rewrite qsum_nth. f_equal. ring.
  - intros i Hi. apply in_seq in Hi. lia.
Qed.

Definition distorted (grp : string -> list nat) (build : nat -> smat) (o : bed) (gs : list string) : bed :=
  with_contents o (mvs (hNBins (bdHist o)) (map build (acting grp gs)) (hCont (bdHist o))).

Lemma distort_gen s s' origs works norms : sm_inv s -> sm_construct s = (s', Ok tt) ->
  (List.length works <= List.length origs)%nat ->
  (forall ns, norms = Some ns -> (List.length works <= List.length ns)%nat) ->
  (forall o gs, In o origs -> sfind (bdName o) (smDists s) = Some gs ->
     List.length (hCont (bdHist o)) = hNBins (bdHist o) /\
     Forall (fun p => sized (hNBins (bdHist o)) (fst (syBuild (smObj s p)))) (acting (sm_grp s) gs)) ->
  exists works' norms', sm_distort s' origs works norms = Ok (works', norms') /\ List.length works' = List.length works /\
    (forall j o w, nth_error origs j = Some o -> nth_error works j = Some w ->
       nth_error works' j = Some (match sfind (bdName o) (smDists s) with
                                  | None => w
                                  | Some gs => distorted (sm_grp s) (fun p => fst (syBuild (smObj s p))) o gs
                                  end)) /\
    (match norms with
     | None => norms' = None
     | Some ns => exists ns', norms' = Some ns' /\ List.length ns' = List.length ns /\
         forall j x, nth_error ns j = Some x ->
           nth_error ns' j = Some (match nth_error works j, nth_error origs j with
                                   | Some _, Some o => match sfind (bdName o) (smDists s) with
                                                  | None => x
                                                  | Some gs => qsum (hCont (bdHist (distorted (sm_grp s) (fun p => fst (syBuild (smObj s p))) o gs)))
                                                  end
                                   | _, _ => x
                                   end)
     end).
Proof.
  intros Inv HC Hlen Hns Hsz. destruct (construct_spec _ _ Inv HC) as (_ & EG & ED & ER & ET).
  assert (forall g, sm_grp s' g = sm_grp s g) as Egrp by (intros g; unfold sm_grp; now rewrite EG).
  set (G := fun j => match nth_error origs j with
                     | None => None
                     | Some o => match sfind (bdName o) (smDists s) with
                                 | None => None
                                 | Some gs => let b := distorted (sm_grp s) (fun p => fst (syBuild (smObj s p))) o gs in Some (b, qsum (hCont (bdHist b)))
                                 end
                     end).
  assert (sm_inv s') as Inv' by (eapply same_inv; [|exact Inv]; pose proof (construct_same s) as K; rewrite HC in K; exact K).
  assert (forall o gs, In o origs -> sfind (bdName o) (smDists s) = Some gs ->
            sm_distort1 s' gs o = Ok (distorted (sm_grp s) (fun p => fst (syBuild (smObj s p))) o gs)) as K1.
  { intros o gs Hin Hreg. destruct (Hsz _ _ Hin Hreg) as [Hl HF].
    assert (forall p, In p (acting (sm_grp s) gs) -> syResp (smObj s' p) = fst (syBuild (smObj s p))) as HR.
    { intros p Hp. unfold acting in Hp. apply in_app_or in Hp as [Hp|Hp].
      - destruct (in_dec string_dec EmptyString gs); [destruct Hp|]. eapply ER; exact Hp.
      - apply in_flat_map in Hp as (g & _ & Hp). eapply ER; exact Hp. }
    assert (acting (sm_grp s') gs = acting (sm_grp s) gs) as EA.
    { unfold acting. rewrite Egrp. f_equal. apply flat_map_ext. exact Egrp. }
    rewrite (distort1_ok s' (hNBins (bdHist o)) Inv').
    - unfold distorted, resps. rewrite EA. f_equal. f_equal. f_equal. apply map_ext_in. exact HR.
    - intros g Hg. rewrite Egrp in Hg |- *. destruct (ET g Hg) as (m & A & B). exists m. auto.
    - intros g Hg. destruct Inv as (_ & _ & _ & D). rewrite EG. eapply D; eassumption.
    - rewrite EA. rewrite Forall_forall in HF |- *. intros p Hp. rewrite HR by exact Hp. now apply HF.
    - split; [exact Hl|reflexivity]. }
  assert (forall o gs, sfind (bdName o) (smDists s) = Some gs -> In o origs ->
            integral (bdHist (distorted (sm_grp s) (fun p => fst (syBuild (smObj s p))) o gs)) = Ok (qsum (hCont (bdHist (distorted (sm_grp s) (fun p => fst (syBuild (smObj s p))) o gs))))) as K2.
  { intros o gs Hr Hin. apply integral_cont. unfold distorted, with_contents. cbn [bdHist hCont hNBins].
    apply mvs_length. now apply (Hsz o gs). }
  (* the loop is a fold of dstep *)
  assert (forall k a st, (a + k <= List.length origs)%nat -> (forall ns, snd st = Some ns -> (a + k <= List.length ns)%nat) ->
     foldM (fun (st : list bed * option (list Qc)) j =>
           bind (vat origs j) (fun o =>
           match sfind (bdName o) (smDists s) with
           | None => Ok st
           | Some gs =>
               bind (sm_distort1 s' gs o) (fun b =>
               match snd st with
               | None => Ok (upd (fst st) j b, None)
               | Some ns =>
                   bind (integral (bdHist b)) (fun i =>
                   if Nat.ltb j (List.length ns) then Ok (upd (fst st) j b, Some (upd ns j i)) else UB)
               end)
           end)) (seq a k) st = Ok (fold_left (dstep G) (seq a k) st)) as K3.
  { induction k as [|k IH]; intros a st Ha Hst; cbn [seq foldM fold_left]; [reflexivity|].
    destruct (nth_error origs a) as [o|] eqn:Eo; [|apply nth_error_None in Eo; lia].
    assert (In o origs) as Hin by (eapply nth_error_In; exact Eo).
    assert (vat origs a = Ok o) as Ev by (unfold vat; now rewrite Eo). rewrite Ev. cbn [bind].
    assert (dstep G st a = match sfind (bdName o) (smDists s) with None => st | Some gs =>
               let b := distorted (sm_grp s) (fun p => fst (syBuild (smObj s p))) o gs in
               (upd (fst st) a b, match snd st with None => None | Some ns => Some (upd ns a (qsum (hCont (bdHist b)))) end) end) as EGa.
    { unfold dstep, G. rewrite Eo. destruct (sfind (bdName o) (smDists s)); reflexivity. }
    rewrite EGa. destruct (sfind (bdName o) (smDists s)) as [gs|] eqn:Er; cbn [bind].
    - rewrite (K1 _ _ Hin Er). cbn [bind]. destruct (snd st) as [ns|] eqn:Es.
      + rewrite (K2 _ _ Er Hin). cbn [bind]. specialize (Hst ns eq_refl). destruct (Nat.ltb_spec a (List.length ns)); [|lia]. cbn [bind].
        apply IH; [lia|]. cbn [snd]. intros ns' E. injection E as <-. rewrite upd_length. lia.
      + cbn [bind]. apply IH; [lia|]. cbn [snd]. discriminate.
    - apply IH; [lia|]. intros ns E. specialize (Hst ns E). lia. }
  unfold sm_distort. rewrite ED. rewrite K3; [|lia|intros ns E; exact (Hns ns E)].
  destruct (dstep_fold G (List.length works) 0 works norms) as (A & B & C); [lia|intros l E; exact (Hns l E)|].
  destruct (fold_left (dstep G) (seq 0 (List.length works)) (works, norms)) as [works' norms']. cbn [fst snd] in *.
  exists works', norms'. split; [reflexivity|]. split; [exact A|]. split.
  - intros j o w Eo Ew. rewrite B. assert (j < List.length works)%nat as Hj by (apply nth_error_Some; congruence).
    cbn [Nat.leb andb Nat.add]. destruct (Nat.ltb_spec j (List.length works)); [|lia]. unfold G. rewrite Eo.
    destruct (sfind (bdName o) (smDists s)); [reflexivity|exact Ew].
  - destruct norms as [ns|]; [|exact C]. destruct C as (l' & C1 & C2 & C3). exists l'. split; [exact C1|]. split; [exact C2|].
    intros j x Ex. rewrite C3. cbn [Nat.leb andb Nat.add]. destruct (nth_error works j) as [w|] eqn:Ew.
    + assert (j < List.length works)%nat as Hj by (apply nth_error_Some; congruence). destruct (Nat.ltb_spec j (List.length works)); [|lia].
      unfold G. destruct (nth_error origs j) as [o|]; [|exact Ex]. destruct (sfind (bdName o) (smDists s)); [reflexivity|exact Ex].
    + apply nth_error_None in Ew. destruct (Nat.ltb_spec j (List.length works)); [lia|]. exact Ex.
Qed.
