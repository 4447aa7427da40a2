(** Packaged theorems for the systematic manager (C27, C68). *)
From Coq Require Import Permutation.
From Verif Require Import Base.Res Base.Num Base.SMap Model.Axis Model.Event Model.Hist Model.Matrix Model.ED Model.SystMan
  Spec.SystManSpec.
From Verif Require Import Proofs.AxisP Proofs.HistP Proofs.SystManP Proofs.SystManP2.
Local Open Scope Qc_scope.

Lemma distort_pkg : forall obj l s' origs works norms,
  let s := smrun (sm_new obj) l in let acc := accepted (sm_new obj) l in
  let grp := fun g => added g acc in let build := fun p => fst (syBuild (smObj s p)) in
  let result := fun o w => match regd (bdName o) acc with
                           | None => w
                           | Some gs => with_contents o (mvs (hNBins (bdHist o)) (map build (acting grp gs)) (hCont (bdHist o)))
                           end in
  sm_construct s = (s', Ok tt) ->
  (List.length works <= List.length origs)%nat ->
  (forall ns, norms = Some ns -> (List.length works <= List.length ns)%nat) ->
  (forall o gs, In o origs -> regd (bdName o) acc = Some gs ->
     List.length (hCont (bdHist o)) = hNBins (bdHist o) /\
     Forall (fun p => sized (hNBins (bdHist o)) (build p)) (acting grp gs)) ->
  exists works' norms', sm_distort s' origs works norms = Ok (works', norms') /\ List.length works' = List.length works /\
    (forall j o w, nth_error origs j = Some o -> nth_error works j = Some w -> nth_error works' j = Some (result o w)) /\
    match norms with
    | None => norms' = None
    | Some ns => exists ns', norms' = Some ns' /\ List.length ns' = List.length ns /\
        forall j x o w, nth_error ns j = Some x -> nth_error works j = Some w -> nth_error origs j = Some o ->
          nth_error ns' j = Some (match regd (bdName o) acc with None => x | Some _ => qsum (hCont (bdHist (result o w))) end)
    end.
Proof.
  intros obj l s' origs works norms s acc grp build result HC Hlen Hns Hsz.
  destruct (history_pkg obj l) as [HG HD]. fold s acc in HG, HD.
  assert (forall gs, acting (sm_grp s) gs = acting grp gs) as EA.
  { intros gs. unfold acting. rewrite HG. f_equal. apply flat_map_ext. exact HG. }
  destruct (distort_gen s s' origs works norms) as (works' & norms' & A & B & C & D).
  - apply run_inv, sm_new_inv.
  - exact HC.
  - exact Hlen.
  - exact Hns.
  - intros o gs Hin Hr. rewrite HD in Hr. rewrite EA. exact (Hsz _ _ Hin Hr).
  - exists works', norms'. split; [exact A|]. split; [exact B|]. split.
    + intros j o w Ho Hw. rewrite (C _ _ _ Ho Hw). unfold result. rewrite HD. destruct (regd (bdName o) acc) as [gs|]; [|reflexivity].
      unfold distorted. rewrite EA. reflexivity.
    + destruct norms as [ns|]; [|exact D]. destruct D as (ns' & D1 & D2 & D3). exists ns'. split; [exact D1|]. split; [exact D2|].
      intros j x o w Hx Hw Ho. rewrite (D3 _ _ Hx), Hw, Ho, HD. unfold result. destruct (regd (bdName o) acc) as [gs|]; [|reflexivity].
      unfold distorted. rewrite EA. reflexivity.
Qed.

Lemma iter_construct1_ok l : forall s, (forall q, In q l -> snd (syBuild (smObj s q)) = Ok tt) ->
  exists s1, iterS sm_construct1 l s = (s1, Ok tt).
Proof.
  induction l as [|p t IH]; intros s H; cbn [iterS]; [eauto|].
  unfold sm_construct1 at 1. rewrite H by now left. apply IH. intros q Hq. cbn [smObj sm_setObj].
  destruct (Nat.eqb_spec q p) as [->|]; cbn [syBuild]; apply H; [now left|now right].
Qed.
Lemma iter_totals_ok l : forall s, (forall g ps, In (g, ps) l -> ps <> [] -> exists m, sm_groupResp s ps = Ok m) ->
  (forall g ps, In (g, ps) l -> g <> EmptyString -> ps <> []) -> exists s1, iterS stepT l s = (s1, Ok tt).
Proof.
  induction l as [|[g ps] t IH]; intros s H NE; cbn [iterS]; [eauto|].
  unfold stepT at 1. cbn [fst snd]. destruct (String.eqb_spec g EmptyString) as [->|Hg]; cbn [andb].
  - destruct ps as [|p ps]; cbn [List.length Nat.eqb].
    + apply IH; [intros g' ps' Hi' Hg'; apply (H g' ps'); [now right|assumption]|intros g' ps' Hi' Hg'; apply (NE g' ps'); [now right|assumption]].
    + destruct (H EmptyString (p :: ps)) as [m Hm]; [now left|discriminate|]. rewrite Hm. cbn [obind].
      apply IH; [|intros g' ps' Hi' Hg'; apply (NE g' ps'); [now right|assumption]].
      intros g ps' Hin Hne. destruct (H g ps') as [m' Hm']; [now right|assumption|]. exists m'. etransitivity; [|exact Hm']. now apply groupResp_obj.
  - assert (ps <> []) as Hps by (apply (NE g ps); [now left|assumption]).
    destruct (H g ps) as [m Hm]; [now left|assumption|]. rewrite Hm. cbn [obind].
    apply IH; [|intros g' ps' Hi' Hg'; apply (NE g' ps'); [now right|assumption]].
    intros g' ps' Hin Hne. destruct (H g' ps') as [m' Hm']; [now right|assumption|]. exists m'. etransitivity; [|exact Hm']. now apply groupResp_obj.
Qed.
Lemma construct_ok_pkg : forall obj l,
  let s := smrun (sm_new obj) l in let acc := accepted (sm_new obj) l in
  (forall g p, In p (added g acc) -> snd (syBuild (smObj s p)) = Ok tt) ->
  (forall g, exists n, Forall (fun p => sized n (fst (syBuild (smObj s p)))) (added g acc)) ->
  exists s', sm_construct s = (s', Ok tt).
Proof.
  intros obj l s acc HB HS. destruct (history_pkg obj l) as [HG HD]. fold s acc in HG, HD.
  assert (sm_inv s) as Inv by apply run_inv, sm_new_inv. destruct Inv as (W & E0 & NE & D).
  assert (forall g ps, In (g, ps) (smGroups s) -> ps = added g acc) as K.
  { intros g ps Hin. apply sfind_In in Hin; [|exact W]. rewrite <- HG. unfold sm_grp. now rewrite Hin. }
  unfold sm_construct. destruct (Nat.eqb (sm_count s) 0); [eauto|]. rewrite iter_nested.
  destruct (iter_construct1_ok (flat_map snd (smGroups s)) s) as [s1 E1].
  { intros q Hq. apply in_flat_map in Hq as ([g ps] & Hin & Hq). cbn [snd] in Hq. apply (HB g). rewrite <- (K _ _ Hin). exact Hq. }
  rewrite E1. destruct (iter_construct1 _ _ _ E1) as (_ & O1 & _).
  change (exists s', iterS stepT (smGroups s) s1 = (s', Ok tt)). apply iter_totals_ok.
  - intros g ps Hin Hne. destruct (HS g) as [n Hn]. apply (groupResp_ok s1 ps n Hne). rewrite <- (K _ _ Hin) in Hn.
    rewrite Forall_forall in Hn |- *. intros p Hp. rewrite O1 by (apply in_flat_map; exists (g, ps); auto). cbn [syResp]. now apply Hn.
  - intros g ps Hin Hg ->. apply sfind_In in Hin; [|exact W]. exact (NE _ Hg Hin).
Qed.

Lemma not_constructed_pkg : forall obj l n gs o w,
  let s := smrun (sm_new obj) l in let acc := accepted (sm_new obj) l in
  ~ In Build l -> bdName o = n -> regd n acc = Some gs -> acting (fun g => added g acc) gs <> [] ->
  sm_distort s [o] [w] None = Throw NotFoundError.
Proof.
  intros obj l n gs o w s acc HB Hn Hr Hact. destruct (history_pkg obj l) as [HG HD]. fold s acc in HG, HD.
  assert (sm_inv s) as Inv by apply run_inv, sm_new_inv.
  assert (smTotal s = []) as HT.
  { unfold s. clear - HB. assert (smTotal (sm_new obj) = []) as H0 by reflexivity. revert H0. generalize (sm_new obj) as s0.
    induction l as [|o t IH]; intros s0 H0; cbn [smrun]; [exact H0|]. apply IH; [intros C; apply HB; now right|].
    destruct o as [p g|m gs|p b|]; cbn [smcall].
    - unfold sm_add, sm_addGlobal. destruct (String.eqb g EmptyString); [|exact H0]. unfold obind. destruct (sm_checkOthers s0 p); exact H0.
    - unfold sm_addDist, obind. destruct (sm_unique s0 gs); exact H0.
    - exact H0.
    - exfalso. apply HB. now left. }
  assert (forall g b, sm_applyGroup s g b = Throw NotFoundError) as AG by (intros; unfold sm_applyGroup, sm_total; now rewrite HT).
  unfold sm_distort. cbn [List.length seq foldM vat nth_error bind]. rewrite HD, Hn, Hr.
  assert (sm_distort1 s gs o = Throw NotFoundError) as E1; [|now rewrite E1].
  destruct Inv as (W & E0 & NE & D). unfold sm_distort1, sat, shas in *.
  destruct (sfind EmptyString (smGroups s)) as [g0|] eqn:Eg; [|discriminate]. cbn [bind].
  assert (added EmptyString acc = g0) as EG by (rewrite <- HG; unfold sm_grp; now rewrite Eg).
  unfold acting in Hact. rewrite EG in Hact.
  assert (flat_map (fun g => added g acc) gs <> [] -> (forall g, In g gs -> exists l, sfind g (smGroups s) = Some l) -> forall b,
     foldM (fun b g => if String.eqb g EmptyString && Nat.eqb (List.length g0) 0 then Ok b
           else bind (match sfind g (smGroups s) with Some v => Ok v | None => Throw std_out_of_range end) (fun l => if Nat.eqb (List.length l) 0 then Throw LogicError else sm_applyGroup s g b)) gs b = Throw NotFoundError) as K.
  { clear Hact Hr. induction gs as [|g t IH]; intros Hne Hk b; [exfalso; apply Hne; reflexivity|]. cbn [flat_map] in Hne. cbn [foldM].
    destruct (Hk g) as [lg Hlg]; [now left|].
    destruct (String.eqb_spec g EmptyString) as [->|Hg]; cbn [andb].
    - rewrite Eg in Hlg. injection Hlg as <-. rewrite Eg. destruct g0 as [|p0 g0]; cbn [List.length Nat.eqb bind].
      + rewrite EG in Hne. apply IH; [exact Hne|intros; apply Hk; now right].
      + now rewrite AG.
    - rewrite Hlg. cbn [bind]. destruct lg as [|p lg]; [exfalso; exact (NE _ Hg Hlg)|]. cbn [List.length Nat.eqb]. now rewrite AG. }
  assert (forall g, In g gs -> exists l, sfind g (smGroups s) = Some l) as Hk.
  { intros g Hg. rewrite <- HD in Hr. specialize (D _ _ _ Hr Hg). destruct (sfind g (smGroups s)); [eauto|discriminate]. }
  destruct (in_dec string_dec EmptyString gs) as [Hin|Hnin].
  - apply inb_In in Hin. rewrite Hin. cbn [negb andb bind]. apply K; assumption.
  - destruct (inb EmptyString gs) eqn:Ei; [apply inb_In in Ei; contradiction|]. cbn [negb andb].
    destruct g0 as [|p0 g0]; cbn [List.length Nat.eqb negb].
    + cbn [bind]. apply K; assumption.
    + now rewrite AG.
Qed.

(** ** C68 *)
Lemma see_fold l : forall seen seen', foldM see l seen = Ok seen' -> NoDup seen -> NoDup seen' /\ seen' = rev l ++ seen.
Proof.
  induction l as [|x t IH]; intros seen seen' H ND; cbn [foldM] in H; [injection H as <-; auto|].
  unfold see at 1 in H. destruct (inb x seen) eqn:E; [discriminate H|]. cbn [bind] in H.
  destruct (IH _ _ H) as [A B].
  - constructor; [|exact ND]. intros C. apply inb_In in C. congruence.
  - split; [exact A|]. rewrite B. cbn [rev]. rewrite <- app_assoc. reflexivity.
Qed.
Lemma seeGroup_fold s g i seen seen' : sm_seeGroup s g i seen = Ok seen' -> NoDup seen -> NoDup seen' /\ seen' = rev (sm_names s g) ++ seen.
Proof.
  unfold sm_seeGroup. generalize (sm_names s g) as l. intros l. revert seen. induction l as [|x t IH]; intros seen H ND; cbn [foldM] in H.
  - injection H as <-; auto.
  - destruct (inb x seen) eqn:E; [destruct (vat g i); discriminate H|]. cbn [bind] in H.
    destruct (IH _ H) as [A B].
    + constructor; [|exact ND]. intros C. apply inb_In in C. congruence.
    + split; [exact A|]. rewrite B. cbn [rev]. rewrite <- app_assoc. reflexivity.
Qed.
Lemma unique_nodup s gs : sm_unique s gs = Ok tt -> NoDup (sm_names s (acting (sm_grp s) gs)).
Proof.
  unfold sm_unique. intros H.
  match type of H with bind ?X _ = _ => destruct X as [seen|e| | |] eqn:E; try discriminate H end. cbn [bind] in H.
  assert (forall il sn sn', foldM (fun sn (ig : nat * string) =>
             match sfind (snd ig) (smGroups s) with None => Throw NotFoundError | Some g => sm_seeGroup s g (fst ig) sn end) il sn = Ok sn' ->
             NoDup sn -> NoDup sn' /\ sn' = rev (sm_names s (flat_map (sm_grp s) (map snd il))) ++ sn) as K.
  { induction il as [|[i g] t IH]; intros sn sn' Hf ND; cbn [foldM map snd fst flat_map] in *; [injection Hf as <-; auto|].
    destruct (sfind g (smGroups s)) as [l|] eqn:Eg; [|discriminate Hf].
    destruct (sm_seeGroup s l i sn) as [sn1|e| | |] eqn:E1; try discriminate Hf. cbn [bind] in Hf.
    destruct (seeGroup_fold _ _ _ _ _ E1 ND) as [A B]. destruct (IH _ _ Hf A) as [A2 B2]. split; [exact A2|].
    rewrite B2, B. unfold sm_names. assert (sm_grp s g = l) as -> by (unfold sm_grp; now rewrite Eg).
    rewrite map_app, rev_app_distr, <- app_assoc. reflexivity. }
  destruct (K _ _ _ E (NoDup_nil _)) as [ND Es]. clear K E.
  replace (map snd (combine (seq 0 (List.length gs)) gs)) with gs in Es.
  2:{ clear. generalize 0%nat. induction gs as [|x t IH]; intros k; cbn; [reflexivity|]. f_equal. apply IH. }
  rewrite app_nil_r in Es. subst seen.
  assert (NoDup (sm_names s (flat_map (sm_grp s) gs))) as ND1.
  { apply Permutation_NoDup with (2 := ND). apply Permutation_sym, Permutation_rev. }
  unfold acting. destruct (in_dec string_dec EmptyString gs) as [Hin|Hn]; [exact ND1|].
  destruct (list_eq_dec string_dec gs [EmptyString]) as [->|Hne]; [exfalso; apply Hn; now left|].
  match type of H with bind ?X _ = _ => destruct X as [s2|e| | |] eqn:E2; try discriminate H end.
  destruct (see_fold _ _ _ E2 ND) as [A B]. rewrite B in A.
  unfold sm_names in *. rewrite map_app. apply Permutation_NoDup with (2 := A).
  apply Permutation_app; apply Permutation_sym, Permutation_rev.
Qed.
Lemma others_fresh s p : sm_inv s -> sm_checkOthers s p = Ok tt -> forall g q, In q (sm_grp s g) -> syName (smObj s q) <> syName (smObj s p).
Proof.
  intros (W & E0 & _ & _) H g q Hq. unfold sm_checkOthers, sat, shas in *.
  destruct (sfind EmptyString (smGroups s)) as [g0|] eqn:Eg; [|discriminate]. cbn [bind] in H.
  destruct (foldM see (sm_names s g0) [syName (smObj s p)]) as [s1|e| | |] eqn:E1; try discriminate H. cbn [bind] in H.
  match type of H with bind ?X _ = _ => destruct X as [s2|e| | |] eqn:E2; try discriminate H end. clear H.
  destruct (see_fold _ _ _ E1) as [A1 B1]; [repeat constructor; intros []|].
  assert (forall l sn sn', foldM (fun seen (kv : string * list nat) =>
                    if String.eqb (fst kv) EmptyString then Ok seen else foldM see (sm_names s (snd kv)) seen) l sn = Ok sn' -> NoDup sn ->
            NoDup sn' /\ (exists pre, sn' = pre ++ sn /\ forall kv q, In kv l -> fst kv <> EmptyString -> In q (snd kv) -> In (syName (smObj s q)) pre)) as K.
  { induction l as [|[k ps] t IH]; intros sn sn' Hf ND; cbn [foldM fst snd] in Hf.
    - injection Hf as <-. split; [exact ND|]. exists []. split; [reflexivity|]. intros ? ? [].
    - destruct (String.eqb_spec k EmptyString) as [->|Hk]; cbn [bind] in Hf.
      + destruct (IH _ _ Hf ND) as [A (pre & -> & C)]. split; [exact A|]. exists pre. split; [reflexivity|].
        intros kv q' [<-|Hin] Hne Hin'; [cbn in Hne; congruence|eauto].
      + destruct (foldM see (sm_names s ps) sn) as [sn1|e| | |] eqn:E; try discriminate Hf. cbn [bind] in Hf.
        destruct (see_fold _ _ _ E ND) as [A B]. destruct (IH _ _ Hf A) as [A2 (pre & -> & C)]. split; [exact A2|].
        exists (pre ++ rev (sm_names s ps)). rewrite B, <- app_assoc. split; [reflexivity|].
        intros kv q' [<-|Hin] Hne Hin'; apply in_or_app; [right|left; eauto].
        rewrite <- in_rev. apply in_map_iff. exists q'. auto. }
  destruct (K _ _ _ E2 A1) as [A2 (pre & Es2 & C)]. rewrite B1 in Es2. rewrite Es2 in A2.
  assert (forall x, In x (pre ++ rev (sm_names s g0)) -> x <> syName (smObj s p)) as Fr.
  { intros x Hx ->. rewrite app_assoc in A2. apply NoDup_remove_2 in A2. rewrite app_nil_r in A2. contradiction. }
  apply Fr. apply in_or_app. unfold sm_grp in Hq. destruct (sfind g (smGroups s)) as [l|] eqn:El; [|destruct Hq].
  destruct (string_dec g EmptyString) as [->|Hg].
  - right. rewrite Eg in El. injection El as <-. rewrite <- in_rev. apply in_map_iff. exists q. auto.
  - left. apply (C (g, l)); [apply sfind_In; assumption|exact Hg|exact Hq].
Qed.

Definition uniq (nm : nat -> string) (s : sman) : Prop :=
  forall n gs, sfind n (smDists s) = Some gs -> once_global gs /\ NoDup (map nm (acting (sm_grp s) gs)).

Lemma call_names s o q : syName (smObj (fst (smcall s o)) q) = syName (smObj s q).
Proof.
  destruct o as [p g|n gs|p b|]; cbn [smcall].
  - unfold sm_add, sm_addGlobal. destruct (String.eqb g EmptyString); [|reflexivity]. unfold obind. destruct (sm_checkOthers s p); reflexivity.
  - unfold sm_addDist, obind. destruct (sm_unique s gs); reflexivity.
  - cbn. destruct (Nat.eqb_spec q p) as [->|]; reflexivity.
  - pose proof (construct_same s) as (_ & _ & K & _). apply K.
Qed.

Lemma acting_add grp p gs : once_global gs ->
  let grp' := fun g => if string_dec g EmptyString then grp EmptyString ++ [p] else grp g in
  Permutation (acting grp' gs) (p :: acting grp gs).
Proof.
  intros Ho grp'. assert (forall l, ~ In EmptyString l -> flat_map grp' l = flat_map grp l) as K.
  { induction l as [|g t IH]; intros Hn; cbn; [reflexivity|]. rewrite IH by (intros C; apply Hn; now right). f_equal.
    unfold grp'. destruct (string_dec g EmptyString) as [->|]; [exfalso; apply Hn; now left|reflexivity]. }
  unfold acting. destruct (in_dec string_dec EmptyString gs) as [Hin|Hn]; cbn [app].
  - apply in_split in Hin as (a & b & ->). unfold once_global in Ho. rewrite count_occ_app in Ho. cbn [count_occ] in Ho.
    destruct (string_dec EmptyString EmptyString) as [_|C]; [|congruence].
    assert (~ In EmptyString a) as Ha by (intros C; apply (count_occ_In string_dec) in C; lia).
    assert (~ In EmptyString b) as Hb by (intros C; apply (count_occ_In string_dec) in C; lia).
    rewrite !flat_map_app. cbn [flat_map]. rewrite (K _ Ha), (K _ Hb). unfold grp'. destruct (string_dec EmptyString EmptyString) as [_|C]; [|congruence].
    rewrite <- app_assoc. cbn [app]. rewrite !app_assoc. apply Permutation_sym, Permutation_middle.
  - rewrite (K _ Hn). unfold grp'. destruct (string_dec EmptyString EmptyString) as [_|C]; [|congruence].
    rewrite <- app_assoc. cbn [app]. apply Permutation_sym, Permutation_middle.
Qed.

Lemma uniq_step s o : sm_inv s -> late_ok o -> uniq (fun p => syName (smObj s p)) s ->
  uniq (fun p => syName (smObj s p)) (fst (smcall s o)).
Proof.
  intros Inv Hl U. destruct o as [p g|n gs|p b|]; cbn [smcall late_ok] in *.
  - subst g. unfold sm_add. cbn [String.eqb]. unfold sm_addGlobal, obind.
    destruct (sm_checkOthers s p) as [[]|e| | |] eqn:E; cbn [fst]; try exact U.
    pose proof (others_fresh _ _ Inv E) as Fr. intros n gs Hf. cbn [smDists sm_setGroups] in Hf. destruct (U _ _ Hf) as [Ho ND].
    split; [exact Ho|].
    set (s' := sm_setGroups s (sset EmptyString (sm_grp s EmptyString ++ [p]) (smGroups s))).
    assert (forall g, sm_grp s' g = if string_dec g EmptyString then sm_grp s EmptyString ++ [p] else sm_grp s g) as EG.
    { intros g. unfold sm_grp at 1, s'. cbn [smGroups sm_setGroups]. rewrite sfind_sset.
      destruct (String.eqb_spec g EmptyString) as [E1|E1]; destruct (string_dec g EmptyString) as [E2|E2]; try congruence; try (rewrite E1); reflexivity. }
    assert (acting (sm_grp s') gs = acting (fun g => if string_dec g EmptyString then sm_grp s EmptyString ++ [p] else sm_grp s g) gs) as ->.
    { unfold acting. rewrite EG. f_equal. apply flat_map_ext. exact EG. }
    eapply Permutation_NoDup; [apply Permutation_map, Permutation_sym, acting_add; exact Ho|]. cbn [map]. constructor; [|exact ND].
    intros C. apply in_map_iff in C as (q & Eq & Hq). unfold acting in Hq. apply in_app_or in Hq as [Hq|Hq].
    + destruct (in_dec string_dec EmptyString gs); [destruct Hq|]. exact (Fr _ _ Hq Eq).
    + apply in_flat_map in Hq as (g & _ & Hq). exact (Fr _ _ Hq Eq).
  - unfold sm_addDist, obind. destruct (sm_unique s gs) as [[]|e| | |] eqn:E; cbn [fst]; try exact U.
    intros n' gs' Hf. cbn [smDists] in Hf. rewrite sfind_sset in Hf. destruct (String.eqb n' n).
    + injection Hf as <-. split; [exact Hl|]. exact (unique_nodup _ _ E).
    + destruct (U _ _ Hf) as [A B]. split; [exact A|exact B].
  - cbn [fst]. intros n gs Hf. exact (U n gs Hf).
  - pose proof (construct_same s) as (A & B & _). intros n gs Hf. rewrite B in Hf. destruct (U _ _ Hf) as [C D]. split; [exact C|].
    unfold sm_grp in *. rewrite A. exact D.
Qed.
Lemma uniq_ext nm nm' s : (forall p, nm p = nm' p) -> uniq nm s -> uniq nm' s.
Proof.
  intros E U n gs H. destruct (U n gs H) as [A B]. split; [exact A|]. rewrite (map_ext nm' nm) by (intros; symmetry; apply E). exact B.
Qed.
Lemma uniq_run nm l : forall s, sm_inv s -> (forall p, nm p = syName (smObj s p)) -> Forall late_ok l -> uniq nm s -> uniq nm (smrun s l).
Proof.
  induction l as [|o t IH]; intros s Inv En F U; cbn [smrun]; [exact U|]. inversion F as [|? ? F0 Ft]; subst.
  apply IH; [now apply call_inv|intros p; rewrite call_names; apply En|exact Ft|].
  eapply uniq_ext; [|apply uniq_step; [exact Inv|exact F0|]].
  - intros p. symmetry. apply En.
  - eapply uniq_ext; [exact En|exact U].
Qed.
Lemma run_names l : forall s p, syName (smObj (smrun s l) p) = syName (smObj s p).
Proof. induction l as [|o t IH]; intros s p; cbn [smrun]; [reflexivity|]. now rewrite IH, call_names. Qed.
Lemma nodist_run l : forall s, Forall no_dist l -> smDists s = [] -> smDists (smrun s l) = [].
Proof.
  induction l as [|o t IH]; intros s F E; cbn [smrun]; [exact E|]. inversion F as [|? ? F0 Ft]; subst. apply IH; [exact Ft|].
  destruct o as [p g|n gs|p b|]; cbn [smcall no_dist] in *.
  - unfold sm_add, sm_addGlobal. destruct (String.eqb g EmptyString); [|exact E]. unfold obind. destruct (sm_checkOthers s p); exact E.
  - destruct F0.
  - exact E.
  - pose proof (construct_same s) as (_ & B & _). now rewrite B.
Qed.
Lemma smrun_app a b s : smrun s (a ++ b) = smrun (smrun s a) b.
Proof. revert s. induction a as [|o t IH]; intros s; cbn; [reflexivity|]. apply IH. Qed.
Lemma uniq_pkg : forall obj l1 l2, let acc := accepted (sm_new obj) (l1 ++ l2) in
  Forall no_dist l1 -> Forall late_ok l2 ->
  forall n gs, regd n acc = Some gs -> NoDup (map (fun p => syName (obj p)) (acting (fun g => added g acc) gs)).
Proof.
  intros obj l1 l2 acc F1 F2 n gs Hr. destruct (history_pkg obj (l1 ++ l2)) as [HG HD]. fold acc in HG, HD.
  rewrite <- HD in Hr. rewrite smrun_app in *.
  assert (uniq (fun p => syName (obj p)) (smrun (smrun (sm_new obj) l1) l2)) as U.
  { apply uniq_run; [apply run_inv, sm_new_inv|intros p; now rewrite run_names|exact F2|].
    intros n' gs' H. rewrite (nodist_run _ (sm_new obj) F1 eq_refl) in H. discriminate H. }
  destruct (U _ _ Hr) as [_ ND].
  assert (acting (sm_grp (smrun (smrun (sm_new obj) l1) l2)) gs = acting (fun g => added g acc) gs) as <-; [|exact ND].
  unfold acting. rewrite HG. f_equal. apply flat_map_ext. exact HG.
Qed.
Lemma at_registration_pkg : forall obj l n gs s', let s := smrun (sm_new obj) l in let acc := accepted (sm_new obj) l in
  sm_addDist s n gs = (s', Ok tt) -> NoDup (map (fun p => syName (obj p)) (acting (fun g => added g acc) gs)).
Proof.
  intros obj l n gs s' s acc H. destruct (history_pkg obj l) as [HG HD]. fold s acc in HG, HD.
  unfold sm_addDist, obind in H. destruct (sm_unique s gs) as [[]|e| | |] eqn:E; try discriminate H.
  apply unique_nodup in E. unfold sm_names in E. rewrite (map_ext _ (fun p => syName (obj p))) in E by (intros; unfold s; now rewrite run_names).
  assert (acting (sm_grp s) gs = acting (fun g => added g acc) gs) as <-; [|exact E].
  unfold acting. rewrite HG. f_equal. apply flat_map_ext. exact HG.
Qed.
Lemma throws_only_notfound s l : forall seen e, foldM see (sm_names s l) seen = Throw e -> e = NotFoundError.
Proof.
  generalize (sm_names s l) as k. induction k as [|x t IH]; intros seen e H; cbn [foldM] in H; [discriminate|].
  unfold see at 1 in H. destruct (inb x seen); cbn [bind] in H; [now inversion H|eauto].
Qed.
Lemma see_shape s l : forall seen, (exists x, foldM see (sm_names s l) seen = Ok x) \/ foldM see (sm_names s l) seen = Throw NotFoundError.
Proof.
  generalize (sm_names s l) as k. induction k as [|x t IH]; intros seen; cbn [foldM]; [eauto|].
  unfold see at 1 3. destruct (inb x seen); cbn [bind]; [now right|apply IH].
Qed.
Lemma global_refused_pkg : forall obj l p q g, let s := smrun (sm_new obj) l in let acc := accepted (sm_new obj) l in
  In q (added g acc) -> syName (obj q) = syName (obj p) -> sm_addGlobal s p = (s, Throw NotFoundError).
Proof.
  intros obj l p q g s acc Hq En. destruct (history_pkg obj l) as [HG HD]. fold s acc in HG, HD.
  assert (sm_inv s) as Inv by apply run_inv, sm_new_inv.
  assert ((sm_checkOthers s p = Ok tt) \/ sm_checkOthers s p = Throw NotFoundError) as [E|E].
  { unfold sm_checkOthers, sat. pose proof Inv as (_ & E0 & _). unfold shas in E0.
    destruct (sfind EmptyString (smGroups s)) as [g0|]; [|discriminate]. cbn [bind].
    destruct (see_shape s g0 [syName (smObj s p)]) as [[x ->]| ->]; [|now right]. cbn [bind].
    match goal with |- bind ?X _ = _ \/ _ => assert ((exists y, X = Ok y) \/ X = Throw NotFoundError) as [[y ->]| ->] end; [|now left|now right].
    generalize x. induction (smGroups s) as [|[k ps] t IH]; intros y; cbn [foldM fst snd]; [eauto|].
    destruct (String.eqb k EmptyString); cbn [bind]; [apply IH|].
    destruct (see_shape s ps y) as [[z ->]| ->]; cbn [bind]; [apply IH|now right]. }
  - exfalso. apply (others_fresh _ _ Inv E g q); [now rewrite HG|]. unfold s. now rewrite !run_names.
  - unfold sm_addGlobal. now rewrite E.
Qed.
