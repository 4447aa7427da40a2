(** C89: the value of a likelihood with systematics. *)
From Coq Require Import ZArith Reals Lia.
From Verif Require Import Base.Res Base.Num Base.RNum Base.SMap Model.Axis Model.Event Model.Cut Model.Hist Model.ED Model.Param Model.Matrix Model.SystMan Model.Shrink Model.EDMan
  Model.Fill Model.Constraint Model.NLLH Spec.AxisSpec Spec.HistSpec Spec.ParamSpec Spec.EDManSpec Spec.SystManSpec Spec.NLLHSpec Spec.NLLHSysSpec
  Proofs.AxisP Proofs.HistP Proofs.HistP2 Proofs.ParamP Proofs.ParamP2 Proofs.ParamP3 Proofs.EDManP Proofs.EDManP2 Proofs.SystManP Proofs.SystManP2 Proofs.SystManP3 Proofs.NLLHP Proofs.NLLHP2 Proofs.NLLHP3 Proofs.NLLHS1 Proofs.NLLHS2 Proofs.NLLHS3 Proofs.NLLHS4 Proofs.NLLHS5.
Local Open Scope Qc_scope.
Local Open Scope res_scope.

Lemma construct_okI s : sm_inv s -> (forall g p, In p (sm_grp s g) -> snd (syBuild (smObj s p)) = Ok tt) ->
  (forall g, exists n, Forall (fun p => sized n (fst (syBuild (smObj s p)))) (sm_grp s g)) -> exists s', sm_construct s = (s', Ok tt).
Proof.
  intros (W & E0 & NE & D) HB HS.
  assert (forall g ps, In (g, ps) (smGroups s) -> ps = sm_grp s g) as K.
  { intros g ps Hin. apply sfind_In in Hin; [|exact W]. unfold sm_grp. now rewrite Hin. }
  unfold sm_construct. destruct (Nat.eqb (sm_count s) 0); [eauto|]. rewrite iter_nested.
  destruct (iter_construct1_ok (flat_map snd (smGroups s)) s) as [s1 E1].
  { intros q Hq. apply in_flat_map in Hq as ([g ps] & Hin & Hq). cbn [snd] in Hq. apply (HB g). rewrite <- (K _ _ Hin). exact Hq. }
  rewrite E1. destruct (iter_construct1 _ _ _ E1) as (_ & O1 & _).
  change (exists s', iterS stepT (smGroups s) s1 = (s', Ok tt)). apply iter_totals_ok.
  - intros g ps Hin Hne. destruct (HS g) as [n Hn]. apply (groupResp_ok s1 ps n Hne). rewrite <- (K _ _ Hin) in Hn.
    rewrite Forall_forall in Hn |- *. intros p Hp. rewrite O1 by (apply in_flat_map; exists (g, ps); auto). cbn [syResp]. now apply Hn.
  - intros g ps Hin Hg ->. apply sfind_In in Hin; [|exact W]. exact (NE _ Hg Hin).
Qed.
Definition actS (m : sman) (o : bed) : list nat := match sfind (bdName o) (smDists m) with Some gs => acting (sm_grp m) gs | None => [] end.
Definition respS (m : sman) (M : nat -> smat) (o : bed) : bed := with_contents o (mvs (hNBins (bdHist o)) (map M (actS m o)) (hCont (bdHist o))).
Lemma count0_acting m gs : sm_count m = 0%nat -> acting (sm_grp m) gs = [].
Proof.
  intros H. assert (E : forall g, sm_grp m g = []).
  { intros g. unfold sm_grp. destruct (sfind g (smGroups m)) as [l|] eqn:E; [|reflexivity]. unfold sm_count in H. clear -H E.
    revert H E. generalize (smGroups m). induction s as [|[k v] t IH]; cbn [map list_sum fold_right snd sfind]; [discriminate|]. intros H. destruct (String.eqb g k).
    - intros [= ->]. destruct l; [reflexivity|cbn in H; lia].
    - apply IH. unfold list_sum. lia. }
  unfold acting. rewrite E. replace (flat_map (sm_grp m) gs) with (@nil nat); [destruct (in_dec string_dec EmptyString gs); reflexivity|].
  induction gs as [|g gs IH]; cbn; [reflexivity|]. now rewrite E, <- IH.
Qed.
Lemma actS_same a b o : same_shape a b -> actS b o = actS a o.
Proof. intros [A [B _]]. unfold actS, sm_grp. rewrite A, B. reflexivity. Qed.
Lemma nth_ext_err {A} (l r : list A) : (forall j, nth_error l j = nth_error r j) -> l = r.
Proof.
  revert r. induction l as [|x l IH]; intros [|y r] H; auto; [specialize (H 0%nat); discriminate|specialize (H 0%nat); discriminate|].
  pose proof (H 0%nat) as H0. injection H0 as ->. f_equal. apply IH. intros j. exact (H (S j)).
Qed.
Lemma mvs_length n ms : forall v, List.length v = n -> List.length (mvs n ms v) = n.
Proof. unfold mvs. induction ms as [|m ms IH]; intros v H; cbn [fold_left]; [exact H|]. apply IH. apply mv_length. Qed.

(** ApplySystematics after a successful Construct *)
Lemma applyS s m m' (p : edman) : sm_inv m -> sm_construct m = (m', Ok tt) -> em_inv2 p -> sized_origs p ->
  let M := fun q => fst (syBuild (smObj m q)) in
  s = fst (em_systematics p m') ->
  (forall j o w, nth_error (emOrig p) j = Some o -> nth_error (emWork p) j = Some w -> sfind (bdName o) (smDists m) = None \/ sm_count m = 0%nat -> w = o) ->
  (forall o, In o (emOrig p) -> Forall (fun q => sized (hNBins (bdHist o)) (M q)) (actS m o)) ->
  snd (em_systematics p m') = Ok tt /\ emWork s = map (respS m M) (emOrig p).
Proof.
  cbv zeta. intros Inv Ec I L -> HW HS. pose proof I as [[_ [L2 _]] F2]. cbn [setOW emOrig] in L2. change (emNorms (setOW (emOrig p) (emOrig p) p)) with (emNorms p) in L2.
  pose proof (construct_same m) as Sc. rewrite Ec in Sc. cbn [fst] in Sc. pose proof Sc as [Sg [Sd _]].
  assert (LW : List.length (emWork p) = List.length (emOrig p)) by (apply reshaped_names in F2; apply (f_equal (@List.length _)) in F2; rewrite !map_length in F2; exact F2).
  assert (Wext : forall (ws : list bed), List.length ws = List.length (emOrig p) -> (forall j o w, nth_error (emOrig p) j = Some o -> nth_error (emWork p) j = Some w ->
       nth_error ws j = Some (match sfind (bdName o) (smDists m) with None => w | Some gs => distorted (sm_grp m) (fun p => fst (syBuild (smObj m p))) o gs end)) ->
       ws = map (respS m (fun q => fst (syBuild (smObj m q)))) (emOrig p)).
  { intros ws Hl H. apply nth_ext_err. intros j. rewrite nth_error_map. destruct (nth_error (emOrig p) j) as [o|] eqn:Eo; cbn [option_map].
    - assert (Hj : (j < List.length (emOrig p))%nat) by (apply nth_error_Some; congruence). destruct (nth_error (emWork p) j) as [w|] eqn:Ew; [|apply nth_error_None in Ew; lia].
      rewrite (H j o w Eo Ew). f_equal. unfold respS, actS, distorted. destruct (sfind (bdName o) (smDists m)) as [gs|] eqn:Eg; [reflexivity|].
      cbn [map mvs fold_left]. rewrite with_same. apply (HW j o w Eo Ew). now left.
    - apply nth_error_None. rewrite Hl. now apply nth_error_None. }
  unfold em_systematics. rewrite (count_groups m' m Sg). destruct (Nat.eqb_spec (sm_count m) 0) as [E0|E0]; cbn [fst snd].
  { split; [reflexivity|]. apply Wext; [exact LW|]. intros j o w Eo Ew. rewrite Ew. f_equal. rewrite (HW j o w Eo Ew (or_intror E0)).
    destruct (sfind (bdName o) (smDists m)) as [gs|]; [|reflexivity]. unfold distorted. rewrite (count0_acting m gs E0). cbn [map mvs fold_left]. now rewrite with_same. }
  assert (G : forall norms, (forall ns, norms = Some ns -> List.length ns = List.length (emNorms p)) -> exists works' norms', sm_distort m' (emOrig p) (emWork p) norms = Ok (works', norms') /\
     works' = map (respS m (fun q => fst (syBuild (smObj m q)))) (emOrig p) /\ match norms with None => True | Some ns => exists ns', norms' = Some ns' /\ List.length ns' = List.length ns end).
  { intros norms Hn. destruct (distort_gen m m' (emOrig p) (emWork p) norms Inv Ec) as [works' [norms' [E [Hl [Hw Hx]]]]].
    - lia. - intros ns E. rewrite (Hn ns E). lia.
    - intros o gs Hin Hg. split; [unfold sized_origs in L; rewrite Forall_forall in L; now apply L|]. specialize (HS o Hin). unfold actS in HS. rewrite Hg in HS. exact HS.
    - exists works', norms'. split; [exact E|]. split; [apply Wext; [lia|exact Hw]|]. destruct norms as [ns|]; [|exact Logic.I]. destruct Hx as [ns' [A [B _]]]. eauto. }
  destruct (emAllDir p) eqn:Ea.
  - destruct (G None) as [works' [norms' [E [Hw _]]]]; [discriminate|]. rewrite E. cbn [obind fst snd em_setWork emWork]. auto.
  - destruct (G (Some (repeat 0 (List.length (emNorms p))))) as [works' [norms' [E [Hw Hx]]]]; [intros ns [= <-]; apply repeat_length|]. rewrite E. cbn [obind fst snd].
    destruct Hx as [ns' [-> Hn']]. rewrite repeat_length in Hn'.
    pose proof (norms_loop_keeps (seq 0 (List.length ns')) (em_setWork p works') ns') as K. cbv zeta in K.
    destruct (K Ea) as [_ [K2 K3]]. split; [|rewrite K2; exact Hw]. apply K3. intros i Hi. apply in_seq in Hi.
    pose proof I as [[L1 _] _]. cbn [setOW emOrig emStat] in L1. cbn [em_setWork emStat]. lia.
Qed.

Lemma respS_reach m M o : h_reach (bdHist o) -> h_reach (bdHist (respS m M o)) /\ hNBins (bdHist (respS m M o)) = hNBins (bdHist o).
Proof.
  intros H. split; [|reflexivity]. unfold respS, with_contents. cbn [bdHist]. pose proof (h_reach_ok _ H) as [_ [_ [_ [_ L]]]].
  set (c := mvs _ _ _). assert (Lc : List.length c = hNBins (bdHist o)) by (apply mvs_length; exact L).
  pose proof (hr_setBins (bdHist o) c H) as Q. unfold setBinContents in Q. rewrite Lc, Nat.eqb_refl in Q. exact Q.
Qed.
Lemma expected_map d (f : bed -> bed) k : (forall o, bdName (f o) = bdName o) -> forall os sts,
  expected d (combine (map f os) sts) k = qsum (map (fun p => norm_in d p * cont (bdHist (f (fst p))) k) (combine os sts)).
Proof.
  intros N. unfold expected. induction os as [|o os IH]; intros [|st sts]; cbn [map combine qsum fst]; auto. rewrite IH. unfold norm_in. cbn [fst snd]. rewrite N. reflexivity.
Qed.

Section Val6.
Variables (names : nat -> string) (par : nat -> comp) (build : nat -> comp -> smat * res unit) (obs : list string).
Notation calmS := (calmS names par build obs).
Variables (d : smap Qc) (D : bed) (vp : list (bed * nfs)).
Hypothesis Hnd : NoDup (fitted vp).
Hypothesis Hdf : direct_first vp.
Hypothesis Hcov : covers D vp.
Hypothesis HD : h_reach (bdHist D).
Record rdyS (s : nllh) : Prop := mkRdyS {
  ryCalm : calmS s; ryDat : nlData s = D; ryHolds : holds (nlPm s) d; ryView : pairs (view (nlPm s)) = vp; ryBB : nlBB s = false }.
Lemma bin6 s k : rdyS s -> (k < hNBins (bdHist D))%nat ->
  snd (nl_bin s k) = (if qeqb (expected d vp k) 0 then Throw std_runtime_error else Ok (poisson_term (cont (bdHist D) k) (qr (expected d vp k)) 0%R)) /\
  rdyS (fst (nl_bin s k)) /\ stays s (fst (nl_bin s k)).
Proof.
  intros R Hk. pose proof (csInv _ _ _ _ _ (ryCalm _ R)) as I. destruct (binS names par build obs s k (ryCalm _ R)) as [C1 [S1 T1]].
  destruct (binProb_view (nlPm s) k I) as [Ev _]. destruct (inv2_view _ I) as [Iv Fv].
  assert (E : snd (em_binProb (nlPm s) k) = Ok (expected d vp k)).
  { assert (E0 : snd (em_binProb (view (nlPm s)) k) = snd (em_binProb (nlPm s) k)) by now rewrite Ev. rewrite <- E0.
    unfold expected. rewrite <- (ryView _ R). apply binprob_holds; rewrite ?(ryView _ R); auto.
    - eapply Forall_impl; [|exact Hcov]. intros p [A B]. split; [exact A|lia].
    - apply holds_view; [exact I|apply R]. }
  split; [|split; [|exact S1]].
  - unfold nl_bin. destruct (em_binProb (nlPm s) k) as [p r]. cbn [snd] in *. subst r. cbn [bind]. destruct (qeqb (expected d vp k) 0); [reflexivity|].
    rewrite (ryDat _ R), (data_content D HD k Hk). cbn [bind]. rewrite (ryBB _ R). reflexivity.
  - pose proof S1 as [A1 [A2 [A3 [A4 [A5 [A6 [A7 [A8 [A9 [A10 A11]]]]]]]]]]. constructor; auto.
    + unfold nl_bin. destruct (em_binProb (nlPm s) k). apply R.
    + apply A10. apply R.
    + rewrite (structure_pairs _ _ (view_structure _ _ T1)). apply R.
    + rewrite A2. apply R.
Qed.
Definition acc6 (acc : res R) (l : list nat) : res R :=
  match acc with
  | Ok a => if forallb (fun k => qltb 0 (expected d vp k)) l then Ok (a + rsum (map (fun k => poisson_nll (qr (cont (bdHist D) k)) (qr (expected d vp k))) l))%R else NonFinite
  | _ => NonFinite
  end.
Lemma loop6 l : forall s acc, rdyS s -> (forall k, In k l -> (k < hNBins (bdHist D))%nat) -> (acc = NonFinite \/ exists a, acc = Ok a) ->
  if existsb (fun k => qeqb (expected d vp k) 0) l then snd (nl_loop s l acc) = Throw std_runtime_error
  else exists s', nl_loop s l acc = (s', Ok (acc6 acc l)) /\ calmS s' /\ stays s s'.
Proof.
  induction l as [|k l IH]; intros s acc R Hl Ha.
  - cbn [existsb nl_loop acc6 forallb map rsum]. exists s. split; [|split; [apply R|apply stays_refl]]. do 2 f_equal. destruct Ha as [->|[a ->]]; [reflexivity|]. cbn. f_equal. ring.
  - rewrite loop_step. destruct (bin6 s k R (Hl k (or_introl eq_refl))) as [-> [R1 S1]]. cbn [existsb]. destruct (qeqb (expected d vp k) 0) eqn:Eq; cbn [orb]; [reflexivity|].
    set (x := poisson_term _ _ _).
    assert (Ex : x = if qltb 0 (expected d vp k) then Ok (poisson_nll (qr (cont (bdHist D) k)) (qr (expected d vp k))) else NonFinite).
    { unfold x, poisson_term, poisson_nll. destruct (Rlt_dec 0 (qr (expected d vp k))) as [Hr|Hr]; destruct (qltb 0 (expected d vp k)) eqn:Q.
      - f_equal. ring.
      - exfalso. apply qltb_ge in Q. apply qr_le in Q. rewrite qr_0 in Q. exact (Rlt_irrefl _ (Rlt_le_trans _ _ _ Hr Q)).
      - exfalso. apply Hr. rewrite <- qr_0. apply qr_lt. now apply qltb_lt.
      - reflexivity. }
    assert (Hn : forall c, rlift2 Rplus acc c = NonFinite \/ exists a, rlift2 Rplus acc c = Ok a) by (intros c; destruct acc, c; cbn; eauto).
    specialize (IH (fst (nl_bin s k)) (rlift2 Rplus acc x) R1 (fun j Hj => Hl j (or_intror Hj)) (Hn x)).
    destruct (existsb _ l); [exact IH|]. destruct IH as [s' [E [C2 S2]]]. exists s'. rewrite E. split; [|split; [exact C2|eapply stays_trans; eassumption]].
    do 2 f_equal. rewrite Ex. destruct Ha as [->|[a ->]]; [now destruct (qltb 0 _)|]. unfold acc6. cbn [forallb map rsum]. destruct (qltb 0 (expected d vp k)); cbn [rlift2 andb]; [|reflexivity].
    destruct (forallb _ l); [|reflexivity]. f_equal. ring.
Qed.
End Val6.

Section Eval6.
Variables (names : nat -> string) (par : nat -> comp) (build : nat -> comp -> smat * res unit) (obs : list string).
Notation calmS := (calmS names par build obs).

Lemma prepared s : calmS s -> nlCalc s = true -> let m := nlSm s in let M := fun q => fst (build q (nlPar s q)) in
  (forall g q, In q (sm_grp m g) -> snd (build q (nlPar s q)) = Ok tt) ->
  (forall g, exists n, Forall (fun q => sized n (M q)) (sm_grp m g)) ->
  (forall o, In o (emOrig (nlPm s)) -> Forall (fun q => sized (hNBins (bdHist o)) (M q)) (actS m o)) ->
  exists s2, nl_prepare s = (s2, Ok tt) /\ calmS s2 /\ stays s s2 /\ emWork (nlPm s2) = map (respS m M) (emOrig (nlPm s)).
Proof.
  intros C Hc. cbv zeta. intros HB HG HS.
  assert (Eb : forall q, syBuild (smObj (nlSm s) q) = build q (nlPar s q)) by (intros q; apply (csObj _ _ _ _ _ C)).
  destruct (construct_okI (nlSm s) (csSm _ _ _ _ _ C)) as [m' Ec].
  { intros g q Hq. rewrite Eb. eapply HB; eassumption. }
  { intros g. destruct (HG g) as [n Hn]. exists n. eapply Forall_impl; [|exact Hn]. intros q. cbn beta. now rewrite Eb. }
  destruct (prepareS names par build obs s C Hc) as [p [_ [T [H E]]]]. rewrite Ec in E.
  pose proof (construct_same (nlSm s)) as Sc. rewrite Ec in Sc. cbn [fst] in Sc.
  destruct (afterSys names par build obs s p m' C T H Sc) as [C2 S2]. cbv zeta in *.
  pose proof T as [TO [TW _]].
  destruct (applyS (fst (em_systematics p m')) (nlSm s) m' p) as [A B].
  - apply C. - exact Ec. - eapply inv2_structure; [apply C|exact T].
  - unfold sized_origs. rewrite TO. apply (sized_of names par build obs). exact C.
  - reflexivity.
  - rewrite TO, TW. intros j o w Ho Hw. apply (csWork _ _ _ _ _ C j o w Ho Hw).
  - rewrite TO. intros o Ho. eapply Forall_impl; [|exact (HS o Ho)]. intros q. cbn beta. now rewrite Eb.
  - rewrite A in E. eexists. split; [exact E|]. split; [exact C2|]. split; [exact S2|]. cbn. rewrite B, TO. apply map_ext. intros o. unfold respS. f_equal. f_equal. apply map_ext. intros q. now rewrite Eb.
Qed.
Lemma combine_ext_names (f : bed -> bed) : (forall o, bdName (f o) = bdName o) -> forall os sts, fitted (combine (map f os) sts) = fitted (combine os sts).
Proof. intros N os sts. apply fitted_names. rewrite map_map. apply map_ext. exact N. Qed.
Lemma combine_nth_err {A B} (l : list A) : forall (r : list B) i, nth_error (combine l r) i = match nth_error l i, nth_error r i with Some a, Some b => Some (a, b) | _, _ => None end.
Proof. induction l as [|x l IH]; intros [|y r] [|i]; cbn; auto. destruct (nth_error l i); reflexivity. Qed.

Variables (d : smap Qc) (D : bed) (pdfs : list (bed * nfs)).
Hypothesis Hnd : NoDup (fitted pdfs).
Hypothesis Hdf : direct_first pdfs.
Hypothesis Hcov : covers D pdfs.
Hypothesis HD : h_reach (bdHist D).
Lemma eval6 s p : calmS s -> nlCalc s = true -> nlData s = D -> holds (nlPm s) d -> nlBB s = false -> pairs (nlPm s) = pdfs -> nl_getParams s = Ok p ->
  (forall s', calmS s' -> nlReg s' = nlReg s -> nlPar s' = nlPar s -> pairs (nlPm s') = pairs (nlPm s) -> holds (nlPm s') d -> nl_getParams s' = Ok p) ->
  let m := nlSm s in let M := fun q => fst (build q (nlPar s q)) in
  let mu := fun k => qsum (map (fun b => norm_in d b * cont (bdHist (respS m M (fst b))) k) pdfs) in
  (forall g q, In q (sm_grp m g) -> snd (build q (nlPar s q)) = Ok tt) ->
  (forall g, exists n, Forall (fun q => sized n (M q)) (sm_grp m g)) ->
  (forall b, In b pdfs -> Forall (fun q => sized (hNBins (bdHist (fst b))) (M q)) (actS m (fst b))) ->
  snd (nl_eval s) = outcome (cont (bdHist D)) mu (hNBins (bdHist D)) (cman_eval (nlCm s) p).
Proof.
  intros C Hc Hd Hh Hb Hp Eg Sg. cbv zeta. intros HB HG HS.
  pose proof (csInv _ _ _ _ _ C) as [[L1 _] _]. cbn [setOW emStat emOrig] in L1.
  destruct (prepared s C Hc HB HG) as [s2 [E2 [C2 [S2 W2]]]].
  { intros o Ho. destruct (In_nth_error _ _ Ho) as [i Hi]. destruct (nth_error (emStat (nlPm s)) i) as [st|] eqn:Es.
    - apply (HS (o, st)). rewrite <- Hp. unfold pairs. apply (nth_error_In _ i). rewrite combine_nth_err, Hi, Es. reflexivity.
    - apply nth_error_None in Es. assert (i < List.length (emOrig (nlPm s)))%nat by (apply nth_error_Some; congruence). lia. }
  set (m := nlSm s) in *. set (M := fun q => fst (build q (nlPar s q))) in *.
  pose proof S2 as [A1 [A2 [A3 [A4 [A5 [A6 [A7 [A8 [[A9 A9'] [A10 A11]]]]]]]]]]. destruct (A11 Hc) as [_ D2].
  pose proof (csInv _ _ _ _ _ C2) as I2.
  assert (O2 : emOrig (nlPm s2) = emOrig (nlPm s) /\ emStat (nlPm s2) = emStat (nlPm s)).
  { pose proof I2 as [[L1' _] _]. cbn [setOW emStat emOrig] in L1'. unfold pairs in A9. split.
    - apply (f_equal (map fst)) in A9. rewrite !map_fst_combine in A9 by lia. exact A9.
    - pose proof (pairs_stat (nlPm s2) L1') as X. pose proof (pairs_stat (nlPm s) L1) as Y. unfold pairs in X, Y. rewrite <- X, <- Y, A9. reflexivity. }
  destruct O2 as [O2 St2].
  set (vp := combine (map (respS m M) (emOrig (nlPm s))) (emStat (nlPm s))).
  assert (Vp : pairs (view (nlPm s2)) = vp) by (unfold pairs, view, setOW; cbn; rewrite W2, St2; reflexivity).
  assert (Nv : fitted vp = fitted pdfs) by (unfold vp; rewrite combine_ext_names by reflexivity; rewrite <- Hp; reflexivity).
  assert (Mu : forall k, expected d vp k = qsum (map (fun b => norm_in d b * cont (bdHist (respS m M (fst b))) k) pdfs)).
  { intros k. unfold vp. rewrite expected_map by reflexivity. rewrite <- Hp. reflexivity. }
  assert (Hnd' : NoDup (fitted vp)) by (rewrite Nv; exact Hnd).
  assert (Vn : forall i b st, nth_error vp i = Some (b, st) -> exists o, nth_error pdfs i = Some (o, st) /\ b = respS m M o).
  { intros i b st H. unfold vp in H. rewrite combine_nth_err, nth_error_map in H. rewrite <- Hp. unfold pairs. rewrite combine_nth_err.
    destruct (nth_error (emOrig (nlPm s)) i) as [o|]; cbn [option_map] in H; [|discriminate]. destruct (nth_error (emStat (nlPm s)) i) as [x|]; [|discriminate]. injection H as <- <-. eauto. }
  assert (Hdf' : direct_first vp).
  { intros i j bi bj Hi Hj. destruct (Vn _ _ _ Hi) as [oi [Hi' _]]. destruct (Vn _ _ _ Hj) as [oj [Hj' _]]. exact (Hdf i j oi oj Hi' Hj'). }
  assert (Hcov' : covers D vp).
  { apply Forall_forall. intros [b st] Hin. destruct (In_nth_error _ _ Hin) as [i Hi]. destruct (Vn _ _ _ Hi) as [o [Ho ->]]. apply nth_error_In in Ho. unfold covers in Hcov. rewrite Forall_forall in Hcov.
    destruct (Hcov _ Ho) as [X Y]. cbn [fst] in *. destruct (respS_reach m M o X) as [X' Y']. split; [exact X'|rewrite Y'; exact Y]. }
  assert (R : rdyS names par build obs d D vp s2) by (constructor; auto; congruence).
  assert (ND : nlData s2 = D) by congruence.
  assert (Hl : forall k, In k (seq 0 (hNBins (bdHist (nlData s2)))) -> (k < hNBins (bdHist D))%nat) by (intros k Hk; rewrite ND in Hk; apply in_seq in Hk; lia).
  unfold nl_eval. rewrite E2.
  pose proof (loop6 names par build obs d D vp Hnd' Hdf' Hcov' HD (seq 0 (hNBins (bdHist (nlData s2)))) s2 (Ok 0%R) R Hl (or_intror (ex_intro _ 0%R eq_refl))) as LL.
  set (mu := fun k => _). assert (Em : expected d vp = mu) by (apply FunctionalExtensionality.functional_extensionality; exact Mu).
  rewrite Em in LL. unfold acc6 in LL. rewrite Em in LL. rewrite ND in LL. unfold outcome. rewrite ND.
  destruct (existsb (fun k => qeqb (mu k) 0) (seq 0 (hNBins (bdHist D)))).
  - destruct (nl_loop s2 _ (Ok 0%R)) as [s3 r]. cbn [snd] in LL. rewrite LL. reflexivity.
  - destruct LL as [s3 [E3 [C3 S3]]].
    rewrite E3. cbn [snd]. pose proof (stays_trans _ _ _ S2 S3) as [B1 [B2 [B3 [B4 [B5 [B6 [B7 [B8 [[B9 B9'] [B10 B11]]]]]]]]]].
    rewrite (Sg s3 C3 B3 B5 B9 (B10 d Hh)). cbn [bind]. rewrite B1. destruct (cman_eval (nlCm s) p); try reflexivity.
    destruct (forallb _ _); cbn [rlift2]; [|reflexivity]. f_equal. ring.
Qed.
Lemma evals6 n : forall s, calmS s -> let s' := nlrun s (repeat NEval n) in calmS s' /\ stays s s'.
Proof.
  induction n as [|n IH]; intros s C; cbv zeta; cbn [repeat nlrun fold_left nldo]; [split; [exact C|apply stays_refl]|].
  destruct (evalS names par build obs s C) as [C1 S1]. destruct (IH _ C1) as [C2 S2]. split; [exact C2|eapply stays_trans; eassumption].
Qed.
End Eval6.
