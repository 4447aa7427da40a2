(** C98: the value of a likelihood with buffers and systematics; packaged. *)
From Coq Require Import ZArith Reals Lia.
From Verif Require Import Base.Res Base.Num Base.RNum Base.SMap Model.Axis Model.Event Model.Cut Model.Hist Model.ED Model.Param Model.Matrix Model.SystMan Model.Shrink Model.EDMan
  Model.Fill Model.Constraint Model.NLLH Spec.AxisSpec Spec.HistSpec Spec.ParamSpec Spec.EDManSpec Spec.SystManSpec Spec.NLLHSpec Spec.NLLHSysSpec Spec.ShrinkSpec Spec.BufferSpec
  Proofs.AxisP Proofs.HistP Proofs.HistP2 Proofs.HistP4 Proofs.ParamP Proofs.ParamP2 Proofs.ParamP3 Proofs.EDManP Proofs.EDManP2 Proofs.SystManP Proofs.SystManP2 Proofs.SystManP3 Proofs.NLLHP Proofs.NLLHP2
  Proofs.NLLHP3 Proofs.NLLHS1 Proofs.NLLHS2 Proofs.NLLHS3 Proofs.NLLHS4 Proofs.NLLHS5 Proofs.NLLHS6 Proofs.NLLHS8 Proofs.BufferP1 Proofs.BufferP2 Proofs.BufferP3 Proofs.BufferP4.
Local Open Scope Qc_scope.
Local Open Scope res_scope.

(** the loop over the bins when every bin gives the expectation mu *)
Section Loop.
Variables (P : nllh -> Prop) (n mu : nat -> Qc) (nb : nat).
Hypothesis HP : forall s k, P s -> (k < nb)%nat ->
  snd (nl_bin s k) = (if qeqb (mu k) 0 then Throw std_runtime_error else Ok (poisson_term (n k) (qr (mu k)) 0%R)) /\ P (fst (nl_bin s k)).
Definition accB (acc : res R) (l : list nat) : res R :=
  match acc with
  | Ok a => if forallb (fun k => qltb 0 (mu k)) l then Ok (a + rsum (map (fun k => poisson_nll (qr (n k)) (qr (mu k))) l))%R else NonFinite
  | _ => NonFinite
  end.
Lemma loop_gen l : forall s acc, P s -> (forall k, In k l -> (k < nb)%nat) -> (acc = NonFinite \/ exists a, acc = Ok a) ->
  if existsb (fun k => qeqb (mu k) 0) l then snd (nl_loop s l acc) = Throw std_runtime_error
  else exists s', nl_loop s l acc = (s', Ok (accB acc l)) /\ P s'.
Proof.
  induction l as [|k l IH]; intros s acc R Hl Ha.
  - cbn [existsb nl_loop accB forallb map rsum]. exists s. split; [|exact R]. do 2 f_equal. destruct Ha as [->|[a ->]]; [reflexivity|]. cbn. f_equal. ring.
  - rewrite loop_step. destruct (HP s k R (Hl k (or_introl eq_refl))) as [-> R1]. cbn [existsb]. destruct (qeqb (mu k) 0) eqn:Eq; cbn [orb]; [reflexivity|].
    set (x := poisson_term _ _ _).
    assert (Ex : x = if qltb 0 (mu k) then Ok (poisson_nll (qr (n k)) (qr (mu k))) else NonFinite).
    { unfold x, poisson_term, poisson_nll. destruct (Rlt_dec 0 (qr (mu k))) as [Hr|Hr]; destruct (qltb 0 (mu k)) eqn:Q.
      - f_equal. ring.
      - exfalso. apply qltb_ge in Q. apply qr_le in Q. rewrite qr_0 in Q. exact (Rlt_irrefl _ (Rlt_le_trans _ _ _ Hr Q)).
      - exfalso. apply Hr. rewrite <- qr_0. apply qr_lt. now apply qltb_lt.
      - reflexivity. }
    assert (Hn : forall c, rlift2 Rplus acc c = NonFinite \/ exists a, rlift2 Rplus acc c = Ok a) by (intros c; destruct acc, c; cbn; eauto).
    specialize (IH (fst (nl_bin s k)) (rlift2 Rplus acc x) R1 (fun j Hj => Hl j (or_intror Hj)) (Hn x)).
    destruct (existsb _ l); [exact IH|]. destruct IH as [s' [E C2]]. exists s'. rewrite E. split; [|exact C2].
    do 2 f_equal. rewrite Ex. destruct Ha as [->|[a ->]]; [now destruct (qltb 0 _)|]. unfold accB. cbn [forallb map rsum]. destruct (qltb 0 (mu k)); cbn [rlift2 andb]; [|reflexivity].
    destruct (forallb _ l); [|reflexivity]. f_equal. ring.
Qed.
End Loop.

Section B5.
Variables (names : nat -> string) (par : nat -> comp) (build : nat -> comp -> smat * res unit) (obs : list string).
Variables (bs : list shop) (D D' : bed) (x : shrinker) (nk : nat).
Hypothesis Hmap : sh_setBinMap (configured bs) D = (x, Ok tt).
Hypothesis Hsh : sh_shrink x D = Ok D'.
Hypothesis Hobs : osNames (bdObs D') = obs.
Hypothesis Hbuf : shBuf x <> [].
Hypothesis Hbb : (0 < em_bufferBins x < 2 ^ 31)%Z.
Hypothesis HD : h_reach (bdHist D).
Hypothesis HD' : h_reach (bdHist D') /\ hNBins (bdHist D') = nk.
Hypothesis Hsmall : (Z.of_nat (hNBins (bdHist D)) < 2 ^ 31)%Z.
Hypothesis Hall : forall d, h_reach (bdHist d) -> hAxes (bdHist d) = hAxes (bdHist D) ->
    exists d', sh_shrink x d = Ok d' /\ osNames (bdObs d') = osNames (bdObs d) /\ cut_down bs (bdHist d) (bdHist d') /\ hNBins (bdHist d') = nk.
Notation calmB := (calmB names par build obs bs D D' x).
Notation step := (step bs D D' x).
Variables (d : smap Qc) (pdfs : list (bed * nfs)).
Hypothesis Hnd : NoDup (fitted pdfs).
Hypothesis Hdf : direct_first pdfs.
Hypothesis Hne : pdfs <> [].
Hypothesis Hax : forall b, In b pdfs -> hAxes (bdHist (fst b)) = hAxes (bdHist D).

Lemma mapi_terms (W : bed -> nfs -> bed) (k : nat) : forall os sts ws, List.length ws = List.length os ->
  (forall i o st, nth_error os i = Some o -> nth_error sts i = Some st -> nth_error ws i = Some (W o st)) ->
  map (fun ow => norm_in d (fst (fst ow), snd ow) * cont (bdHist (snd (fst ow))) k) (combine (combine os ws) sts) =
  map (fun b => norm_in d b * cont (bdHist (W (fst b) (snd b))) k) (combine os sts).
Proof.
  induction os as [|o os IH]; intros [|st sts] [|w ws] L H; cbn in L |- *; try discriminate; auto.
  pose proof (H 0%nat o st eq_refl eq_refl) as H0. cbn in H0. injection H0 as <-. f_equal. apply IH; [lia|]. intros i o' st' Ho Hs. exact (H (S i) o' st' Ho Hs).
Qed.
Lemma eval_bufs s p : calmB s -> live s -> holds (nlPm s) d -> nlBB s = false -> pairs (nlPm s) = pdfs -> nl_getParams s = Ok p ->
  (forall s', NLLHS2.calmS names par build obs s' -> nlReg s' = nlReg s -> nlPar s' = nlPar s -> pairs (nlPm s') = pairs (nlPm s) -> holds (nlPm s') d -> nl_getParams s' = Ok p) ->
  let m := nlSm s in let M := fun q => fst (build q (nlPar s q)) in
  (forall g q, In q (sm_grp m g) -> snd (build q (nlPar s q)) = Ok tt) ->
  (forall g, exists n, Forall (fun q => sized n (M q)) (sm_grp m g)) ->
  (forall b, In b pdfs -> Forall (fun q => sized (hNBins (bdHist (fst b))) (M q)) (actS m (fst b))) ->
  (forall b, In b pdfs -> match snd b with NDirect => total (cut_hist x (respS m M (fst b))) <> 0 | NIndirect => total (bdHist (respS m M (fst b))) <> 0 \/ total (cut_hist x (respS m M (fst b))) = 0 | NFalse => True end) ->
  let mu := fun k => qsum (map (fun b => norm_in d b * kept b (cut_hist x (respS m M (fst b))) k) pdfs) in
  snd (nl_eval s) = outcome (cont (bdHist D')) mu (hNBins (bdHist D')) (cman_eval (nlCm s) p).
Proof.
  intros C Lv Hh Hb Hp Eg Sg. cbv zeta. intros HB HG HS HT. set (m := nlSm s) in *. set (M := fun q => fst (build q (nlPar s q))) in *.
  pose proof (cb_loose _ _ _ _ _ _ _ _ _ C) as Lo. pose proof Lo as [[L1 _] L0]. cbn [base setOW emStat emOrig] in L1.
  assert (Inp : forall o, In o (emOrig (nlPm s)) -> exists st, In (o, st) pdfs).
  { intros o Ho. destruct (In_nth_error _ _ Ho) as [i Hi]. destruct (nth_error (emStat (nlPm s)) i) as [st|] eqn:Es.
    - exists st. rewrite <- Hp. unfold pairs. apply (nth_error_In _ i). rewrite combine_nth_err, Hi, Es. reflexivity.
    - apply nth_error_None in Es. assert (i < List.length (emOrig (nlPm s)))%nat by (apply nth_error_Some; congruence). lia. }
  assert (One : emOrig (nlPm s) <> []) by (intros E; apply Hne; rewrite <- Hp; unfold pairs; now rewrite E).
  destruct (preparedB names par build obs bs D D' x nk Hmap Hsh Hobs Hbuf Hbb HD Hsmall Hall s C Lv One) as [s2 [E2 [D2 W2]]]; auto.
  { intros o Ho. destruct (Inp o Ho) as [st Hi]. exact (Hax _ Hi). }
  { intros o Ho. destruct (Inp o Ho) as [st Hi]. exact (HS _ Hi). }
  { intros o st Hi. rewrite Hp in Hi. exact (HT _ Hi). }
  fold m M in W2.
  pose proof (prepB names par build obs bs D D' x Hmap Hsh s C) as S2. rewrite E2 in S2. cbn [fst] in S2. destruct (step_calm names par build obs bs D D' x s s2 C S2) as [C2 _].
  pose proof S2 as [K2 [Lw2 [_ [[F1 [F2 [F3 [F4 [F5 _]]]]] _]]]]. pose proof K2 as [KO [KS _]].
  set (mu := fun k => _).
  set (P := fun s' => step s s' /\ nlData s' = D' /\ emWork (nlPm s') = emWork (nlPm s2)).
  assert (P2 : P s2) by (split; [exact S2|]; split; [exact D2|reflexivity]).
  assert (Or : forall o, In o (emOrig (nlPm s)) -> h_reach (bdHist o)).
  { intros o Ho. pose proof (csOrig _ _ _ _ _ (cbUn _ _ _ _ _ _ _ _ _ C)) as F. cbn in F. rewrite Forall_forall in F. apply F, Ho. }
  assert (Fin : forall o st, In (o, st) pdfs -> In o (emOrig (nlPm s)) -> h_reach (bdHist (final x st (respS m M o))) /\ hNBins (bdHist (final x st (respS m M o))) = nk /\
     forall k b, cont (bdHist (final x st (respS m M o))) k = kept (b, st) (cut_hist x (respS m M o)) k).
  { intros o st Hi Ho. destruct (respS_reach m M o (Or o Ho)) as [R _]. destruct (final_ok bs x nk st _ R) as [_ [A [B [_ E]]]]; [apply Hall; [exact R|]; exact (Hax _ Hi)|exact (HT _ Hi)|]. auto. }
  assert (HP : forall s' k, P s' -> (k < nk)%nat -> snd (nl_bin s' k) = (if qeqb (mu k) 0 then Throw std_runtime_error else Ok (poisson_term (cont (bdHist D') k) (qr (mu k)) 0%R)) /\ P (fst (nl_bin s' k))).
  { intros s' k [Ss [Ds Ws]] Hk. destruct (step_calm names par build obs bs D D' x s s' C Ss) as [Cs _]. pose proof (cb_loose _ _ _ _ _ _ _ _ _ Cs) as Los.
    pose proof Ss as [Ks [_ [_ [[_ [G2 _]] _]]]]. pose proof Ks as [KOs [KSs [KAs _]]].
    assert (Pps : pairs (nlPm s') = pdfs) by (rewrite <- Hp; unfold pairs; now rewrite KOs, KSs).
    destruct (binProb_loose (nlPm s') d k Los) as [B1 [B2 B3]].
    - now rewrite Pps. - now rewrite Pps. - exact (keeps_holds _ _ d Ks Hh).
    - rewrite Ws. intros w Hw. destruct (In_nth_error _ _ Hw) as [i Hi]. assert (Hi2 : (i < List.length (emOrig (nlPm s)))%nat) by (rewrite <- L0, <- Lw2; apply nth_error_Some; congruence).
      destruct (nth_error (emOrig (nlPm s)) i) as [o|] eqn:Eo; [|apply nth_error_None in Eo; lia]. destruct (nth_error (emStat (nlPm s)) i) as [st|] eqn:Es; [|apply nth_error_None in Es; lia].
      rewrite (W2 i o st Eo Es) in Hi. injection Hi as <-. destruct (Fin o st) as [A [B _]]; [rewrite <- Hp; unfold pairs; apply (nth_error_In _ i); rewrite combine_nth_err, Eo, Es; reflexivity|eapply nth_error_In; exact Eo|]. split; [exact A|lia].
    - assert (Emu : qsum (map (fun ow => norm_in d (fst (fst ow), snd ow) * cont (bdHist (snd (fst ow))) k) (combine (combine (emOrig (nlPm s')) (emWork (nlPm s'))) (emStat (nlPm s')))) = mu k).
      { rewrite KOs, KSs, Ws. rewrite (mapi_terms (fun o st => final x st (respS m M o))); [|rewrite Lw2; exact L0|exact W2]. unfold mu. f_equal. unfold pairs in Hp. rewrite Hp.
        apply map_ext_in. intros [o st] Hi. cbn [fst snd]. f_equal. apply Fin; [exact Hi|]. rewrite <- Hp in Hi. apply in_combine_l in Hi. exact Hi. }
      rewrite Emu in B1. split.
      + unfold nl_bin. destruct (em_binProb (nlPm s') k) as [p' r]. cbn [snd] in *. subst r. cbn [bind]. destruct (qeqb (mu k) 0); [reflexivity|].
        destruct HD' as [R1 R2]. rewrite Ds, (data_content D' R1 k) by lia. cbn [bind]. rewrite G2, Hb. reflexivity.
      + unfold nl_bin. destruct (em_binProb (nlPm s') k) as [p' r]. cbn [fst snd] in *. split; [|split; [exact Ds|cbn; now rewrite B3]].
        eapply step_trans; [exact Ss|]. apply (step_pm names par build obs); [exact Cs|exact B2|now rewrite B3]. }
  assert (Nb : hNBins (bdHist D') = nk) by apply HD'.
  pose proof (loop_gen P (cont (bdHist D')) mu nk HP (seq 0 nk) s2 (Ok 0%R) P2) as LL.
  assert (Hl : forall k, In k (seq 0 nk) -> (k < nk)%nat) by (intros k Hk; apply in_seq in Hk; lia). specialize (LL Hl (or_intror (ex_intro _ 0%R eq_refl))).
  unfold nl_eval. rewrite E2, D2, Nb. unfold outcome. destruct (existsb (fun k => qeqb (mu k) 0) (seq 0 nk)).
  - destruct (nl_loop s2 _ (Ok 0%R)) as [s3 r]. cbn [snd] in LL. rewrite LL. reflexivity.
  - destruct LL as [s3 [E3 [S3 _]]]. rewrite E3. cbn [snd]. destruct (step_calm names par build obs bs D D' x s s3 C S3) as [C3 St3].
    pose proof S3 as [K3 [_ [_ [[G1 [G2 [G3 [G4 [G5 _]]]]] _]]]]. pose proof K3 as [KO3 [KS3 _]].
    rewrite <- (getParams_un obs s3). rewrite (Sg (un obs s3)); cbn [un nlReg nlPar nlPm]; auto.
    + cbn [bind]. rewrite G1. unfold accB. destruct (cman_eval (nlCm s) p); try reflexivity. destruct (forallb _ _); cbn [rlift2]; [|reflexivity]. f_equal. ring.
    + apply (cbUn _ _ _ _ _ _ _ _ _ C3).
    + unfold pairs, base. cbn. now rewrite KO3, KS3.
    + exact (keeps_holds _ _ d K3 Hh).
Qed.
End B5.

(** setting up: buffers leave the rest alone *)
Definition dull (o : nlop) : nlop := match o with NBuffer _ _ _ => NOver false | _ => o end.
Definition core (ops : list nlop) : list nlop := map dull ops.
Lemma core_pdfs ops : forall bb, pdfs_from bb (core ops) = pdfs_from bb ops.
Proof. induction ops as [|o ops IH]; intros bb; [reflexivity|]. destruct o as [b g [r|] st| | | | | | y | | | | | |]; cbn [core map dull pdfs_from]; fold (core ops); rewrite ?IH; auto. Qed.
Lemma core_calls ops : forall bb, sys_calls bb (core ops) = sys_calls bb ops.
Proof. induction ops as [|o ops IH]; intros bb; [reflexivity|]. destruct o as [b g [r|] st| | | | | | y | | | | | |]; cbn [core map dull sys_calls]; fold (core ops); rewrite ?IH; auto. Qed.
Lemma core_fold {A} (f : A -> nlop -> A) ops : (forall a n lo up, f a (NBuffer n lo up) = f a (NOver false)) -> forall a, fold_left f (core ops) a = fold_left f ops a.
Proof. intros H. induction ops as [|o ops IH]; intros a; [reflexivity|]. destruct o; cbn [core map dull fold_left]; fold (core ops); rewrite ?H; apply IH. Qed.
Lemma core_reg ops : registered ops -> registered (core ops).
Proof.
  intros [o1 [o2 [-> F]]]. exists (core o1), (core o2). split; [unfold core; now rewrite map_app|]. unfold core. rewrite Forall_map. eapply Forall_impl; [|exact F]. now intros [].
Qed.
Lemma core_steady obs ops : Forall (setting_up obs) ops -> Forall (steady obs) (core ops).
Proof. intros F. unfold core. rewrite Forall_map. eapply Forall_impl; [|exact F]. intros []; cbn; auto. Qed.
Lemma puts_sh l : forall u y, fold_left nl_putComp l (nl_withSh u y) = nl_withSh (fold_left nl_putComp l u) y.
Proof. induction l as [|rc l IH]; intros u y; cbn [fold_left]; [reflexivity|]. rewrite <- IH. f_equal. destruct rc as [[|q] c]; [destruct c|]; reflexivity. Qed.
Lemma do_sh obs u y o : setting_up obs o -> (forall n lo up, o <> NBuffer n lo up) -> (forall b, o <> NOver b) -> nldo (nl_withSh u y) o = nl_withSh (nldo u o) y.
Proof.
  intros H H1 H2. destruct o; cbn [setting_up] in H; try contradiction; cbn [nldo]; try reflexivity; try (exfalso; now eapply H1); try (exfalso; now eapply H2).
  - unfold nl_addPdf. cbn [nl_withSh nlBB nlPm]. destruct (match rate with None => nlBB u | Some _ => false end); [reflexivity|].
    destruct (em_addPdf (nlPm u) b st) as [p [[]|e| | |]]; cbn [obind fst]; try reflexivity. cbn [nl_withPm nl_withSh nlSm]. destruct (sm_addDist (nlSm u) (bdName b) groups) as [m [[]|e| | |]]; cbn [obind fst]; try reflexivity.
    destruct rate; reflexivity.
  - unfold nl_addSys. cbn [nl_withSh nlSm]. destruct (sm_add (nlSm u) p g); reflexivity.
  - unfold nl_setNorms. cbn [nl_withSh nlPm]. destruct (em_setNorms (nlPm u) l); reflexivity.
  - unfold nl_setParams. cbn [nl_withSh nlReg]. replace (map (nl_comp (nl_withSh u y)) (nlReg u)) with (map (nl_comp u) (nlReg u)) by (apply map_ext; intros [|q]; reflexivity).
    destruct (cm_setAll _ d) as [cs r]. cbn [fst]. apply puts_sh.
Qed.
Lemma run_core obs ops : Forall (setting_up obs) ops -> forall u y, nlrun (nl_withSh u y) ops = nl_withSh (nlrun u (core ops)) (fold_left sh_do (buffers ops) y).
Proof.
  unfold nlrun. induction 1 as [|o ops H F IH]; intros u y; [reflexivity|]. cbn [fold_left].
  destruct o; try (rewrite (do_sh obs) by (try exact H; discriminate); apply IH).
  - cbn [nldo core map dull buffers fold_left sh_do]. fold (core ops). change (nl_setBuffer (nl_withSh u y) n lo up) with (nl_withSh (nl_setOver u false) (sh_setBuffer y n lo up)). apply IH.
  - cbn [nldo core map dull buffers fold_left sh_do]. fold (core ops). change (nl_setOver (nl_withSh u y) b) with (nl_withSh (nl_setOver u b) (sh_setOver y b)). apply IH.
Qed.
Lemma run_shrunk obs ops : Forall (setting_up obs) ops -> forall s, nlShrunk s = false -> nlShrunk (nlrun s ops) = false.
Proof.
  unfold nlrun. induction 1 as [|o ops H F IH]; intros s E; [exact E|]. cbn [fold_left]. apply IH. destruct o; cbn [setting_up] in H; try contradiction; cbn [nldo]; auto.
  - unfold nl_addPdf. destruct (match rate with None => nlBB s | Some _ => false end); [exact E|].
    destruct (em_addPdf (nlPm s) b st) as [p [[]|e| | |]]; cbn [obind fst]; try exact E. cbn [nl_withPm nlSm]. destruct (sm_addDist (nlSm s) (bdName b) groups) as [m [[]|e| | |]]; cbn [obind fst]; try exact E.
    destruct rate; exact E.
  - unfold nl_addSys. destruct (sm_add (nlSm s) p g); exact E.
  - unfold nl_setNorms. destruct (em_setNorms (nlPm s) l); exact E.
  - unfold nl_setParams. destruct (cm_setAll _ d) as [cs r]. cbn [fst]. generalize (combine (nlReg s) cs). intros l. revert s E. induction l as [|rc l IHl]; intros s E; cbn [fold_left]; [exact E|]. apply IHl. destruct rc as [[|q] c]; [destruct c|]; exact E.
Qed.
