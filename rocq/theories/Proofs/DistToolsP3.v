(** Proofs for C82: conversion from ROOT histograms, and the round trip. *)
From Coq Require Import ZArith.
From Verif Require Import Base.Res Base.Num Base.SMap Model.Axis Model.Hist Model.Comp Model.DistTools Spec.AxisSpec Spec.HistSpec Spec.ConstraintSpec Spec.DistToolsSpec.
From Verif Require Import Proofs.AxisP Proofs.AxisP2 Proofs.HistP Proofs.HistP2 Proofs.HistP4 Proofs.CompP2 Proofs.InterpP Proofs.HistToolsP3 Proofs.IOP4 Proofs.DistToolsP Proofs.DistToolsP2.
Local Open Scope Qc_scope.
Local Open Scope res_scope.

(** the axis made of one ROOT axis *)
Definition axis_from (et : list Qc * string) (a : axis) : Prop :=
  built a /\ aName a = snd et /\ aNBins a = (List.length (fst et) - 1)%nat /\ aMin a = first_edge (fst et) /\ aMax a = last_edge (fst et) /\ evenly a.
Lemma from_ok et : (2 <= List.length (fst et))%nat -> first_edge (fst et) < last_edge (fst et) ->
  exists a, mk_equal (snd et) (nth 0 (fst et) 0) (nth (thNb (fst et)) (fst et) 0) (thNb (fst et)) "" = Ok a /\ axis_from et a.
Proof.
  intros L H. destruct (mk_equal_full (snd et) (nth 0 (fst et) 0) (nth (thNb (fst et)) (fst et) 0) (thNb (fst et)) "") as [_ P].
  destruct P as [a [E _]]; [exact H|unfold thNb; lia|]. exists a. split; [exact E|]. split; [exact (built_equal a _ _ _ _ _ E)|].
  apply mk_equal_ok in E as [_ [Hn ->]]. cbn [aName aNBins aMin aMax]. unfold thNb in *. repeat (split; [reflexivity|]).
  intros i Hi. unfold lo_of, hi_of. cbn [aLow aHigh aMin aMax aNBins] in *. rewrite !nth_map_seq by exact Hi. rewrite qn_S. split; reflexivity.
Qed.
Lemma from_bad et : ~ first_edge (fst et) < last_edge (fst et) ->
  mk_equal (snd et) (nth 0 (fst et) 0) (nth (thNb (fst et)) (fst et) 0) (thNb (fst et)) "" = Throw LogicError.
Proof.
  intros H. destruct (mk_equal_full (snd et) (nth 0 (fst et) 0) (nth (thNb (fst et)) (fst et) 0) (thNb (fst et)) "") as [P _].
  apply P. left. destruct (qleb_spec (nth (thNb (fst et)) (fst et) 0) (nth 0 (fst et) 0)) as [K|K]; [exact K|]. exfalso. apply H. exact K.
Qed.
Definition mkAxes (l : list (list Qc * string)) (acc : axcol) : res axcol :=
  foldM (fun ac et => do a <- mk_equal (snd et) (nth 0 (fst et) 0) (nth (thNb (fst et)) (fst et) 0) (thNb (fst et)) ""; addAxis ac a) l acc.
Lemma mkAxes_spec l : Forall (fun et => (2 <= List.length (fst et))%nat) l -> forall acc, ac_reach acc ->
  (forall ac, mkAxes l acc = Ok ac -> ac_reach ac /\ Forall (fun et => first_edge (fst et) < last_edge (fst et)) l /\ NoDup (map aName (acAxes acc) ++ map snd l) /\
     exists axs, acAxes ac = acAxes acc ++ axs /\ Forall2 axis_from l axs) /\
  (Forall (fun et => first_edge (fst et) < last_edge (fst et)) l -> NoDup (map aName (acAxes acc) ++ map snd l) -> exists ac, mkAxes l acc = Ok ac) /\
  (Forall (fun et => first_edge (fst et) < last_edge (fst et)) l -> ~ NoDup (map aName (acAxes acc) ++ map snd l) -> mkAxes l acc = Throw ValueError) /\
  (~ Forall (fun et => first_edge (fst et) < last_edge (fst et)) l -> NoDup (map aName (acAxes acc) ++ map snd l) -> mkAxes l acc = Throw LogicError).
Proof.
  unfold mkAxes. induction l as [|et l IH]; intros HL acc Hr.
  - cbn [foldM map]. pose proof (ac_reach_ok acc Hr) as [_ [_ [_ [_ [ND _]]]]]. rewrite app_nil_r. split; [|split; [|split]].
    + intros ac E. injection E as <-. split; [exact Hr|]. split; [constructor|]. split; [exact ND|]. exists []. rewrite app_nil_r. split; [reflexivity|constructor].
    + intros _ _. eexists; reflexivity.
    + intros _ C. contradiction.
    + intros C. exfalso. apply C. constructor.
  - inversion HL as [|? ? L1 L2]; subst. cbn [foldM map]. pose proof (ac_reach_ok acc Hr) as Hok. pose proof Hok as [_ [_ [_ [_ [ND _]]]]].
    destruct (qltb_spec (first_edge (fst et)) (last_edge (fst et))) as [R|R].
    + destruct (from_ok et L1 R) as [a [E A]]. rewrite E. cbn [bind]. pose proof A as [Hb [An _]].
      destruct (in_dec string_dec (aName a) (map aName (acAxes acc))) as [I|I].
      * rewrite (addAxis_dup acc a I). cbn [bind]. rewrite An in I. split; [discriminate|]. split; [|split; [reflexivity|]].
        -- intros _ N. exfalso. apply NoDup_remove_2 in N. apply N. apply in_or_app. now left.
        -- intros _ N. exfalso. apply NoDup_remove_2 in N. apply N. apply in_or_app. now left.
      * destruct (addAxis_new acc a I) as [ac1 E1]. rewrite E1. cbn [bind]. assert (R1 : ac_reach ac1) by (eapply ar_add; eassumption).
        assert (X1 : acAxes ac1 = acAxes acc ++ [a]). { unfold addAxis in E1. destruct (hasAxis acc (aName a)); [discriminate|]. injection E1 as <-. reflexivity. }
        destruct (IH L2 ac1 R1) as [P1 [P2 [P3 P4]]].
        assert (NE : map aName (acAxes ac1) ++ map snd l = map aName (acAxes acc) ++ snd et :: map snd l).
        { rewrite X1, map_app, <- app_assoc. cbn [map app]. now rewrite An. }
        rewrite NE in *. split; [|split; [|split]].
        -- intros ac Ea. destruct (P1 ac Ea) as [Q1 [Q2 [Q3 [axs [Q4 Q5]]]]]. split; [exact Q1|]. split; [constructor; assumption|]. split; [exact Q3|].
           exists (a :: axs). rewrite Q4, X1, <- app_assoc. split; [reflexivity|]. constructor; assumption.
        -- intros F N. inversion F; subst. apply P2; assumption.
        -- intros F N. inversion F; subst. apply P3; assumption.
        -- intros F N. apply P4; [|exact N]. intros C. apply F. constructor; assumption.
    + assert (R' : ~ first_edge (fst et) < last_edge (fst et)) by (intros C; qlra). rewrite (from_bad et R'). cbn [bind].
      split; [discriminate|]. split; [|split; [|reflexivity]]; intros F; inversion F; contradiction.
Qed.

(** storing bin by bin *)
Lemma put_loop {A} (step : hist -> A -> res hist) (g : A -> list nat) (val : list nat -> Qc) (h0 : hist) : h_ok h0 -> forall L h, same_shape h0 h ->
  (forall h1 x, In x L -> same_shape h0 h1 -> in_shape (shape_of h0) (g x) /\ step h1 x = ret (put h1 (rowmajor (shape_of h0) (g x)) (val (g x)))) ->
  exists h', foldM step L h = Ok h' /\ same_shape h0 h' /\
    forall idx, in_shape (shape_of h0) idx -> cont h' (rowmajor (shape_of h0) idx) = if in_dec (list_eq_dec Nat.eq_dec) idx (map g L) then val idx else cont h (rowmajor (shape_of h0) idx).
Proof.
  intros H0. induction L as [|x L IH]; intros h HS HP; cbn [foldM].
  - exists h. split; [reflexivity|]. split; [exact HS|]. intros idx _. destruct (in_dec _ idx (map g [])) as [[]|]. reflexivity.
  - destruct (HP h x (or_introl eq_refl) HS) as [Sx Ex]. rewrite Ex. assert (Hh : h_ok h) by (eapply same_shape_ok; eassumption).
    assert (NB : hNBins h = hNBins h0) by (destruct HS as [_ [-> _]]; reflexivity).
    pose proof (rowmajor_lt _ _ Sx) as Lx. rewrite <- (h_ok_nbins h0 H0) in Lx.
    destruct (put_ok h (rowmajor (shape_of h0) (g x)) (val (g x)) Hh ltac:(lia)) as [h1 [E1 [S1 N1]]]. rewrite E1. cbn [ret bind].
    assert (HS1 : same_shape h0 h1) by (eapply same_shape_trans; eassumption).
    destruct (IH h1 HS1) as [h' [E' [S' N']]]; [intros h2 y Hy; apply HP; now right|].
    exists h'. split; [exact E'|]. split; [exact S'|]. intros idx Hs. rewrite N' by exact Hs. rewrite N1. cbn [map].
    destruct (in_dec (list_eq_dec Nat.eq_dec) idx (map g L)) as [I|I], (in_dec (list_eq_dec Nat.eq_dec) idx (g x :: map g L)) as [J|J]; try reflexivity.
    + exfalso. apply J. now right.
    + destruct J as [J|J]; [|contradiction]. subst idx. rewrite Nat.eqb_refl. reflexivity.
    + destruct (Nat.eqb_spec (rowmajor (shape_of h0) idx) (rowmajor (shape_of h0) (g x))) as [Q|Q]; [|reflexivity].
      exfalso. apply J. left. symmetry. apply (rowmajor_inj (shape_of h0)); assumption.
Qed.
Lemma nested_tuples ns : nested ns = map root_bin (tuples ns).
Proof.
  induction ns as [|n ns IH]; [reflexivity|]. cbn [nested tuples]. rewrite IH, <- seq_shift, flat_map_map.
  rewrite flat_map_concat_map, map_map, <- flat_map_concat_map. apply flat_map_ext. intros i. rewrite !map_map. reflexivity.
Qed.
Lemma pred_root idx : map (fun i => (i - 1)%nat) (root_bin idx) = idx.
Proof. unfold root_bin. rewrite map_map. rewrite <- (map_id idx) at 2. apply map_ext. intros i. cbn. lia. Qed.
Lemma from_shape l axs : Forall2 axis_from l axs -> map aNBins axs = map (fun et => (List.length (fst et) - 1)%nat) l.
Proof. induction 1 as [|et a l axs [_ [_ [E _]]] _ IH]; [reflexivity|]. cbn [map]. now rewrite E, IH. Qed.
Lemma map_fst_combine {A B} (l : list A) (m : list B) : List.length l = List.length m -> map fst (combine l m) = l /\ map snd (combine l m) = m.
Proof. revert m. induction l as [|x l IH]; intros [|y m] H; cbn in H; try discriminate; [split; reflexivity|]. cbn [combine map fst snd]. destruct (IH m) as [-> ->]; [lia|]. split; reflexivity. Qed.
Lemma setBin_lt h b w : (b < hNBins h)%nat -> setBinContent h b w = put h b w.
Proof. intros H. unfold setBinContent. destruct (Nat.ltb_spec (hNBins h) b); [lia|reflexivity]. Qed.
Lemma comb_forall (P : list Qc -> Prop) (t : th) d : th_ok d t -> (Forall (fun et => P (fst et)) (combine (thEdges t) (thTitles t)) <-> Forall P (thEdges t)).
Proof.
  intros [L1 [L2 _]]. destruct (map_fst_combine (thEdges t) (thTitles t) ltac:(congruence)) as [E _]. rewrite <- E at 2. rewrite Forall_map. reflexivity.
Qed.
Lemma thAxes_pkg d t : th_ok d t ->
  (forall ac, thAxes t = Ok ac -> ac_reach ac /\ ranges_ok t /\ NoDup (thTitles t) /\ Forall2 axis_from (combine (thEdges t) (thTitles t)) (acAxes ac)) /\
  (ranges_ok t -> NoDup (thTitles t) -> exists ac, thAxes t = Ok ac) /\
  (ranges_ok t -> ~ NoDup (thTitles t) -> thAxes t = Throw ValueError) /\
  (~ ranges_ok t -> NoDup (thTitles t) -> thAxes t = Throw LogicError).
Proof.
  intros Ht. pose proof Ht as [L1 [L2 L3]]. destruct (map_fst_combine (thEdges t) (thTitles t) ltac:(congruence)) as [_ E2].
  destruct (mkAxes_spec (combine (thEdges t) (thTitles t))) with (acc := ac_empty) as [P1 [P2 [P3 P4]]].
  { apply (comb_forall (fun e => (2 <= List.length e)%nat) t d Ht). exact L3. }
  { constructor. }
  cbn [acAxes ac_empty map app] in *. rewrite E2 in *. pose proof (comb_forall (fun e => first_edge e < last_edge e) t d Ht) as CF. unfold ranges_ok. rewrite CF in *.
  change (thAxes t) with (mkAxes (combine (thEdges t) (thTitles t)) ac_empty). split; [|split; [|split]]; auto.
  intros ac E. destruct (P1 ac E) as [Q1 [Q2 [Q3 [axs [Q4 Q5]]]]]. rewrite Q4. rewrite CF in Q2. split; [exact Q1|]. split; [exact Q2|]. split; assumption.
Qed.
Lemma set_reach_loop {A} (step : hist -> A -> res hist) L : (forall h x h', h_reach h -> step h x = Ok h' -> h_reach h') -> forall h h', h_reach h -> foldM step L h = Ok h' -> h_reach h'.
Proof.
  intros H. induction L as [|x L IH]; intros h h' Hr E; cbn [foldM] in E; [injection E as <-; exact Hr|].
  destruct (step h x) as [h1| | | |] eqn:E1; cbn [bind] in E; try discriminate. apply (IH h1); [eapply H; eassumption|exact E].
Qed.
Lemma ret_set h b v h' : h_reach h -> ret (setBinContent h b v) = Ok h' -> h_reach h'.
Proof.
  intros Hr E. destruct (setBinContent h b v) as [h1 o] eqn:E1. cbn [ret] in E. destruct o; cbn [bind] in E; try discriminate. injection E as <-.
  replace h1 with (fst (setBinContent h b v)) by (rewrite E1; reflexivity). constructor. exact Hr.
Qed.
Lemma loop_from {A} d t ac (step : hist -> A -> res hist) (g : A -> list nat) L : th_ok d t -> d <> 0%nat -> thAxes t = Ok ac ->
  map g L = tuples (th_shape t) ->
  (forall h x h', h_reach h -> step h x = Ok h' -> h_reach h') ->
  (forall h1 x, In x L -> same_shape (mk_hist ac) h1 -> in_shape (th_shape t) (g x) ->
     step h1 x = ret (setBinContent h1 (rowmajor (th_shape t) (g x)) (thCont t (root_bin (g x))))) ->
  exists h, foldM step L (mk_hist ac) = Ok h /\ from_root t h.
Proof.
  intros Ht Hd E HL Hreach Hst. destruct (thAxes_pkg d t Ht) as [P _]. destruct (P ac E) as [Hr [_ [_ HF]]]. pose proof (ac_reach_ok ac Hr) as Hok.
  pose proof Ht as [L1 [L2 _]]. destruct (map_fst_combine (thEdges t) (thTitles t) ltac:(congruence)) as [E1 E2].
  assert (SH : map aNBins (acAxes ac) = th_shape t).
  { rewrite (from_shape _ _ HF). unfold th_shape. rewrite <- E1 at 2. rewrite map_map. reflexivity. }
  assert (Hne : acAxes ac <> []).
  { intros C. rewrite C in HF. inversion HF as [Q|]. rewrite <- Q in E1. cbn in E1. rewrite <- E1 in L1. cbn in L1. lia. }
  pose proof (mk_hist_ok ac Hok Hne) as H0.
  assert (S0 : shape_of (mk_hist ac) = th_shape t) by exact SH.
  destruct (put_loop step g (fun idx => thCont t (root_bin idx)) (mk_hist ac) H0 L (mk_hist ac) (same_shape_refl _)) as [h [Eh [Sh Ch]]].
  - intros h1 x Hx Hs. assert (In (g x) (tuples (th_shape t))) as I by (rewrite <- HL; apply in_map; exact Hx). apply in_tuples in I.
    rewrite S0. split; [exact I|]. rewrite Hst by assumption. rewrite setBin_lt; [reflexivity|].
    destruct Hs as [_ [-> _]]. rewrite (h_ok_nbins _ H0), S0. apply rowmajor_lt. exact I.
  - exists h. split; [exact Eh|]. pose proof Sh as [SA _]. unfold from_root.
    assert (RH : h_reach h). { eapply set_reach_loop; [exact Hreach| |exact Eh]. apply hr_new; assumption. }
    split; [exact RH|]. split; [unfold shape_of; rewrite SA; exact SH|]. split; [|split].
    + unfold names_of. rewrite SA. cbn [hAxes mk_hist setAxes]. rewrite <- E2. clear -HF. induction HF as [|et a l axs [_ [N _]] _ IH]; [reflexivity|]. cbn [map]. now rewrite N, IH.
    + rewrite SA. cbn [hAxes mk_hist setAxes]. rewrite <- E1. clear -HF. induction HF as [|et a l axs [_ [_ [_ [M1 [M2 M3]]]]] _ IH]; [constructor|]. cbn [map]. constructor; [|exact IH]. repeat split; try assumption; apply M3; assumption.
    + intros idx Hi. unfold cont_at. replace (shape_of h) with (shape_of (mk_hist ac)) by (unfold shape_of; now rewrite SA).
      rewrite Ch by (rewrite S0; exact Hi). destruct (in_dec _ idx (map g L)) as [I|I]; [reflexivity|]. exfalso. apply I. rewrite HL. apply in_tuples, Hi.
Qed.
Lemma ofTHn_pkg d t : d <> 0%nat -> th_ok d t -> outcome t (ofTHn t).
Proof.
  intros Hd Ht. destruct (thAxes_pkg d t Ht) as [P1 [P2 [P3 P4]]]. unfold outcome, ofTHn.
  assert (K : forall ac, thAxes t = Ok ac -> exists h, foldM (fun h ix => do k <- flatten (hAxes h) (map (fun i => (i - 1)%nat) ix); ret (setBinContent h k (thCont t ix))) (nested (map thNb (thEdges t))) (mk_hist ac) = Ok h /\ from_root t h).
  { intros ac E. destruct (P1 ac E) as [Hr [_ [_ HF]]]. pose proof (ac_reach_ok ac Hr) as Hok. apply (loop_from d) with (g := map (fun i => (i - 1)%nat)); try assumption.
    - rewrite nested_tuples, map_map. unfold th_shape. change thNb with (fun e : list Qc => (List.length e - 1)%nat).
      rewrite <- (map_id (tuples _)) at 2. apply map_ext. intros idx. apply pred_root.
    - intros h x h' H Ex. destruct (flatten _ _) as [k| | | |]; cbn [bind] in Ex; try discriminate. eapply ret_set; eassumption.
    - intros h1 x Hx Hs Hg. pose proof Hs as [SA _]. rewrite SA. cbn [hAxes mk_hist setAxes].
      assert (EX : x = root_bin (map (fun i => (i - 1)%nat) x)).
      { rewrite nested_tuples in Hx. apply in_map_iff in Hx as [idx [<- _]]. now rewrite pred_root. }
      assert (SH : map aNBins (acAxes ac) = th_shape t).
      { pose proof Ht as [L1 [L2 _]]. destruct (map_fst_combine (thEdges t) (thTitles t) ltac:(congruence)) as [E1 E2].
        rewrite (from_shape _ _ HF). unfold th_shape. rewrite <- E1 at 2. rewrite map_map. reflexivity. }
      rewrite flatten_rowmajor; [unfold ac_nb; rewrite SH; cbn [bind]; rewrite <- EX; reflexivity|exact Hok| |].
      + intros C. rewrite C in SH. rewrite <- SH in Hg. inversion Hg as [Q|]. destruct Ht as [L1 _]. apply Hd. rewrite <- L1. rewrite <- (map_length (fun e : list Qc => (List.length e - 1)%nat)). change (List.length (th_shape t) = 0%nat). rewrite <- SH. reflexivity.
      + rewrite (in_shape_length _ _ Hg), <- SH. apply map_length. }
  split; [|split; [|split]].
  - intros R N. destruct (P2 R N) as [ac E]. rewrite E. cbn [bind]. destruct (K ac E) as [h [Eh _]]. exists h. exact Eh.
  - intros h E. destruct (thAxes t) as [ac| | | |] eqn:EA; cbn [bind] in E; try discriminate. destruct (P1 ac eq_refl) as [_ [R [N _]]].
    destruct (K ac eq_refl) as [h2 [E2 F]]. rewrite E in E2. injection E2 as <-. repeat split; try assumption; apply F; assumption.
  - intros R N. rewrite (P3 R N). reflexivity.
  - intros R N. rewrite (P4 R N). reflexivity.
Qed.
Lemma ofTH1D_pkg t : th_ok 1 t -> outcome t (ofTH1D t).
Proof.
  intros Ht. destruct (thAxes_pkg 1 t Ht) as [P1 [P2 [P3 P4]]]. unfold outcome, ofTH1D.
  assert (K : forall ac, thAxes t = Ok ac -> exists h, foldM (fun h i => ret (setBinContent h (i - 1) (thCont t [i]))) (seq 1 (thNb (nth 0 (thEdges t) []))) (mk_hist ac) = Ok h /\ from_root t h).
  { intros ac E. pose proof Ht as [L1 _]. apply (loop_from 1) with (g := fun i => [(i - 1)%nat]); try assumption; try discriminate.
    - unfold th_shape. destruct (thEdges t) as [|e [|]]; try discriminate. cbn [nth map tuples]. change (List.length e - 1)%nat with (thNb e).
      rewrite <- seq_shift, map_map. induction (seq 0 (thNb e)) as [|i l IH]; [reflexivity|]. cbn [map flat_map app]. rewrite IH. f_equal. f_equal. lia.
    - intros h x h' H Ex. eapply ret_set; eassumption.
    - intros h1 x Hx Hs Hg. apply in_seq in Hx. unfold th_shape. destruct (thEdges t) as [|e [|]]; try discriminate. cbn [map rowmajor prod root_bin].
      replace (S (x - 1)) with x by lia. replace ((x - 1) * 1 + 0)%nat with (x - 1)%nat by lia. reflexivity. }
  split; [|split; [|split]].
  - intros R N. destruct (P2 R N) as [ac E]. rewrite E. cbn [bind]. destruct (K ac E) as [h [Eh _]]. exists h. exact Eh.
  - intros h E. destruct (thAxes t) as [ac| | | |] eqn:EA; cbn [bind] in E; try discriminate. destruct (P1 ac eq_refl) as [_ [R [N _]]].
    destruct (K ac eq_refl) as [h2 [E2 F]]. rewrite E in E2. injection E2 as <-. repeat split; try assumption; apply F; assumption.
  - intros R N. rewrite (P3 R N). reflexivity.
  - intros R N. rewrite (P4 R N). reflexivity.
Qed.
