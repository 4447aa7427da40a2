(** C98: shrinking as the likelihood uses it. *)
From Coq Require Import ZArith Lia.
From Verif Require Import Base.Res Base.Num Base.SMap Model.Axis Model.Event Model.Hist Model.ED Model.Shrink Model.EDMan
  Spec.AxisSpec Spec.HistSpec Spec.ShrinkSpec Spec.EDManSpec Spec.NLLHSpec Spec.BufferSpec
  Proofs.AxisP Proofs.HistP Proofs.HistP2 Proofs.HistP4 Proofs.ShrinkP Proofs.ShrinkP2 Proofs.ShrinkP3.
Local Open Scope Qc_scope.
Local Open Scope res_scope.

Lemma ac_ok_ext a b : ac_ok a -> ac_ok b -> acAxes a = acAxes b -> a = b.
Proof.
  intros [A1 [A2 [A3 [A4 _]]]] [B1 [B2 [B3 [B4 _]]]] E. destruct a, b. cbn in *. subst. congruence.
Qed.
Lemma ac_of_list l : NoDup (map aName l) -> Forall built l -> exists ac, ac_reach ac /\ acAxes ac = l.
Proof.
  induction l as [|a l IH] using rev_ind; intros N F; [exists ac_empty; split; [constructor|reflexivity]|].
  rewrite map_app in N. apply Forall_app in F as [F1 F2]. inversion F2 as [|? ? Ha _]; subst.
  assert (N1 : NoDup (map aName l) /\ ~ In (aName a) (map aName l)).
  { cbn [map] in N. apply NoDup_remove in N. rewrite app_nil_r in N. exact N. }
  destruct (IH (proj1 N1) F1) as [ac [R E]].
  assert (Hh : hasAxis ac (aName a) = false).
  { destruct (hasAxis ac (aName a)) eqn:Hx; [|reflexivity]. exfalso. apply (proj2 N1). rewrite <- E. apply hasAxis_in. exact Hx. }
  destruct (addAxis ac a) as [ac'| | | |] eqn:Ea; try (exfalso; unfold addAxis in Ea; rewrite Hh in Ea; discriminate).
  exists ac'. split; [eapply ar_add; eassumption|]. unfold addAxis in Ea. rewrite Hh in Ea. injection Ea as <-. cbn. now rewrite E.
Qed.
Lemma ok_reach ac : ac_ok ac -> ac_reach ac.
Proof.
  intros H. pose proof H as [_ [_ [_ [_ [N F]]]]]. destruct (ac_of_list _ N F) as [ac' [R E]].
  rewrite <- (ac_ok_ext ac' ac (ac_reach_ok _ R) H E). exact R.
Qed.
Lemma h_ok_reach h : h_ok h -> h_reach h.
Proof.
  intros [A [B [C [D L]]]]. pose proof (hr_setBins (mk_hist (hAxes h)) (hCont h) (hr_new _ (ok_reach _ A) B)) as Q.
  unfold setBinContents in Q. cbn [mk_hist setAxes hNBins] in Q. rewrite L, C, Nat.eqb_refl in Q. cbn [negb fst] in Q.
  destruct h as [ax ct nb nd]. cbn in *. subst. exact Q.
Qed.

Definition pairsum (x : Z * Z) : Z := (fst x + snd x)%Z.
Definition psum (l : list (Z * Z)) : Z := fold_right (fun x a => pairsum x + a)%Z 0%Z l.
Lemma psum_cons x l : psum (x :: l) = (fst x + snd x + psum l)%Z. Proof. reflexivity. Qed.
Definition signs (l : list (Z * Z)) : Prop := forall x, In x l -> (0 <= fst x /\ 0 <= snd x)%Z.
Lemma signs_cons x l : signs (x :: l) -> (0 <= fst x /\ 0 <= snd x)%Z /\ signs l.
Proof. intros H. split; [apply H; now left|]. intros y Hy. apply H. now right. Qed.
Lemma psum_nonneg l : signs l -> (0 <= psum l)%Z.
Proof. induction l as [|x l IH]; intros H; [cbn; lia|]. apply signs_cons in H as [Hx H]. rewrite psum_cons. specialize (IH H). lia. Qed.
Lemma psum_pos l x : signs l -> In x l -> (0 < fst x + snd x)%Z -> (0 < psum l)%Z.
Proof.
  induction l as [|y l IH]; intros H Hi Hx; [destruct Hi|]. apply signs_cons in H as [Hy H]. rewrite psum_cons. pose proof (psum_nonneg l H).
  destruct Hi as [<-|Hi]; [lia|]. specialize (IH H Hi Hx). lia.
Qed.
Lemma sset_sum n v m : signs (map snd m) -> (psum (map snd (sset n v m)) <= psum (map snd m) + (fst v + snd v))%Z.
Proof.
  induction m as [|[k w] m IH]; intros H; cbn [sset map snd] in *; [rewrite psum_cons; cbn; lia|].
  pose proof H as H0. apply signs_cons in H as [Hw H]. specialize (IH H). destruct (String.compare n k); cbn [map snd]; rewrite !psum_cons; lia.
Qed.
Lemma sset_vals {V} n (v : V) m x : In x (map snd (sset n v m)) -> x = v \/ In x (map snd m).
Proof.
  induction m as [|[k w] m IH]; cbn [sset map snd In]; [intros [<-|[]]; auto|]. destruct (String.compare n k); cbn [map snd In]; intros H; cbn [In] in *; intuition auto.
Qed.
Lemma conf_sum bs : unsigned_sizes bs -> forall s, signs (map snd (shBuf s)) ->
  let m := shBuf (fold_left sh_do bs s) in signs (map snd m) /\ (psum (map snd m) <= psum (map snd (shBuf s)) + sizes bs)%Z.
Proof.
  induction bs as [|o bs IH]; intros Hu s Hs; cbn [fold_left]; [split; [exact Hs|cbn [sizes fold_right]; lia]|].
  assert (Hu' : unsigned_sizes bs) by (intros n lo up Hi; apply (Hu n lo up); now right).
  destruct o as [n lo up|b]; cbn [sh_do].
  - destruct (Hu n lo up (or_introl eq_refl)) as [H1 H2]. destruct (IH Hu' (sh_setBuffer s n lo up)) as [A B].
    + cbn [sh_setBuffer shBuf]. intros x Hx. apply sset_vals in Hx as [->|Hx]; [|auto]. cbn [fst snd]. rewrite !u32_id by lia. lia.
    + split; [exact A|]. cbv zeta in *. cbn [sh_setBuffer shBuf] in B. cbn [sizes fold_right]. fold (sizes bs).
      pose proof (sset_sum n (u32 lo, u32 up) (shBuf s) Hs) as Q. cbn [fst snd] in Q. rewrite !u32_id in * by lia. lia.
  - destruct (IH Hu' (sh_setOver s b)) as [A B]; [exact Hs|]. split; [exact A|exact B].
Qed.
Lemma bufferBins_sum m : forall a, (0 <= a)%Z -> signs (map snd m) -> (a + psum (map snd m) < 2 ^ 31)%Z ->
  fold_left (fun acc (kv : string * (Z * Z)) => s32 (s32 (acc + fst (snd kv)) + snd (snd kv)))%Z m a = (a + psum (map snd m))%Z.
Proof.
  induction m as [|[k w] m IH]; intros a Ha Hx Hs; cbn [fold_left map snd fst] in *; [cbn; lia|].
  rewrite psum_cons in *. apply signs_cons in Hx as [Hw Hx]. pose proof (psum_nonneg _ Hx).
  assert (S : forall z, (0 <= z < 2 ^ 31)%Z -> s32 z = z) by (intros z Hz; unfold s32; rewrite Z.mod_small; lia).
  rewrite (S (a + fst w)%Z) by lia. rewrite S by lia. rewrite IH; [lia|lia|exact Hx|lia].
Qed.
Lemma bufferBins_pos bs a : unsigned_sizes bs -> (sizes bs < 2 ^ 31)%Z -> (0 < lower bs a + upper bs a)%nat ->
  (0 < em_bufferBins (configured bs) < 2 ^ 31)%Z.
Proof.
  intros Hu Hs Ha. destruct (conf_sum bs Hu sh_new) as [A B]; [intros x []|]. cbv zeta in *. fold (configured bs) in *. change (psum (map snd (shBuf sh_new))) with 0%Z in B.
  unfold em_bufferBins. rewrite bufferBins_sum; [|lia|exact A|lia]. split; [|lia].
  destruct (conf_facts bs sh_new Hu) as [_ [_ [_ [_ [F _]]]]]. fold (configured bs) in F. specialize (F (aName a)).
  unfold lower, upper in Ha. change (bufZ (shBuf sh_new) (aName a)) with (0, 0)%Z in F. rewrite <- F in Ha. unfold bufZ in Ha.
  destruct (sfind (aName a) (shBuf (configured bs))) as [x|] eqn:Ex; [|cbn in Ha; lia].
  assert (Hi : In x (map snd (shBuf (configured bs)))).
  { clear -Ex. induction (shBuf (configured bs)) as [|[k w] m IH]; cbn in *; [discriminate|]. destruct (String.eqb (aName a) k); [left; congruence|right; auto]. }
  pose proof (psum_pos _ x A Hi). pose proof (A x Hi). lia.
Qed.

(** SetBinMap on the data and shrinking of distributions over the same axes *)
Lemma shrinks bs (D : bed) : unsigned_sizes bs -> h_reach (bdHist D) -> (Z.of_nat (hNBins (bdHist D)) < 2 ^ 31)%Z ->
  Forall (fun a => (lower bs a + upper bs a < aNBins a)%nat) (acAxes (hAxes (bdHist D))) ->
  Exists (fun a => (0 < lower bs a + upper bs a)%nat) (acAxes (hAxes (bdHist D))) ->
  exists x nk, sh_setBinMap (configured bs) D = (x, Ok tt) /\ shBuf x = shBuf (configured bs) /\ shBuf x <> [] /\
    forall d, h_reach (bdHist d) -> hAxes (bdHist d) = hAxes (bdHist D) ->
    exists d', sh_shrink x d = Ok d' /\ osNames (bdObs d') = osNames (bdObs d) /\ cut_down bs (bdHist d) (bdHist d') /\ hNBins (bdHist d') = nk.
Proof.
  intros Hu Hr Hsmall Hfit Hex.
  assert (Hsb : some_buffer bs).
  { apply Exists_exists in Hex as [a [_ Ha]]. clear -Ha. unfold lower, upper in Ha. unfold some_buffer.
    assert (G : forall bs cur n, (~ exists m lo up, In (SBuf m lo up) bs) -> wanted bs n cur = cur).
    { clear. induction bs as [|[m lo up|b] bs IH]; intros cur n H; cbn [wanted]; [reflexivity| |].
      - exfalso. apply H. exists m, lo, up. now left. - apply IH. intros [m [lo [up Hi]]]. apply H. exists m, lo, up. now right. }
    destruct (in_dec (fun x y : bool => bool_dec x y) true (map (fun o => match o with SBuf _ _ _ => true | _ => false end) bs)) as [H|H].
    - apply in_map_iff in H as [[m lo up|b] [E Hi]]; [eauto|discriminate].
    - rewrite G in Ha; [cbn in Ha; lia|]. intros [m [lo [up Hi]]]. apply H. apply in_map_iff. exists (SBuf m lo up). auto. }
  pose proof (h_reach_ok _ Hr) as Hok.
  destruct (setBinMap_ok bs D Hu Hsb Hok Hsmall Hfit) as [nac [E1 [Hnac [Hm [Fl [Hbuf [Htr Htr2]]]]]]].
  destruct (shrink_pkg bs D Hu Hsb Hr Hsmall Hfit) as [x [E2 P]].
  assert (Ex := E1). rewrite E2 in Ex. injection Ex as Ex.
  exists x, (prod (map aNBins (acAxes nac))). split; [exact E2|]. split; [now rewrite Ex|]. split; [rewrite Ex; exact Hm|].
  intros d Hd Ed. destruct (P d Hd Ed) as [d' [S1 [_ [S3 [S4 [S5 S6]]]]]]. exists d'. split; [exact S1|]. split; [exact S3|].
  assert (Q : h_ok (bdHist d') /\ hAxes (bdHist d') = nac).
  { pose proof (h_reach_ok _ Hd) as Hdo. assert (Enb : hNBins (bdHist d) = hNBins (bdHist D)) by (rewrite (h_ok_nbins _ Hdo), (h_ok_nbins _ Hok); unfold shape_of; now rewrite Ed).
    pose proof Hok as [_ [Hax _]].
    destruct (shrink_core (shBuf (configured bs)) (hAxes (bdHist D)) nac (over_wanted bs false) Hnac Hax Htr d x Hdo Ed) as [d2 [T1 [_ [_ [T4 [T5 _]]]]]]; rewrite ?Ex; cbn [shAxes shBuf shBin shUse]; auto.
    - now rewrite Enb. - now rewrite Enb. - apply built_pos. apply Hnac.
    - rewrite S1 in T1. injection T1 as <-. auto. }
  destruct Q as [Q1 Q2]. split; [|rewrite (h_ok_nbins _ Q1); unfold shape_of; now rewrite Q2].
  split; [now apply h_ok_reach|]. split; [exact S4|]. intros J HJ. destruct (over_wanted bs false); [apply S6; auto|apply S5; auto].
Qed.
