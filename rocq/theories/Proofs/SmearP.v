From Coq Require Import ZArith.
From Verif Require Import Base.Res Base.Num Base.SMap Model.Axis Model.Event Model.Hist Model.Cut Model.Gauss Model.Smear
  Spec.AxisSpec Spec.CutSpec Spec.FillSpec Spec.GaussSpec Spec.SmearSpec Proofs.AxisP Proofs.HistP Proofs.CutP Proofs.FillP Proofs.GaussP Proofs.GaussP2 Proofs.GaussP4 Proofs.CompP.
Local Open Scope Qc_scope.
Local Open Scope res_scope.

Lemma gSample_1 gaus g k : sized g -> gND g = 1%nat -> gSample gaus g k = Ok ([gaus k (mean_of g 0) (std_of g 0)], S k).
Proof.
  intros [A [B _]] H. unfold gSample. rewrite H. cbn [seq foldM]. rewrite (vat_nth _ _ 0) by lia. cbn [bind]. rewrite (vat_nth _ _ 0) by lia. reflexivity.
Qed.
Lemma jSample_1 gaus g x xs k : sized g -> gND g = 1%nat -> jSample gaus (Some g) (x :: xs) k = Ok ([gaus k (mean_of g 0) (std_of g 0) + x], S k).
Proof. intros A B. unfold jSample. rewrite gSample_1 by assumption. reflexivity. Qed.
Lemma setup_total fns x2 : (forall n f, sfind n fns = Some f -> exists v, f x2 = Ok v) -> swf fns -> exists d, vSetup fns x2 = Ok d.
Proof.
  intros H W. unfold vSetup. apply swf_nodup in W. assert (G : forall n f, In (n, f) fns -> exists v, f x2 = Ok v).
  { intros n f Hin. apply (H n f). clear H. revert W Hin. induction fns as [|[k0 f0] fns IH]; [intros _ []|]. intros Hnd [E|Hin].
    - injection E as -> ->. cbn. rewrite String.eqb_refl. reflexivity.
    - inversion Hnd as [|? ? Hk Hnd']; subst. cbn. destruct (String.eqb_spec n k0) as [->|]; [|now apply IH]. exfalso. apply Hk. apply in_map_iff. exists (k0, f). auto. }
  clear H W. revert G. generalize (@sempty Qc). induction fns as [|[k0 f0] fns IH]; intros d G; cbn [foldM]; [eauto|].
  destruct (G k0 f0 ltac:(now left)) as [v Hv]. cbn [fst snd]. rewrite Hv. cbn [bind]. apply IH. intros n f Hin. apply (G n f). now right.
Qed.
(** sampling a one-dimensional kernel *)
Lemma cSample_ok gaus c x xs m sd k : kernel_ok c -> draws_with c (x :: xs) m sd ->
  exists c', cSample gaus c (x :: xs) k = Ok (c', ([gaus k m sd + x], S k)) /\ kernel_ok c' /\
    (forall y k', rmap snd (cSample gaus c' y k') = rmap snd (cSample gaus c y k')) /\ (forall y a b, draws_with c' y a b <-> draws_with c y a b).
Proof.
  destruct c as [[g|]|fns [g|]]; cbn [kernel_ok draws_with]; try tauto.
  - intros [Hs Hd] [-> ->]. cbn [cSample]. rewrite jSample_1 by assumption. exists (CJump (Some g)). cbn [bind kernel_ok]. repeat (split; auto).
  - intros [W [Hs Hd]] [Hf [Hm Hsd]]. cbn [cSample]. destruct (setup_total fns (x :: xs) Hf W) as [d E]. rewrite E. cbn [bind].
    destruct (setup_ok _ _ _ W E) as [Wd [Kd Vd]]. destruct (setAll_pkg d (swf_nodup _ Wd) g Hs) as [g' [F [X S1]]]. rewrite F. cbn [bind].
    pose proof X as [A1 [A2 [A3 [A4 [A5 [A6 A7]]]]]]. rewrite jSample_1 by (auto; congruence). cbn [bind].
    assert (P : forall n old new w, new = match sfind n d with Some v => v | None => old end -> parameter_at fns n old (x :: xs) w -> new = w).
    { intros n old new w En Hp. unfold parameter_at in Hp. destruct (sfind n fns) as [f|] eqn:Q.
      - destruct (Vd _ _ Q) as [u [Fu Su]]. rewrite Su in En. congruence.
      - rewrite (proj2 (sfind_not_in _ d)) in En; [congruence|]. rewrite Kd. now apply sfind_not_in. }
    rewrite (P _ _ _ _ (A6 0%nat ltac:(lia)) Hm), (P _ _ _ _ (A7 0%nat ltac:(lia)) Hsd). exists (CVary fns (Some g')). split; [reflexivity|]. split; [cbn; auto with arith; split; [exact W|split; [exact S1|congruence]]|]. split.
    + intros y k'. cbn [cSample]. destruct (vSetup fns y) as [d'| | | |] eqn:E'; cbn [bind rmap]; try reflexivity. destruct (setup_ok _ _ _ W E') as [Wd' [Kd' _]].
      rewrite (setAll_over d d' g g' Hs (swf_nodup _ Wd) (swf_nodup _ Wd') ltac:(intros z; rewrite Kd, Kd'; tauto) F). reflexivity.
    + intros y a b. cbn [draws_with]. unfold mean_name, std_name in *. rewrite A4, A5. unfold parameter_at.
      assert (Q1 : match sfind (nth 0 (gMN g) ""%string) fns with Some _ => True | None => mean_of g' 0 = mean_of g 0 end).
      { destruct (sfind (nth 0 (gMN g) ""%string) fns) eqn:Q; [exact I|]. rewrite A6 by lia. rewrite (proj2 (sfind_not_in _ d)); [reflexivity|]. rewrite Kd. now apply sfind_not_in. }
      assert (Q2 : match sfind (nth 0 (gSN g) ""%string) fns with Some _ => True | None => std_of g' 0 = std_of g 0 end).
      { destruct (sfind (nth 0 (gSN g) ""%string) fns) eqn:Q; [exact I|]. rewrite A7 by lia. rewrite (proj2 (sfind_not_in _ d)); [reflexivity|]. rewrite Kd. now apply sfind_not_in. }
      destruct (sfind (nth 0 (gMN g) ""%string) fns), (sfind (nth 0 (gSN g) ""%string) fns); rewrite ?Q1, ?Q2; tauto.
Qed.
Lemma obs_ok e o vals : values (osNames o) e vals -> toObsSet e o = Ok vals.
Proof. apply values_obs. Qed.
Lemma apply_ok gaus s c k e : ecDist s = Some c -> kernel_ok c -> osNames (ecOut s) <> [] -> smearable c (osNames (ecOut s)) e ->
  exists s' c' e', ec_apply gaus s k e = Ok (s', S k, e') /\ smeared gaus c (osNames (ecOut s)) k e e' /\ same_results gaus s s' /\
    s' = ec_withDist s (Some c') /\ kernel_ok c' /\ (forall y a b, draws_with c' y a b <-> draws_with c y a b).
Proof.
  intros Hd Hc Hn [vals [m [sd [Hv Hw]]]]. unfold ec_apply. rewrite Hd. pose proof (obs_ok e (ecOut s) vals Hv) as EO.
  destruct (osNames (ecOut s)) as [|n ns] eqn:En; [congruence|]. inversion Hv as [|n' v ns' vs Hnv Hvs]; subst. rewrite EO.
  destruct (cSample_ok gaus c v vs m sd k Hc Hw) as [c' [ES [Hc' [HR HD]]]]. cbn [vat nth_error bind]. rewrite ES. cbn [bind fst snd vat nth_error].
  destruct (set_value e n v (gaus k m sd + v) Hnv) as [e' [E' [V' [N' O']]]]. rewrite E'. cbn [bind].
  exists (ec_withDist s (Some c')), c', e'. split; [reflexivity|]. split; [|split; [|split; [reflexivity|split; [exact Hc'|exact HD]]]].
  - exists n, ns, v, vs, m, sd. split; [reflexivity|]. split; [exact Hv|]. split; [exact Hw|]. unfold replaces. replace (v + gaus k m sd) with (gaus k m sd + v) by ring. auto.
  - intros k2 e2. unfold ec_apply. rewrite Hd. cbn [ec_withDist ecDist ecOut]. destruct (vat (osNames (ecOut s)) 0); cbn [bind rmap]; try reflexivity.
    destruct (toObsSet e2 (ecOut s)) as [y| | | |]; cbn [bind rmap]; try reflexivity. specialize (HR y k2).
    destruct (cSample gaus c' y k2) as [[a1 b1]| | | |], (cSample gaus c y k2) as [[a2 b2]| | | |]; cbn [rmap bind snd fst] in *; try discriminate; try (congruence); try reflexivity.
    injection HR as ->. destruct (vat (fst b2) 0) as [w| | | |]; cbn [bind rmap]; try reflexivity. destruct (setDatum e2 _ w); cbn [bind rmap fst snd]; reflexivity.
Qed.
Lemma run_pkg gaus c es : forall s k, ecDist s = Some c -> kernel_ok c -> osNames (ecOut s) <> [] -> Forall (smearable c (osNames (ecOut s))) es ->
  exists s' es', ec_run gaus s k es = Ok (s', (k + List.length es)%nat, es') /\ List.length es' = List.length es /\ same_results gaus s s' /\
    forall i e e', nth_error es i = Some e -> nth_error es' i = Some e' -> smeared gaus c (osNames (ecOut s)) (k + i) e e'.
Proof.
  enough (G : forall es s k c0, ecDist s = Some c0 -> kernel_ok c0 -> (forall y a b, draws_with c0 y a b <-> draws_with c y a b) -> osNames (ecOut s) <> [] -> Forall (smearable c (osNames (ecOut s))) es ->
  exists s' es', ec_run gaus s k es = Ok (s', (k + List.length es)%nat, es') /\ List.length es' = List.length es /\ same_results gaus s s' /\
    forall i e e', nth_error es i = Some e -> nth_error es' i = Some e' -> smeared gaus c (osNames (ecOut s)) (k + i) e e').
  { intros s k H1 H2. apply (G es s k c H1 H2). tauto. }
  clear es. induction es as [|e es IH]; intros s k c0 H1 H2 HD Hn F; cbn [ec_run].
  - exists s, []. rewrite Nat.add_0_r. repeat split; auto. intros [|i]; discriminate.
  - inversion F as [|? ? Fe F']; subst.
    assert (Fe0 : smearable c0 (osNames (ecOut s)) e) by (destruct Fe as [v [m [sd [A B]]]]; exists v, m, sd; split; [exact A|]; apply HD; exact B).
    destruct (apply_ok gaus s c0 k e H1 H2 Hn Fe0) as [s1 [c1 [e1 [E1 [M1 [R1 [Es1 [K1 D1]]]]]]]]. rewrite E1. cbn [bind fst snd]. subst s1.
    destruct (IH (ec_withDist s (Some c1)) (S k) c1 eq_refl K1) as [s' [es' [E2 [L2 [R2 M2]]]]]; [intros; rewrite D1; apply HD|exact Hn|exact F'|].
    rewrite E2. cbn [bind fst snd]. exists s', (e1 :: es'). split; [do 3 f_equal; cbn; lia|]. split; [cbn; lia|]. split.
    + intros k2 e2. rewrite R1. apply R2.
    + intros [|i] x x' Hx Hx'; cbn in Hx, Hx'.
      * injection Hx as <-. injection Hx' as <-. rewrite Nat.add_0_r. destruct M1 as [n [ns [v [vs [m [sd [A [B [C D]]]]]]]]]. exists n, ns, v, vs, m, sd. repeat (split; auto). apply HD. exact C.
      * replace (k + S i)%nat with (S k + i)%nat by lia. exact (M2 i x x' Hx Hx').
Qed.
Lemma errors_pkg gaus s k e :
  (ecDist s = None -> ec_apply gaus s k e = Throw NULLPointerAccessError) /\
  (forall c, ecDist s = Some c -> osNames (ecOut s) = [] -> ec_apply gaus s k e = Throw std_out_of_range) /\
  (forall c a n b vals, ecDist s = Some c -> osNames (ecOut s) = a ++ n :: b -> values a e vals -> lacks e n -> ec_apply gaus s k e = Throw NotFoundError).
Proof.
  unfold ec_apply. split; [intros ->; reflexivity|]. split; [intros c -> ->; reflexivity|]. intros c a n b vals -> En Hv [ns [Hns Hl]].
  unfold toObsSet. rewrite En.
  assert (M : mapM (getDatum e) (a ++ n :: b) = Throw NotFoundError).
  { clear En. unfold values in Hv. unfold mapM. induction Hv as [|x v a vs Hx Hv IH]; cbn [app map seqM].
    - unfold getDatum. rewrite Hns. rewrite index_of_notin by exact Hl. reflexivity.
    - rewrite (getDatum_value e x v Hx). cbn [bind]. rewrite IH. reflexivity. }
  rewrite M. destruct a; reflexivity.
Qed.
Lemma copy_ok g : sized g -> copyGauss g = Ok (mkGauss (gName g ++ "_copy")%string (gMeans g) (gStds g) (gCut g) (gND g) (gMN g) (gSN g)).
Proof. intros [A [B [C D]]]. unfold copyGauss. replace (Nat.eqb (List.length (gMN g)) (List.length (gSN g))) with true by (symmetry; apply Nat.eqb_eq; congruence). reflexivity. Qed.
Lemma clone_ok c : kernel_ok c -> exists c', cClone c = Ok c' /\ kernel_ok c' /\ forall y a b, draws_with c' y a b <-> draws_with c y a b.
Proof.
  destruct c as [[g|]|fns [g|]]; cbn [kernel_ok cClone]; try tauto.
  - intros [A B]. rewrite (copy_ok g A). eexists. split; [reflexivity|]. split; [split; [exact A|exact B]|]. intros; reflexivity.
  - intros [W [A B]]. rewrite (copy_ok g A). eexists. split; [reflexivity|]. split; [split; [exact W|split; [exact A|exact B]]|]. intros; reflexivity.
Qed.
Lemma setpdf_pkg s f : 
  (f = None -> ec_setPDF s f = (ec_withDist s None, Ok tt)) /\
  (forall g, f = Some g -> gND g <> 1%nat -> ec_setPDF s f = (s, Throw DimensionError)) /\
  (forall g, f = Some g -> sized g -> gND g = 1%nat -> exists c, ec_setPDF s f = (ec_withDist s (Some c), Ok tt) /\ kernel_ok c /\
     forall y m sd, draws_with c y m sd <-> m = mean_of g 0 /\ sd = std_of g 0).
Proof.
  split; [intros ->; reflexivity|]. split; intros g ->; cbn [ec_setPDF].
  - intros H. apply Nat.eqb_neq in H. rewrite H. reflexivity.
  - intros Hs Hd. rewrite Hd. cbn [Nat.eqb negb]. rewrite (copy_ok g Hs). eexists. split; [reflexivity|]. split; [split; [exact Hs|exact Hd]|]. intros; reflexivity.
Qed.
Lemma setcpdf_pkg s c : kernel_ok c -> exists c', ec_setCPDF s (Some c) = (ec_withDist s (Some c'), Ok tt) /\ kernel_ok c' /\ forall y m sd, draws_with c' y m sd <-> draws_with c y m sd.
Proof. intros H. destruct (clone_ok c H) as [c' [E [K D]]]. cbn [ec_setCPDF]. rewrite E. eauto. Qed.
Lemma copy_pkg s c : ecDist s = Some c -> kernel_ok c -> exists s' c', ec_copy s = Ok s' /\ ecDist s' = Some c' /\ kernel_ok c' /\ (forall y m sd, draws_with c' y m sd <-> draws_with c y m sd) /\
  ecIn s' = ecIn s /\ ecOut s' = ecOut s /\ ecName s' = ""%string.
Proof. intros Hd H. destruct (clone_ok c H) as [c' [E [K D]]]. unfold ec_copy. rewrite Hd, E. cbn [bind]. eexists. exists c'. split; [reflexivity|]. cbn. tauto. Qed.
