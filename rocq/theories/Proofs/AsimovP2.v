From Coq Require Import ZArith Reals Lia.
From Verif Require Import Base.Res Base.Num Base.RNum Base.SMap Model.Axis Model.Event Model.Cut Model.Hist Model.ED Model.Param Model.Matrix Model.SystMan Model.Shrink Model.EDMan
  Model.Fill Model.Constraint Model.NLLH Model.Grid Model.Fit Spec.AxisSpec Spec.HistSpec Spec.ParamSpec Spec.EDManSpec Spec.SystManSpec Spec.NLLHSpec Spec.NLLHSysSpec Spec.GridSpec Spec.FitSpec Spec.AsimovSpec
  Proofs.NLLHP4 Proofs.NLLHS7 Proofs.NLLHS8 Proofs.FitP2 Proofs.AsimovP.
From Coq Require Import Lra.

Lemma nosys_calls ops : no_systematics ops -> forall bb, Forall (fun o => match o with Add _ _ => False | _ => True end) (sys_calls bb ops).
Proof.
  induction 1 as [|o ops H _ IH]; intros bb; [constructor|]. destruct o as [b g [r|] st| | | | | | x | | | | | |]; cbn [sys_calls] in *; try contradiction; auto. destruct bb; cbn [app]; auto.
Qed.
Lemma accepted_sub l : forall s, Forall (fun o => match o with Add _ _ => False | _ => True end) l -> forall g, SystManSpec.added g (accepted s l) = [].
Proof.
  induction l as [|o l IH]; intros s F g; [reflexivity|]. inversion F as [|? ? F1 F2]; subst. cbn [accepted]. unfold SystManSpec.added. rewrite flat_map_app. fold (SystManSpec.added g (accepted (fst (smcall s o)) l)).
  rewrite IH by exact F2. destruct (snd (smcall s o)); cbn [flat_map app]; try reflexivity. destruct o; cbn; try contradiction; reflexivity.
Qed.
Lemma nosys_group names ops g : no_systematics ops -> group_in names ops g = [].
Proof. intros H. unfold group_in, sys_accepted. now apply accepted_sub, nosys_calls. Qed.
Lemma nosys_acting names ops b : no_systematics ops -> acting_on names ops b = [].
Proof.
  intros H. unfold acting_on. destruct (regd _ _) as [gs|]; [|reflexivity]. unfold acting. rewrite nosys_group by exact H.
  assert (E : flat_map (group_in names ops) gs = []) by (induction gs as [|g gs IH]; cbn; [reflexivity|rewrite nosys_group by exact H; exact IH]). rewrite E. now destruct (in_dec _ _ _).
Qed.
Lemma nosys_is names ops q : no_systematics ops -> ~ is_sys names ops q.
Proof. intros H [g Hg]. rewrite nosys_group in Hg by exact H. destruct Hg. Qed.
Lemma nosys_responds names par build ops d : no_systematics ops -> responds names par build ops d.
Proof.
  intros H. split; [intros q Hq; now apply nosys_is in Hq|]. split; [intros g; exists 0%nat; rewrite nosys_group by exact H; constructor|]. intros p _. rewrite nosys_acting by exact H. constructor.
Qed.
Lemma nosys_mu names par build ops d k : no_systematics ops -> mu_at names par build ops d k = expected d (NLLHSpec.added ops) k.
Proof. intros H. unfold mu_at, expected_sys, expected. f_equal. apply map_ext. intros p. unfold responded. rewrite nosys_acting by exact H. reflexivity. Qed.
Lemma nosys_gives names par ops d : no_systematics ops -> swf d -> (forall n, In n (fitted (NLLHSpec.added ops)) -> has_key d n) -> gives_all names par ops d.
Proof. intros H W K. split; [exact W|]. split; [exact K|]. intros q n Hq. now apply nosys_is in Hq. Qed.

Lemma qsum_sub {A} (f g : A -> Qc) l : (qsum (map f l) - qsum (map g l) = qsum (map (fun x => f x - g x) l))%Qc.
Proof. induction l as [|x l IH]; cbn [map qsum]; [ring|]. rewrite <- IH. ring. Qed.
Lemma same_rates D pdfs d d0 : independent D pdfs -> (forall n, In n (fitted pdfs) -> has_key d n /\ has_key d0 n) ->
  (forall k, (k < hNBins (bdHist D))%nat -> expected d pdfs k = expected d0 pdfs k) -> forall n, In n (fitted pdfs) -> sfind n d = sfind n d0.
Proof.
  intros I K E n Hn. destruct (K n Hn) as [[v Hv] [v0 Hv0]]. specialize (I (fun n => (match sfind n d with Some v => v | None => 0 end - match sfind n d0 with Some v => v | None => 0 end))%Qc).
  cbv beta in I. assert (X : (v - v0 = 0)%Qc); [|rewrite Hv, Hv0; f_equal; rewrite <- (Qcplus_0_r v0), <- X; ring].
  specialize (fun Z => I Z n Hn). rewrite Hv, Hv0 in I. apply I. intros k Hk. specialize (E k Hk). unfold expected in E.
  transitivity (qsum (map (fun p => norm_in d p * cont (bdHist (fst p)) k) pdfs) - qsum (map (fun p => norm_in d0 p * cont (bdHist (fst p)) k) pdfs))%Qc; [|rewrite E; ring].
  rewrite qsum_sub. f_equal. apply map_ext. intros p. unfold norm_in. destruct (fittable (snd p)); ring.
Qed.

Lemma minimum_pkg names par build obs ops D d0 d c0 : configured names par build obs ops D -> gives_all names par ops d0 -> responds names par build ops d0 -> gives_all names par ops d -> responds names par build ops d ->
  asimov names par build ops D d0 -> con_at names par build ops d0 = Ok c0 -> (forall c, con_at names par build ops d = Ok c -> (c0 <= c)%Qc) ->
  exists v0, value_at names par build ops d0 = Ok v0 /\ forall v, value_at names par build ops d = Ok v ->
    (v0 <= v)%R /\ (v = v0 <-> con_at names par build ops d = Ok c0 /\ forall k, (k < hNBins (bdHist D))%nat -> mu_at names par build ops d k = mu_at names par build ops d0 k).
Proof. intros C. exact (minimum_at names par build obs ops D C d0 d c0). Qed.

Lemma rates_pkg names par build obs ops D d0 d c0 : let pdfs := NLLHSpec.added ops in configured names par build obs ops D -> no_systematics ops -> independent D pdfs ->
  swf d0 -> swf d -> (forall n, In n (fitted pdfs) -> has_key d n /\ has_key d0 n) ->
  (forall k, (k < hNBins (bdHist D))%nat -> cont (bdHist D) k = expected d0 pdfs k /\ (0 < expected d0 pdfs k)%Qc) ->
  con_at names par build ops d0 = Ok c0 -> (forall c, con_at names par build ops d = Ok c -> (c0 <= c)%Qc) ->
  exists v0, value_at names par build ops d0 = Ok v0 /\ forall v, value_at names par build ops d = Ok v -> (v0 <= v)%R /\ (v = v0 -> forall n, In n (fitted pdfs) -> sfind n d = sfind n d0).
Proof.
  cbv zeta. intros C N I W0 W K A E0 Hc. destruct (minimum_pkg names par build obs ops D d0 d c0) as [v0 [V0 V]]; auto using nosys_responds; [apply nosys_gives; auto; intros n Hn; now apply K..| |].
  - intros k Hk. rewrite nosys_mu by exact N. now apply A.
  - exists v0. split; [exact V0|]. intros v Ev. destruct (V v Ev) as [V1 V2]. split; [exact V1|]. intros ->. destruct V2 as [V2 _]. specialize (V2 eq_refl) as [_ V2].
    apply (same_rates D); auto. intros k Hk. rewrite <- !(nosys_mu names par build) by exact N. now apply V2.
Qed.

(** the grid search *)
Lemma closure_pkg names par build obs ops D g m d0 c0 : configured names par build obs ops D ->
  well_set g -> List.length (grMin g) = (2 * m)%nat -> grMaximise g = false -> gives_all names par ops (grMin g) ->
  (forall p, on_grid g p -> responds names par build ops p /\ exists v, value_at names par build ops p = Ok v /\ v <> 0%R) ->
  on_grid g d0 -> d0 <> grMin g -> (forall k, In k (skipn (m + 1) (skeys (grMin g))) -> val d0 k = val (grMin g) k) ->
  asimov names par build ops D d0 -> con_at names par build ops d0 = Ok c0 -> (forall p c, on_grid g p -> con_at names par build ops p = Ok c -> (c0 <= c)%Qc) ->
  exists s' r, fends g (nlrun (nl_new names par build) ops) s' r /\ on_grid g (fBest r) /\ value_at names par build ops d0 = Ok (fVal r) /\
    con_at names par build ops (fBest r) = Ok c0 /\ forall k, (k < hNBins (bdHist D))%nat -> mu_at names par build ops (fBest r) k = mu_at names par build ops d0 k.
Proof.
  intros C W L Mx [Wm [Hk Hks]] Hp G0 Nm Lt A E0 Hc. pose proof C as [Hpar [HB [F [Hdn [Hbb [Hdat [HD [Hnd [Hdf Hcov]]]]]]]]].
  destruct (fit_pkg names par build obs ops D g m) as [s' [r [Fe [ND [Ch [_ [Bst _]]]]]]]; auto.
  { intros p G. destruct (Hp p G) as [R [v [V _]]]. split; [exact R|]. now exists v. }
  assert (I0 : In d0 (fSeen r)) by (apply Ch; auto).
  destruct Bst as [B1 [[e [B2 B3]] B4]]; [intros Z; rewrite Z in I0; destruct I0| |].
  { intros p H E. apply Ch in H as [G _]. destruct (Hp p G) as [_ [v [V Z]]]. congruence. }
  assert (Gb : on_grid g (fBest r)) by now apply Ch in B1.
  assert (Ga : forall p, on_grid g p -> gives_all names par ops p).
  { intros p [K _]. assert (Key : forall n, has_key (grMin g) n -> has_key p n) by (intros n [x H]; apply sfind_in; rewrite K; apply in_map_iff; exists (n, x); split; [reflexivity|]; apply sfind_In; assumption).
    split; [unfold swf; rewrite K; exact Wm|]. split; [intros n Hn; now apply Key, Hk|]. intros q n Hq Hn. apply Key. eapply Hks; eauto. }
  destruct (minimum_pkg names par build obs ops D d0 (fBest r) c0) as [v0 [V0 V]]; auto; [apply Hp, G0|apply Hp, Gb|intros c; now apply Hc|].
  destruct (V e B2) as [V1 V2]. specialize (B4 d0 v0 I0 V0). unfold rscore in *. rewrite Mx in *. assert (Ev : e = v0) by lra. rewrite Ev in B2, B3, V2.
  exists s', r. split; [exact Fe|]. split; [exact Gb|]. split; [rewrite B3; exact V0|]. now apply V2.
Qed.
Lemma truth_pkg names par build obs ops D g m d0 c0 : let pdfs := NLLHSpec.added ops in configured names par build obs ops D -> no_systematics ops -> independent D pdfs ->
  well_set g -> List.length (grMin g) = (2 * m)%nat -> grMaximise g = false -> (forall n, In n (fitted pdfs) <-> In n (skeys (grMin g))) ->
  (forall p, on_grid g p -> exists v, value_at names par build ops p = Ok v /\ v <> 0%R) ->
  on_grid g d0 -> d0 <> grMin g -> (forall k, In k (skipn (m + 1) (skeys (grMin g))) -> val d0 k = val (grMin g) k) ->
  (forall k, (k < hNBins (bdHist D))%nat -> cont (bdHist D) k = expected d0 pdfs k /\ (0 < expected d0 pdfs k)%Qc) ->
  con_at names par build ops d0 = Ok c0 -> (forall p c, on_grid g p -> con_at names par build ops p = Ok c -> (c0 <= c)%Qc) ->
  exists s' r, fends g (nlrun (nl_new names par build) ops) s' r /\ fBest r = d0 /\ value_at names par build ops d0 = Ok (fVal r).
Proof.
  cbv zeta. intros C N I W L Mx K Hp G0 Nm Lt A E0 Hc. assert (Wm : swf (grMin g)) by apply W.
  assert (Key : forall p n, on_grid g p -> In n (fitted (NLLHSpec.added ops)) -> has_key p n) by (intros p n [E _] Hn; apply sfind_in; rewrite E; now apply K).
  destruct (closure_pkg names par build obs ops D g m d0 c0) as [s' [r [Fe [Gb [V [_ Mu]]]]]]; auto.
  - apply nosys_gives; auto. intros n Hn. apply sfind_in. now apply K.
  - intros p G. split; [now apply nosys_responds|]. now apply Hp.
  - intros k Hk. rewrite nosys_mu by exact N. now apply A.
  - exists s', r. split; [exact Fe|]. split; [|exact V]. assert (Wg : forall p, on_grid g p -> swf p) by (intros p [E _]; unfold swf; rewrite E; exact Wm).
    apply swf_ext; auto. intros n. destruct (in_dec string_dec n (skeys (grMin g))) as [Hn|Hn].
    + apply (same_rates D (NLLHSpec.added ops)); auto; [|now apply K]. intros k Hk. rewrite <- !(nosys_mu names par build) by exact N. now apply Mu.
    + destruct Gb as [Eb _], G0 as [Ed _]. transitivity (@None Qc); [|symmetry]; apply sfind_not_in; [rewrite Eb|rewrite Ed]; exact Hn.
Qed.
Lemma corner_pkg names par build obs ops D g m : configured names par build obs ops D ->
  well_set g -> List.length (grMin g) = (2 * m)%nat -> gives_all names par ops (grMin g) ->
  (forall p, on_grid g p -> responds names par build ops p /\ exists v, value_at names par build ops p = Ok v /\ v <> 0%R) ->
  (exists p, on_grid g p /\ p <> grMin g /\ forall k, In k (skipn (m + 1) (skeys (grMin g))) -> val p k = val (grMin g) k) ->
  exists s' r, fends g (nlrun (nl_new names par build) ops) s' r /\ fBest r <> grMin g.
Proof.
  intros C W L [Wm [Hk Hks]] Hp [p1 H1]. pose proof C as [Hpar [HB [F [Hdn [Hbb [Hdat [HD [Hnd [Hdf Hcov]]]]]]]]].
  destruct (fit_pkg names par build obs ops D g m) as [s' [r [Fe [ND [Ch [_ [Bst _]]]]]]]; auto.
  { intros p G. destruct (Hp p G) as [R [v [V _]]]. split; [exact R|]. now exists v. }
  exists s', r. split; [exact Fe|]. destruct Bst as [B1 _].
  - apply Ch in H1. intros Z. rewrite Z in H1. destruct H1.
  - intros p H E. apply Ch in H as [G _]. destruct (Hp p G) as [_ [v [V Z]]]. congruence.
  - intros E. apply Ch in B1 as [_ [B1 _]]. contradiction.
Qed.
