(** Fits to data that equal the expectation: C96. *)
From Coq Require Import ZArith Reals.
From Verif Require Import Base.Res Base.Num Base.RNum Base.SMap Model.Axis Model.Event Model.Cut Model.Hist Model.ED Model.Param
  Model.Matrix Model.SystMan Model.Shrink Model.EDMan Model.Fill Model.Constraint Model.NLLH Model.Grid Model.Fit
  Spec.AxisSpec Spec.HistSpec Spec.ParamSpec Spec.EDManSpec Spec.SystManSpec Spec.NLLHSpec Spec.NLLHSysSpec Spec.GridSpec Spec.FitSpec Spec.AsimovSpec
  Proofs.AsimovP Proofs.AsimovP2 Props.AxisProps Props.NLLHSysProps Props.FitProps.
From Coq Require Import Lra Lia.
Local Open Scope Qc_scope.

(** C96.  When the data are the expectation at the parameters d0 and the constraints are not better elsewhere, the likelihood is
    smallest at d0, and elsewhere as small only where the constraints and every expectation are the same. *)
Theorem C96_minimum : forall names par build obs ops D d0 d c0, configured names par build obs ops D ->
  gives_all names par ops d0 -> responds names par build ops d0 -> gives_all names par ops d -> responds names par build ops d ->
  asimov names par build ops D d0 -> con_at names par build ops d0 = Ok c0 -> (forall c, con_at names par build ops d = Ok c -> c0 <= c) ->
  exists v0, value_at names par build ops d0 = Ok v0 /\ forall v, value_at names par build ops d = Ok v ->
    (v0 <= v)%R /\ (v = v0 <-> con_at names par build ops d = Ok c0 /\ forall k, (k < hNBins (bdHist D))%nat -> mu_at names par build ops d k = mu_at names par build ops d0 k).
Proof. exact minimum_pkg. Qed.
Print Assumptions C96_minimum.
(** Without systematics and with linearly independent pdfs the minimum is at the rates of d0 only. *)
Theorem C96_rates : forall names par build obs ops D d0 d c0, let pdfs := NLLHSpec.added ops in configured names par build obs ops D -> no_systematics ops -> independent D pdfs ->
  swf d0 -> swf d -> (forall n, In n (fitted pdfs) -> has_key d n /\ has_key d0 n) ->
  (forall k, (k < hNBins (bdHist D))%nat -> cont (bdHist D) k = expected d0 pdfs k /\ 0 < expected d0 pdfs k) ->
  con_at names par build ops d0 = Ok c0 -> (forall c, con_at names par build ops d = Ok c -> c0 <= c) ->
  exists v0, value_at names par build ops d0 = Ok v0 /\ forall v, value_at names par build ops d = Ok v -> (v0 <= v)%R /\ (v = v0 -> forall n, In n (fitted pdfs) -> sfind n d = sfind n d0).
Proof. exact rates_pkg. Qed.
Print Assumptions C96_rates.
(** A grid search that visits d0 reports a point with the expectations of d0, *)
Theorem C96_grid_partial : forall names par build obs ops D g m d0 c0, configured names par build obs ops D ->
  well_set g -> List.length (grMin g) = (2 * m)%nat -> grMaximise g = false -> gives_all names par ops (grMin g) ->
  (forall p, on_grid g p -> responds names par build ops p /\ exists v, value_at names par build ops p = Ok v /\ v <> 0%R) ->
  on_grid g d0 -> d0 <> grMin g -> (forall k, In k (skipn (m + 1) (skeys (grMin g))) -> val d0 k = val (grMin g) k) ->
  asimov names par build ops D d0 -> con_at names par build ops d0 = Ok c0 -> (forall p c, on_grid g p -> con_at names par build ops p = Ok c -> c0 <= c) ->
  exists s' r, fends g (nlrun (nl_new names par build) ops) s' r /\ on_grid g (fBest r) /\ value_at names par build ops d0 = Ok (fVal r) /\
    con_at names par build ops (fBest r) = Ok c0 /\ forall k, (k < hNBins (bdHist D))%nat -> mu_at names par build ops (fBest r) k = mu_at names par build ops d0 k.
Proof. exact closure_pkg. Qed.
Print Assumptions C96_grid_partial.
(** and d0 itself when the normalisations of linearly independent pdfs are what is searched for. *)
Theorem C96_truth_partial : forall names par build obs ops D g m d0 c0, let pdfs := NLLHSpec.added ops in configured names par build obs ops D -> no_systematics ops -> independent D pdfs ->
  well_set g -> List.length (grMin g) = (2 * m)%nat -> grMaximise g = false -> (forall n, In n (fitted pdfs) <-> In n (skeys (grMin g))) ->
  (forall p, on_grid g p -> exists v, value_at names par build ops p = Ok v /\ v <> 0%R) ->
  on_grid g d0 -> d0 <> grMin g -> (forall k, In k (skipn (m + 1) (skeys (grMin g))) -> val d0 k = val (grMin g) k) ->
  (forall k, (k < hNBins (bdHist D))%nat -> cont (bdHist D) k = expected d0 pdfs k /\ 0 < expected d0 pdfs k) ->
  con_at names par build ops d0 = Ok c0 -> (forall p c, on_grid g p -> con_at names par build ops p = Ok c -> c0 <= c) ->
  exists s' r, fends g (nlrun (nl_new names par build) ops) s' r /\ fBest r = d0 /\ value_at names par build ops d0 = Ok (fVal r).
Proof. exact truth_pkg. Qed.
Print Assumptions C96_truth_partial.
(** A truth at the lower corner of the grid is never reported. *)
Theorem C96_corner_refuted : forall names par build obs ops D g m, configured names par build obs ops D ->
  well_set g -> List.length (grMin g) = (2 * m)%nat -> gives_all names par ops (grMin g) ->
  (forall p, on_grid g p -> responds names par build ops p /\ exists v, value_at names par build ops p = Ok v /\ v <> 0%R) ->
  (exists p, on_grid g p /\ p <> grMin g /\ forall k, In k (skipn (m + 1) (skeys (grMin g))) -> val p k = val (grMin g) k) ->
  exists s' r, fends g (nlrun (nl_new names par build) ops) s' r /\ fBest r <> grMin g.
Proof. exact corner_pkg. Qed.
Print Assumptions C96_corner_refuted.

(** two pdfs of two bins, rates 2 and 1 *)
Definition ex_ab (n : string) (c : list Qc) := mkBed n (fst (setBinContents (mk_hist (fst (addAxes ac_empty [ex_axis "x" 0 2 2]))) c)) (mk_obsset ["x"%string]).
Definition ex_aa := ex_ab "a" [qq 1 8; qq 1 8].
Definition ex_abb := ex_ab "b" [qq 1 8; qq 1 4].
Definition ex_aD := ex_ab "data" [qq 3 8; qq 1 2].
Definition ex_aops := [NAdd ex_aa [EmptyString] None NIndirect; NReg; NEval; NAdd ex_abb [EmptyString] None NIndirect; NData ex_aD; NEval].
Definition ex_apdfs := [(ex_aa, NIndirect); (ex_abb, NIndirect)].
Definition ex_ag : grid := mkGrid [("a", 1); ("b", 1)]%string [("a", qz 2); ("b", qz 2)]%string [("a", 1); ("b", 1)]%string false.
Definition ex_at (x y : Qc) : smap Qc := [("a", x); ("b", y)]%string.
Lemma ex_aconf : configured ex_sn ex_sp ex_fb ["x"%string] ex_aops ex_aD.
Proof.
  split; [intros [|q]; (split; [exact I|intros []])|]. split; [intros [|q] a b _ _ H; unfold ex_fb; now rewrite (H _)|].
  split. { repeat (apply Forall_cons; [first [exact I|reflexivity|split; [reflexivity|apply ex_h2_reach]]|]); constructor. }
  split. { intros q q' H. exfalso. eapply nosys_is; [|exact H]. repeat constructor. }
  split; [reflexivity|]. split; [reflexivity|]. split; [apply ex_h2_reach|]. change (NLLHSpec.added ex_aops) with ex_apdfs. split; [repeat constructor; cbn; intuition discriminate|].
  split. { intros i j bi bj. unfold ex_apdfs. destruct j as [|[|[|j]]]; cbn [nth_error]; intros; discriminate. }
  repeat (apply Forall_cons; [split; [apply ex_h2_reach|cbn; lia]|]). constructor.
Qed.
Lemma ex_ano : no_systematics ex_aops. Proof. repeat constructor. Qed.
Lemma ex_aset : well_set ex_ag.
Proof.
  assert (W : forall a b, swf (ex_at a b)) by (intros; unfold swf; cbn; repeat constructor).
  split; [apply W|]. split; [apply W|]. split; [apply W|]. split; [reflexivity|]. split; [reflexivity|]. split; [discriminate|].
  intros k [<-|[<-|[]]]; (split; [vm_compute; reflexivity|]; split; [vm_compute; discriminate|vm_compute; reflexivity]).
Qed.
Lemma ex_agrid p : on_grid ex_ag p -> In p [ex_at 1 1; ex_at (qz 2) 1; ex_at 1 (qz 2); ex_at (qz 2) (qz 2)].
Proof.
  intros [K H]. destruct p as [|[k1 x1] [|[k2 x2] [|? ?]]]; try discriminate K. cbn in K. injection K as -> ->.
  pose proof (H "a"%string ltac:(cbn; tauto)) as [A1 A2]. pose proof (H "b"%string ltac:(cbn; tauto)) as [B1 B2]. cbn in A1, A2, B1, B2.
  apply step_two in A2; [|exact A1]. apply step_two in B2; [|exact B1]. unfold ex_at. destruct A2 as [-> | ->], B2 as [-> | ->]; cbn; tauto.
Qed.
Lemma ex_aon x y : (x = 1 \/ x = qz 2) -> (y = 1 \/ y = qz 2) -> on_grid ex_ag (ex_at x y).
Proof.
  intros Hx Hy. split; [reflexivity|]. intros k [<-|[<-|[]]]; cbn.
  - destruct Hx as [-> | ->]; (split; [vm_compute; discriminate|]); [exists 0%nat|exists 1%nat]; apply Qc_is_canon; reflexivity.
  - destruct Hy as [-> | ->]; (split; [vm_compute; discriminate|]); [exists 0%nat|exists 1%nat]; apply Qc_is_canon; reflexivity.
Qed.
Lemma ex_aval p : on_grid ex_ag p -> exists v, value_at ex_sn ex_sp ex_fb ex_aops p = Ok v /\ v <> 0%R.
Proof.
  intros G. apply ex_agrid in G. assert (W : swf p) by (destruct G as [<-|[<-|[<-|[<-|[]]]]]; unfold swf; cbn; repeat constructor).
  assert (K : forall n, In n (fitted (NLLHSpec.added ex_aops)) -> has_key p n) by (intros n [<-|[<-|[]]]; destruct G as [<-|[<-|[<-|[<-|[]]]]]; eexists; reflexivity).
  destruct (value_form ex_sn ex_sp ex_fb ["x"%string] ex_aops ex_aD ex_aconf p) as [[q [Q _]] V]; [apply nosys_gives; auto using ex_ano|apply nosys_responds, ex_ano|].
  unfold con_at in V. rewrite Q in V. cbn [bind] in V. change (cman_eval (con_in ex_aops) q) with (Ok (0%Qc)) in V.
  assert (M : forall k, (k < 2)%nat -> 0 < mu_at ex_sn ex_sp ex_fb ex_aops p k /\ mu_at ex_sn ex_sp ex_fb ex_aops p k < 1).
  { intros k Hk. rewrite nosys_mu by exact ex_ano. change (NLLHSpec.added ex_aops) with ex_apdfs. assert (Hk' : k = 0%nat \/ k = 1%nat) by lia. destruct Hk' as [-> | ->], G as [<-|[<-|[<-|[<-|[]]]]]; split; vm_compute; reflexivity. }
  rewrite outcome_pos in V by (intros k Hk; now apply M). eexists. split; [exact V|]. change (hNBins (bdHist ex_aD)) with 2%nat. cbn [seq map rsum fold_right].
  destruct (M 0%nat ltac:(lia)) as [A1 A2]. destruct (M 1%nat ltac:(lia)) as [B1 B2]. apply qr_lt in A1, A2, B1, B2. rewrite ?qr_0, ?qr_1 in *.
  assert (P : forall n x, (0 < n)%R -> (0 < x)%R -> (x < 1)%R -> (0 < poisson_nll n x)%R).
  { intros n x Hn H0 H1. unfold poisson_nll. assert (L : (ln x < 0)%R) by (rewrite <- ln_1; now apply ln_increasing). nra. }
  set (m0 := qr (mu_at _ _ _ _ _ 0)) in *. set (m1 := qr (mu_at _ _ _ _ _ 1)) in *. clearbody m0 m1.
  assert (N0 : (0 < qr (cont (bdHist ex_aD) 0))%R) by (rewrite <- qr_0; apply qr_lt; reflexivity). assert (N1 : (0 < qr (cont (bdHist ex_aD) 1))%R) by (rewrite <- qr_0; apply qr_lt; reflexivity).
  pose proof (P _ _ N0 A1 A2). pose proof (P _ _ N1 B1 B2). lra.
Qed.
Example C96_nonvacuous : let d0 := ex_at (qz 2) 1 in
  configured ex_sn ex_sp ex_fb ["x"%string] ex_aops ex_aD /\ no_systematics ex_aops /\ independent ex_aD (NLLHSpec.added ex_aops) /\ well_set ex_ag /\
  (forall n, In n (fitted (NLLHSpec.added ex_aops)) <-> In n (skeys (grMin ex_ag))) /\ (forall p, on_grid ex_ag p -> exists v, value_at ex_sn ex_sp ex_fb ex_aops p = Ok v /\ v <> 0%R) /\
  on_grid ex_ag d0 /\ d0 <> grMin ex_ag /\ (forall k, (k < hNBins (bdHist ex_aD))%nat -> cont (bdHist ex_aD) k = expected d0 (NLLHSpec.added ex_aops) k /\ 0 < expected d0 (NLLHSpec.added ex_aops) k) /\
  con_at ex_sn ex_sp ex_fb ex_aops d0 = Ok 0.
Proof.
  cbv zeta. split; [exact ex_aconf|]. split; [exact ex_ano|]. split.
  { intros a H. pose proof (H 0%nat ltac:(cbn; lia)) as H0. pose proof (H 1%nat ltac:(cbn; lia)) as H1. cbn [NLLHSpec.added ex_aops pdfs_from map fst snd fittable qsum ex_aa ex_abb ex_ab bdName bdHist] in H0, H1.
    change (cont (fst (setBinContents (mk_hist (fst (addAxes ac_empty [ex_axis "x" 0 2 2]))) [qq 1 8; qq 1 8])) 0) with (qq 1 8) in H0. change (cont (fst (setBinContents (mk_hist (fst (addAxes ac_empty [ex_axis "x" 0 2 2]))) [qq 1 8; qq 1 4])) 0) with (qq 1 8) in H0.
    change (cont (fst (setBinContents (mk_hist (fst (addAxes ac_empty [ex_axis "x" 0 2 2]))) [qq 1 8; qq 1 8])) 1) with (qq 1 8) in H1. change (cont (fst (setBinContents (mk_hist (fst (addAxes ac_empty [ex_axis "x" 0 2 2]))) [qq 1 8; qq 1 4])) 1) with (qq 1 4) in H1.
    set (x := a "a"%string) in *. set (y := a "b"%string) in *.
    assert (E0 : y = 0). { transitivity (qz 8 * ((x * qq 1 8 + (y * qq 1 4 + 0)) - (x * qq 1 8 + (y * qq 1 8 + 0)))); [|rewrite H0, H1; ring].
      replace (qq 1 4) with (qz 2 * qq 1 8) by (apply Qc_is_canon; reflexivity). transitivity (y * (qz 8 * (qz 2 - 1) * qq 1 8)); [|ring]. replace (qz 8 * (qz 2 - 1) * qq 1 8) with 1 by (apply Qc_is_canon; reflexivity). ring. }
    assert (E1 : x = 0). { rewrite E0 in H0. transitivity (qz 8 * (x * qq 1 8 + (0 * qq 1 8 + 0))); [|rewrite H0; ring]. transitivity (x * (qz 8 * qq 1 8)); [|ring]. replace (qz 8 * qq 1 8) with 1 by (apply Qc_is_canon; reflexivity). ring. }
    intros n [<-|[<-|[]]]; assumption. }
  split; [exact ex_aset|]. split; [intros n; cbn; tauto|]. split; [exact ex_aval|]. split; [apply ex_aon; auto|]. split; [discriminate|]. split; [|vm_compute; reflexivity].
  change (NLLHSpec.added ex_aops) with ex_apdfs. intros k Hk. change (hNBins (bdHist ex_aD)) with 2%nat in Hk. assert (Hk' : k = 0%nat \/ k = 1%nat) by lia.
  destruct Hk' as [-> | ->]; (split; [apply Qc_is_canon; vm_compute; reflexivity|vm_compute; reflexivity]).
Qed.
