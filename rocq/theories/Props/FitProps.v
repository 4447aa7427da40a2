(** A grid search over a live likelihood: C95. *)
From Coq Require Import ZArith Reals.
From Verif Require Import Base.Res Base.Num Base.RNum Base.SMap Model.Axis Model.Event Model.Cut Model.Hist Model.ED Model.Param
  Model.Matrix Model.SystMan Model.Shrink Model.EDMan Model.Fill Model.Constraint Model.NLLH Model.Grid Model.Fit
  Spec.AxisSpec Spec.HistSpec Spec.ParamSpec Spec.EDManSpec Spec.SystManSpec Spec.NLLHSpec Spec.NLLHSysSpec Spec.GridSpec Spec.FitSpec
  Proofs.FitP2 Props.AxisProps Props.SystManProps Props.NLLHSysProps.
From Coq Require Import Lra Lia.
Local Open Scope Qc_scope.

(** C95.  A likelihood configured by any history of calls (pdfs, data, constraints, systematics; earlier fits included), an even number
    of grid parameters, and a finite value at every grid point: the search ends, the points are visited in an order that does not depend on the statistic, each visited point is evaluated once and gets
    the value a fresh statistic has there - nothing carries over from one point to the next -, and the reported point is a visited
    one whose value is reported and not beaten (no visited value being exactly zero).  Afterwards the statistic sits at the point visited last. *)
Theorem C95_search_partial : forall names par build obs ops D g m, let pdfs := NLLHSpec.added ops in
  (forall q, comp_ok (par q) /\ ~ is_dict (par q)) -> (forall q c c', comp_ok c -> comp_ok c' -> same_params c c' -> build q c = build q c') ->
  Forall (steady obs) ops -> distinct_names names ops -> bb_in ops = false ->
  data_in ops = Some D -> h_reach (bdHist D) -> NoDup (fitted pdfs) -> direct_first pdfs -> covers D pdfs ->
  well_set g -> List.length (grMin g) = (2 * m)%nat -> (forall n, In n (fitted pdfs) -> has_key (grMin g) n) -> (forall q n, is_sys names ops q -> In n (c_names (par q)) -> has_key (grMin g) n) ->
  (forall p, on_grid g p -> responds names par build ops p /\ exists v, value_at names par build ops p = Ok v) ->
  exists s' r, fends g (nlrun (nl_new names par build) ops) s' r /\ NoDup (fSeen r) /\
    (forall p, In p (fSeen r) <-> on_grid g p /\ p <> grMin g /\ forall k, In k (skipn (m + 1) (skeys (grMin g))) -> val p k = val (grMin g) k) /\
    (forall f, (forall p, on_grid g p -> exists v, f p = Ok v) -> exists r1, ends g f (Ok r1) /\ grSeen r1 = fSeen r) /\
    (fSeen r <> [] -> (forall p, In p (fSeen r) -> value_at names par build ops p <> Ok 0%R) ->
       In (fBest r) (fSeen r) /\ (exists e, value_at names par build ops (fBest r) = Ok e /\ fVal r = rscore g e) /\
       forall p e, In p (fSeen r) -> value_at names par build ops p = Ok e -> (fVal r <= rscore g e)%R) /\
    (forall pre p, fSeen r = pre ++ [p] -> nl_getParams s' = nl_getParams (at_point names par build ops p) /\ snd (nl_eval s') = value_at names par build ops p).
Proof. exact fit_pkg. Qed.
Print Assumptions C95_search_partial.

(** two pdfs with two systematics, the normalisations on a 2 x 2 grid *)
Definition ex_fdat (c : list Qc) := mkBed "data" (fst (setBinContents (mk_hist (fst (addAxes ac_empty [ex_axis "x" 0 2 2]))) c)) (mk_obsset ["x"%string]).
Definition ex_fops (c : list Qc) := [NSys 1 "g"; NAdd ex_bed ["g"] None NIndirect; NEval; NSys 0 ""; NReg; NAdd ex_bed' [""] None NIndirect; NSys 1 "";
                       NData (ex_fdat c); NPars ex_sv0; NEval]%string%nat.
Definition ex_fp (a b : Qc) : smap Qc := [("free", a); ("pdf", b); ("st", 1); ("sw", 0)]%string.
Definition ex_fg : grid := mkGrid (ex_fp 1 1) (ex_fp (qz 2) (qz 2)) [("free", 1); ("pdf", 1); ("st", 1); ("sw", 1)]%string false.
Lemma ex_fset : well_set ex_fg.
Proof.
  assert (W : forall a b, swf (ex_fp a b)) by (intros; unfold swf; cbn; repeat constructor).
  split; [apply W|]. split; [apply W|]. split; [unfold swf; cbn; repeat constructor|]. split; [reflexivity|]. split; [reflexivity|]. split; [discriminate|].
  intros k [<-|[<-|[<-|[<-|[]]]]]; (split; [vm_compute; reflexivity|]; split; [vm_compute; discriminate|vm_compute; reflexivity]).
Qed.
Lemma step_two (x : Qc) : x <= qz 2 -> (exists j : nat, x = 1 + qn j * 1) -> x = 1 \/ x = qz 2.
Proof.
  intros H [j ->]. destruct j as [|[|j]]; [left; apply Qc_is_canon; reflexivity|right; apply Qc_is_canon; reflexivity|]. exfalso.
  assert (P : 0 <= qn j) by apply qn_nonneg. rewrite !qn_S in H. set (y := qn j) in *. clearbody y. replace (qz 2) with (1 + 1) in H by (apply Qc_is_canon; reflexivity). replace (1 + (y + Q2Qc 1 + Q2Qc 1) * 1) with (y + 1 + (1 + 1)) in H by (change (Q2Qc 1) with 1; ring).
  assert (H1 : 0 < 1) by reflexivity. set (u := 1) in *. clearbody u. qlra.
Qed.
Lemma step_one (x a : Qc) : x <= a -> (exists j : nat, x = a + qn j * 1) -> x = a.
Proof. intros H [j ->]. assert (P : 0 <= qn j) by apply qn_nonneg. set (y := qn j) in *. clearbody y. replace (y * 1) with y in * by ring. apply Qcle_antisym; [exact H|qlra]. Qed.
Lemma ex_fgrid p : on_grid ex_fg p -> In p [ex_fp 1 1; ex_fp (qz 2) 1; ex_fp 1 (qz 2); ex_fp (qz 2) (qz 2)].
Proof.
  intros [K H]. destruct p as [|[k1 x1] [|[k2 x2] [|[k3 x3] [|[k4 x4] [|? ?]]]]]; try discriminate K. cbn in K. injection K as -> -> -> ->.
  pose proof (H "free"%string ltac:(cbn; tauto)) as [A1 A2]. pose proof (H "pdf"%string ltac:(cbn; tauto)) as [B1 B2]. pose proof (H "st"%string ltac:(cbn; tauto)) as [C1 C2]. pose proof (H "sw"%string ltac:(cbn; tauto)) as [D1 D2].
  cbn in A1, A2, B1, B2, C1, C2, D1, D2. apply step_one in C2 as ->; [|exact C1]. apply step_one in D2 as ->; [|exact D1].
  apply step_two in A2; [|exact A1]. apply step_two in B2; [|exact B1]. unfold ex_fp. destruct A2 as [-> | ->], B2 as [-> | ->]; cbn; tauto.
Qed.
Lemma ex_facc c : sys_accepted ex_sn (ex_fops c) = [Add 1 "g"; AddDist "pdf" ["g"]; Add 0 ""; AddDist "free" [""]]%string%nat.
Proof. vm_compute. reflexivity. Qed.
Lemma ex_fis c q : is_sys ex_sn (ex_fops c) q -> q = 0%nat \/ q = 1%nat.
Proof.
  intros [g H]. unfold group_in in H. rewrite ex_facc in H. unfold SystManSpec.added in H. cbn [flat_map app] in H.
  destruct (String.eqb g "g"), (String.eqb g ""); cbn in H; intuition.
Qed.
Definition ex_fr1 := [qz 3; qz 4].
Definition ex_fr0 := [0; 0].
Definition ex_fc (c : list Qc) : Prop := c = ex_fr1 \/ c = ex_fr0.
Lemma ex_fresp c p : ex_fc c -> on_grid ex_fg p -> responds ex_sn ex_sp ex_fb (ex_fops c) p.
Proof.
  intros Hc G. assert (A1 : acting_on ex_sn (ex_fops c) ex_bed = [0; 1]%nat) by (unfold acting_on, group_in; rewrite ex_facc; reflexivity).
  assert (A2 : acting_on ex_sn (ex_fops c) ex_bed' = [0]%nat) by (unfold acting_on, group_in; rewrite ex_facc; reflexivity).
  set (s := at_point ex_sn ex_sp ex_fb (ex_fops c) p).
  assert (Q : forall q, q = 0%nat \/ q = 1%nat -> snd (ex_fb q (nlPar s q)) = Ok tt /\ sized 2 (fst (ex_fb q (nlPar s q)))).
  { unfold s. apply ex_fgrid in G. intros q [-> | ->]; destruct Hc as [-> | ->]; (destruct G as [<-|[<-|[<-|[<-|[]]]]]; repeat split; vm_compute; reflexivity). }
  unfold responds. fold s. clearbody s. split; [intros q H; apply ex_fis in H; now apply Q|]. split.
  - intros g. exists 2%nat. apply Forall_forall. intros q Hq. assert (H : is_sys ex_sn (ex_fops c) q) by (exists g; exact Hq). apply ex_fis in H. now apply Q.
  - intros b [<-|[<-|[]]]; cbn [fst]; rewrite ?A1, ?A2; repeat constructor; apply Q; auto.
Qed.
(** everything but the values at the grid points *)
Lemma ex_fhyp c : ex_fc c ->
  (forall q, comp_ok (ex_sp q) /\ ~ is_dict (ex_sp q)) /\ (forall q c c', comp_ok c -> comp_ok c' -> same_params c c' -> ex_fb q c = ex_fb q c') /\
  Forall (steady ["x"%string]) (ex_fops c) /\ distinct_names ex_sn (ex_fops c) /\ bb_in (ex_fops c) = false /\ data_in (ex_fops c) = Some (ex_fdat c) /\ h_reach (bdHist (ex_fdat c)) /\
  NoDup (fitted (NLLHSpec.added (ex_fops c))) /\ direct_first (NLLHSpec.added (ex_fops c)) /\ covers (ex_fdat c) (NLLHSpec.added (ex_fops c)) /\
  (forall n, In n (fitted (NLLHSpec.added (ex_fops c))) -> has_key (grMin ex_fg) n) /\ (forall q n, is_sys ex_sn (ex_fops c) q -> In n (c_names (ex_sp q)) -> has_key (grMin ex_fg) n).
Proof.
  intros Hc. split; [intros [|q]; (split; [exact I|intros []])|]. split; [intros [|q] a b _ _ H; unfold ex_fb; now rewrite (H _)|].
  split. { repeat (apply Forall_cons; [first [exact I|reflexivity|split; [reflexivity|apply ex_h2_reach]]|]); constructor. }
  split. { intros q q' H H'. apply ex_fis in H, H'. destruct H as [-> | ->], H' as [-> | ->]; cbn; congruence. }
  split; [reflexivity|]. split; [reflexivity|]. split; [apply ex_h2_reach|].
  split; [repeat constructor; cbn; intuition discriminate|].
  split. { intros i j bi bj. change (NLLHSpec.added (ex_fops c)) with [(ex_bed, NIndirect); (ex_bed', NIndirect)]. destruct j as [|[|[|j]]]; cbn [nth_error]; intros; discriminate. }
  split. { repeat (apply Forall_cons; [split; [apply ex_h2_reach|destruct Hc as [-> | ->]; cbn; lia]|]). constructor. }
  split; [intros n [<-|[<-|[]]]; eexists; reflexivity|].
  intros q n H. apply ex_fis in H as [-> | ->]; intros [<-|[]]; eexists; reflexivity.
Qed.
Definition ex_mu (a b : Qc) (k : nat) : Qc := match k with 0%nat => qz 5 * b + qz 5 * a | _ => qz 14 * b + qz 14 * a end.
Lemma ex_fval c a b : ex_fc c -> on_grid ex_fg (ex_fp a b) -> value_at ex_sn ex_sp ex_fb (ex_fops c) (ex_fp a b) = Ok (rsum (map (fun k => poisson_nll (qr (cont (bdHist (ex_fdat c)) k)) (qr (ex_mu a b k))) (seq 0 2)))%R.
Proof.
  intros Hc G. destruct (ex_fhyp c Hc) as [H1 [H2 [H3 [H4 [H5 [H6 [H7 [H8 [H9 [H10 [H11 H12]]]]]]]]]]].
  destruct (C90_outcome ex_sn ex_sp ex_fb ["x"%string] (ex_fops c ++ [NReg]) (ex_fp a b) (ex_fdat c)) as [s [p [E [_ [Q V]]]]]; auto.
  - intros q. apply H1.
  - apply Forall_app. split; [exact H3|repeat constructor].
  - exists (ex_fops c), []. split; [reflexivity|constructor].
  - unfold swf. cbn. repeat constructor.
  - intros n [<-|[<-|[]]]; eexists; reflexivity.
  - intros q n H _ Hn. assert (H' : q = 0%nat \/ q = 1%nat) by (apply (ex_fis c); exact H). clear - H' Hn. destruct H' as [-> | ->]; destruct Hn as [<-|[]]; eexists; reflexivity.
  - cbv zeta in V. pose proof (ex_fresp c _ Hc G) as [R1 R2]. assert (Ea : at_point ex_sn ex_sp ex_fb (ex_fops c) (ex_fp a b) = s) by (unfold at_point; now rewrite E).
    rewrite Ea in R1, R2. destruct (V R1 R2 0%nat) as [_ [_ [_ [_ X]]]]. cbn [repeat nlrun fold_left] in X. unfold value_at. rewrite Ea, X.
    assert (Mu : forall k, (k < 2)%nat -> expected_sys ex_sn (ex_fops c ++ [NReg]) (fun q => fst (ex_fb q (nlPar s q))) (ex_fp a b) (NLLHSpec.added (ex_fops c ++ [NReg])) k = ex_mu a b k).
    { rewrite <- Ea. apply ex_fgrid in G. intros k Hk. assert (Hk' : k = 0%nat \/ k = 1%nat) by lia. clear - G Hc Hk'.
      destruct Hc as [-> | ->], Hk' as [-> | ->]; cbn [In] in G; (destruct G as [G|[G|[G|[G|[]]]]]; injection G as <- <-; apply Qc_is_canon; vm_compute; reflexivity). }
    unfold outcome. assert (Hb : hNBins (bdHist (ex_fdat c)) = 2%nat) by (clear - Hc; destruct Hc as [-> | ->]; reflexivity). rewrite Hb. cbn [seq existsb forallb map]. rewrite !Mu by lia.
    assert (P : forall k, 0 < ex_mu a b k). { intros k. clear - G. apply ex_fgrid in G. cbn [In] in G. destruct G as [G|[G|[G|[G|[]]]]]; injection G as <- <-; destruct k; reflexivity. }
    assert (P0 : forall k, qeqb (ex_mu a b k) 0 = false) by (intros k; specialize (P k); destruct (qeqb _ _) eqn:Z; [apply qeqb_eq in Z; rewrite Z in P; discriminate|reflexivity]).
    assert (P1 : forall k, qltb 0 (ex_mu a b k) = true) by (intros k; apply qltb_lt, P). rewrite !P0, !P1. cbn [orb andb]. change (cman_eval (con_in (ex_fops c ++ [NReg])) p) with (Ok (0%Qc)). cbv iota beta.
    f_equal. rewrite qr_0. lra.
Qed.
Example C95_nonvacuous : forall p, on_grid ex_fg p -> responds ex_sn ex_sp ex_fb (ex_fops ex_fr1) p /\ exists v, value_at ex_sn ex_sp ex_fb (ex_fops ex_fr1) p = Ok v.
Proof.
  intros p G. split; [apply ex_fresp; [now left|exact G]|]. pose proof (ex_fgrid p G) as G'. destruct G' as [<-|[<-|[<-|[<-|[]]]]]; eexists; (apply ex_fval; [now left|exact G]).
Qed.
(** the statistic is not left at the best fit: it evaluates to something worse than what was reported *)
Theorem C95_left_at_last_refuted : exists names par build ops g s' r e,
  fends g (nlrun (nl_new names par build) ops) s' r /\ well_set g /\ grMaximise g = false /\ In (fBest r) (fSeen r) /\ value_at names par build ops (fBest r) = Ok (fVal r) /\
  nl_getParams s' <> nl_getParams (at_point names par build ops (fBest r)) /\ snd (nl_eval s') = Ok e /\ (fVal r < e)%R.
Proof.
  assert (Hc : ex_fc ex_fr0) by now right.
  destruct (ex_fhyp _ Hc) as [H1 [H2 [H3 [H4 [H5 [H6 [H7 [H8 [H9 [H10 [H11 H12]]]]]]]]]]].
  assert (V : forall a b, on_grid ex_fg (ex_fp a b) -> value_at ex_sn ex_sp ex_fb (ex_fops ex_fr0) (ex_fp a b) = Ok (qr (qz 19 * (a + b)))%R).
  { intros a b G. rewrite (ex_fval _ _ _ Hc G). f_equal. unfold poisson_nll. cbn [seq map rsum fold_right]. change (cont (bdHist (ex_fdat ex_fr0)) 0) with 0. change (cont (bdHist (ex_fdat ex_fr0)) 1) with 0.
    rewrite qr_0. unfold ex_mu. rewrite !qr_plus, !qr_mult, qr_plus, !qr_z. lra. }
  destruct (C95_search_partial ex_sn ex_sp ex_fb ["x"%string] (ex_fops ex_fr0) (ex_fdat ex_fr0) ex_fg 2) as [s' [r [E [ND [Ch [Ord [Bst Lst]]]]]]]; auto using ex_fset.
  { intros p G. split; [now apply ex_fresp|]. pose proof (ex_fgrid p G) as G'. destruct G' as [<-|[<-|[<-|[<-|[]]]]]; eexists; now apply V. }
  assert (Sn : fSeen r = [ex_fp (qz 2) 1; ex_fp 1 (qz 2); ex_fp (qz 2) (qz 2)]).
  { destruct (Ord (fun _ => Ok 1)) as [r1 [[n E1] <-]]; [intros; eexists; reflexivity|]. specialize (E1 (9 + n)%nat ltac:(lia)).
    assert (X : exists q, gOptimise ex_fg (fun _ => Ok 1) (9 + n) = Ok q /\ grSeen q = [ex_fp (qz 2) 1; ex_fp 1 (qz 2); ex_fp (qz 2) (qz 2)]).
    { eexists. split; [vm_compute; reflexivity|]. vm_compute. repeat f_equal; apply Qc_is_canon; reflexivity. }
    destruct X as [q [X <-]]. rewrite X in E1. now injection E1 as ->. }
  assert (Og : forall p, In p (fSeen r) -> on_grid ex_fg p) by (intros p H; now apply Ch in H).
  assert (V1 : value_at ex_sn ex_sp ex_fb (ex_fops ex_fr0) (ex_fp (qz 2) 1) = Ok 57%R).
  { rewrite V by (apply Og; rewrite Sn; cbn; tauto). f_equal. rewrite qr_mult, qr_plus, !qr_z, qr_1. lra. }
  assert (V2 : value_at ex_sn ex_sp ex_fb (ex_fops ex_fr0) (ex_fp 1 (qz 2)) = Ok 57%R).
  { rewrite V by (apply Og; rewrite Sn; cbn; tauto). f_equal. rewrite qr_mult, qr_plus, !qr_z, qr_1. lra. }
  assert (V3 : value_at ex_sn ex_sp ex_fb (ex_fops ex_fr0) (ex_fp (qz 2) (qz 2)) = Ok 76%R).
  { rewrite V by (apply Og; rewrite Sn; cbn; tauto). f_equal. rewrite qr_mult, qr_plus, !qr_z. lra. }
  destruct Bst as [B1 [[e [B2 B3]] B4]]; [rewrite Sn; discriminate| |].
  { intros p H. rewrite Sn in H. destruct H as [<-|[<-|[<-|[]]]]; rewrite ?V1, ?V2, ?V3; intros C; injection C as C; lra. }
  destruct (Lst [ex_fp (qz 2) 1; ex_fp 1 (qz 2)] (ex_fp (qz 2) (qz 2)) Sn) as [L1 L2].
  assert (Le : (fVal r <= 57)%R) by (apply (B4 (ex_fp (qz 2) 1)); [rewrite Sn; now left|exact V1]).
  exists ex_sn, ex_sp, ex_fb, (ex_fops ex_fr0), ex_fg, s', r, 76%R. split; [exact E|]. split; [exact ex_fset|]. split; [reflexivity|]. split; [exact B1|]. cbn [rscore ex_fg grMaximise] in B3. split; [rewrite B3; exact B2|].
  split; [|split; [rewrite L2; exact V3|lra]]. rewrite L1. intros C. rewrite Sn in B1. destruct B1 as [B1|[B1|[B1|[]]]]; rewrite <- B1 in C, B2.
  - apply (f_equal (fun x => match x with Ok p => map (fun kv => this (snd kv)) p | _ => [] end)) in C. vm_compute in C. discriminate.
  - apply (f_equal (fun x => match x with Ok p => map (fun kv => this (snd kv)) p | _ => [] end)) in C. vm_compute in C. discriminate.
  - rewrite V3 in B2. injection B2 as B2. lra.
Qed.
Print Assumptions C95_left_at_last_refuted.
