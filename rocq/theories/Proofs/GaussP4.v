From Coq Require Import ZArith.
From Verif Require Import Base.Res Base.Num Base.SMap Model.Axis Model.Hist Model.Param Model.Gauss Spec.GaussSpec Proofs.AxisP Proofs.HistP Proofs.GaussP Proofs.GaussP3.
From Coq Require Import Lia.
Local Open Scope Qc_scope.
Local Open Scope res_scope.

Lemma jDiff_ok x : forall x2, List.length x = List.length x2 -> exists d, jDiff x x2 = Ok d /\ List.length d = List.length x /\
  forall i, (i < List.length x)%nat -> nth i d 0 = nth i x 0 - nth i x2 0.
Proof.
  induction x as [|a x IH]; intros [|b x2] L; try discriminate L; cbn [jDiff].
  - exists []. repeat split. cbn. intros; lia.
  - destruct (IH x2) as [d [E [Ld N]]]; [now injection L|]. rewrite E. cbn [bind]. exists ((a - b) :: d). split; [reflexivity|]. split; [cbn; congruence|].
    intros [|i] Hi; cbn in *; [reflexivity|apply N; lia].
Qed.
Lemma jDiff_translate x : forall x2 d, List.length x = List.length x2 -> List.length x2 = List.length d -> jDiff (translate x d) (translate x2 d) = jDiff x x2.
Proof.
  induction x as [|a x IH]; intros [|b x2] [|c d] L M; try discriminate L; try discriminate M; cbn [translate jDiff]; [reflexivity|].
  rewrite IH by (cbn in *; lia). destruct (jDiff x x2); cbn [bind]; try reflexivity. f_equal. f_equal. ring.
Qed.
Lemma jump_pkg U g mins maxs x2 : List.length mins = List.length x2 -> List.length maxs = List.length x2 -> 
  (forall d, List.length d = List.length x2 -> jIntegral U (Some g) (translate mins d) (translate maxs d) (translate x2 d) = jIntegral U (Some g) mins maxs x2) /\
  exists lo hi, (forall i, (i < List.length x2)%nat -> nth i lo 0 = nth i mins 0 - nth i x2 0 /\ nth i hi 0 = nth i maxs 0 - nth i x2 0) /\
    List.length lo = List.length x2 /\ List.length hi = List.length x2 /\ jIntegral U (Some g) mins maxs x2 = gIntegral U g lo hi.
Proof.
  intros L1 L2. split.
  - intros d Ld. unfold jIntegral. rewrite !jDiff_translate by lia. reflexivity.
  - destruct (jDiff_ok mins x2 L1) as [lo [E1 [M1 N1]]]. destruct (jDiff_ok maxs x2 L2) as [hi [E2 [M2 N2]]]. exists lo, hi.
    split; [intros i Hi; split; [apply N1|apply N2]; lia|]. split; [lia|]. split; [lia|]. unfold jIntegral. rewrite E1. cbn [bind]. rewrite E2. reflexivity.
Qed.
Lemma jump_unit U g mins maxs x2 : cdf_like U -> sized g -> positive_widths g -> List.length x2 = gND g -> a_box (gND g) mins maxs ->
  exists p, jIntegral U (Some g) mins maxs x2 = Ok p /\ 0 <= p /\ p <= 1.
Proof.
  intros HU Hs Hp Lx [L1 [L2 Hb]]. destruct (jump_pkg U g mins maxs x2) as [_ [lo [hi [N [M1 [M2 E]]]]]]; try lia.
  destruct (integral_pkg U g lo hi HU Hs Hp) as [p [Ep [P1 [P2 _]]]].
  - split; [lia|]. split; [lia|]. intros i Hi. destruct (N i ltac:(lia)) as [-> ->]. specialize (Hb i Hi). qlra.
  - exists p. rewrite E. tauto.
Qed.

(** SetParameters *)
Lemma setAll_pkg d : NoDup (skeys d) -> forall g, sized g -> exists g', gSetAll d g = Ok g' /\ set_all_effect d g g' /\ sized g'.
Proof.
  unfold gSetAll. induction d as [|[k v] d IH]; intros Hnd g Hs; cbn [foldM].
  - exists g. split; [reflexivity|]. split; [|exact Hs]. repeat split.
  - cbn [fst snd]. destruct (set_pkg k v g Hs) as [g1 [-> [X S1]]]. cbn [bind]. inversion Hnd as [|? ? Hk Hnd']; subst.
    destruct (IH Hnd' g1 S1) as [g2 [E [Y S2]]]. exists g2. split; [exact E|]. split; [|exact S2].
    destruct X as [X1 [X2 [X3 [X4 [X5 [X6 X7]]]]]]. destruct Y as [Y1 [Y2 [Y3 [Y4 [Y5 [Y6 Y7]]]]]].
    unfold set_all_effect. rewrite Y1, Y2, Y3, Y4, Y5. repeat split; try assumption.
    + intros i Hi. rewrite Y6 by lia. specialize (X6 i Hi). unfold mean_name in *. rewrite X4. cbn [sfind].
      destruct (String.eqb_spec (nth i (gMN g) ""%string) k) as [Q|N].
      * rewrite Q. rewrite (proj2 (sfind_not_in k d)) by exact Hk. exact X6.
      * rewrite X6. reflexivity.
    + intros i Hi. rewrite Y7 by lia. specialize (X7 i Hi). unfold std_name in *. rewrite X5. cbn [sfind].
      destruct (String.eqb_spec (nth i (gSN g) ""%string) k) as [Q|N].
      * rewrite Q. rewrite (proj2 (sfind_not_in k d)) by exact Hk. exact X7.
      * rewrite X7. reflexivity.
Qed.
Lemma gauss_ext g h : sized g -> sized h -> gName g = gName h -> gCut g = gCut h -> gND g = gND h -> gMN g = gMN h -> gSN g = gSN h ->
  (forall i, (i < gND g)%nat -> mean_of g i = mean_of h i) -> (forall i, (i < gND g)%nat -> std_of g i = std_of h i) -> g = h.
Proof.
  intros [A1 [A2 _]] [B1 [B2 _]]. destruct g as [a m s c d mn sn], h as [a' m' s' c' d' mn' sn']. unfold mean_of, std_of. cbn in *. intros -> -> -> -> -> M T. f_equal.
  - apply nth_ext with (d := 0) (d' := 0); [lia|]. intros i Hi. apply M. lia.
  - apply nth_ext with (d := 0) (d' := 0); [lia|]. intros i Hi. apply T. lia.
Qed.
Lemma setAll_over d d' g g1 : sized g -> NoDup (skeys d) -> NoDup (skeys d') -> (forall k, In k (skeys d) -> In k (skeys d')) -> gSetAll d g = Ok g1 ->
  gSetAll d' g1 = gSetAll d' g.
Proof.
  intros Hs N N' Inc E. destruct (setAll_pkg d N g Hs) as [g1' [E1 [X S1]]]. rewrite E in E1. injection E1 as <-.
  destruct (setAll_pkg d' N' g1 S1) as [h1 [F1 [Y1 T1]]]. destruct (setAll_pkg d' N' g Hs) as [h2 [F2 [Y2 T2]]]. rewrite F1, F2. f_equal.
  destruct X as [A1 [A2 [A3 [A4 [A5 [A6 A7]]]]]]. destruct Y1 as [B1 [B2 [B3 [B4 [B5 [B6 B7]]]]]]. destruct Y2 as [C1 [C2 [C3 [C4 [C5 [C6 C7]]]]]].
  apply gauss_ext; try assumption; try congruence.
  - intros i Hi. rewrite B6 by lia. rewrite C6 by lia. unfold mean_name in *. rewrite A4. destruct (sfind (nth i (gMN g) ""%string) d') eqn:Q; [reflexivity|].
    rewrite A6 by lia. rewrite (proj2 (sfind_not_in _ d)); [reflexivity|]. intros I. apply Inc in I. apply sfind_not_in in Q. tauto.
  - intros i Hi. rewrite B7 by lia. rewrite C7 by lia. unfold std_name in *. rewrite A5. destruct (sfind (nth i (gSN g) ""%string) d') eqn:Q; [reflexivity|].
    rewrite A7 by lia. rewrite (proj2 (sfind_not_in _ d)); [reflexivity|]. intros I. apply Inc in I. apply sfind_not_in in Q. tauto.
Qed.

(** VaryingCDF *)
Lemma setup_go x2 (fns : smap (list Qc -> res Qc)) : NoDup (skeys fns) -> forall d0 d, swf d0 ->
  foldM (fun d (e : string * (list Qc -> res Qc)) => do v <- snd e x2; Ok (sset (fst e) v d)) fns d0 = Ok d ->
  swf d /\ (forall k, In k (skeys d) <-> In k (skeys d0) \/ In k (skeys fns)) /\
  (forall k, match sfind k fns with Some f => exists v, f x2 = Ok v /\ sfind k d = Some v | None => sfind k d = sfind k d0 end).
Proof.
  induction fns as [|[k0 f0] fns IH]; intros Hnd d0 d W; cbn [foldM].
  - intros [= <-]. split; [exact W|]. split; [cbn; tauto|]. intros k. reflexivity.
  - cbn [fst snd]. destruct (f0 x2) as [v0| | | |] eqn:F; cbn [bind]; try discriminate. intros E. inversion Hnd as [|? ? Hk Hnd']; subst.
    destruct (IH Hnd' _ _ (sset_wf k0 v0 d0 W) E) as [A [B C]]. split; [exact A|]. split.
    + intros k. rewrite B, skeys_sset_in. cbn. intuition.
    + intros k. cbn [sfind]. specialize (C k). destruct (String.eqb_spec k k0) as [Q|N].
      * rewrite Q in *. rewrite (proj2 (sfind_not_in k0 fns)) in C by exact Hk. exists v0. rewrite C, sfind_sset_eq. tauto.
      * destruct (sfind k fns); [exact C|]. rewrite C. now apply sfind_sset_neq.
Qed.
Lemma setup_ok fns x2 d : swf fns -> vSetup fns x2 = Ok d ->
  swf d /\ (forall k, In k (skeys d) <-> In k (skeys fns)) /\ (forall k f, sfind k fns = Some f -> exists v, f x2 = Ok v /\ sfind k d = Some v).
Proof.
  intros W E. destruct (setup_go x2 fns (swf_nodup _ W) sempty d sempty_wf E) as [A [B C]]. split; [exact A|]. split; [intros k; rewrite B; cbn; tauto|].
  intros k f Q. specialize (C k). rewrite Q in C. exact C.
Qed.
Lemma varying_pkg U fns k mins maxs x2 k1 v1 : swf fns -> sized k -> vIntegral U fns k mins maxs x2 = Ok (k1, v1) ->
  sized k1 /\
  (forall i, (i < gND k)%nat -> match sfind (mean_name k i) fns with Some f => f x2 = Ok (mean_of k1 i) | None => mean_of k1 i = mean_of k i end) /\
  (forall i, (i < gND k)%nat -> match sfind (std_name k i) fns with Some f => f x2 = Ok (std_of k1 i) | None => std_of k1 i = std_of k i end) /\
  jIntegral U (Some k1) mins maxs x2 = Ok v1 /\
  (forall mins' maxs' x2', vIntegral U fns k1 mins' maxs' x2' = vIntegral U fns k mins' maxs' x2').
Proof.
  intros W Hs. unfold vIntegral. destruct (vSetup fns x2) as [d| | | |] eqn:E; cbn [bind]; try discriminate.
  destruct (setup_ok _ _ _ W E) as [Wd [Kd Vd]]. destruct (setAll_pkg d (swf_nodup _ Wd) k Hs) as [k' [F [X S1]]]. rewrite F. cbn [bind].
  destruct (jIntegral U (Some k') mins maxs x2) as [v| | | |] eqn:J; cbn [bind]; try discriminate. intros [= <- <-]. split; [exact S1|].
  pose proof X as [A1 [A2 [A3 [A4 [A5 [A6 A7]]]]]]. split; [|split; [|split; [exact J|]]].
  - intros i Hi. specialize (A6 i Hi). destruct (sfind (mean_name k i) fns) as [f|] eqn:Q.
    + destruct (Vd _ _ Q) as [w [Fw Sw]]. rewrite Sw in A6. congruence.
    + rewrite (proj2 (sfind_not_in _ d)) in A6; [exact A6|]. rewrite Kd. now apply sfind_not_in.
  - intros i Hi. specialize (A7 i Hi). destruct (sfind (std_name k i) fns) as [f|] eqn:Q.
    + destruct (Vd _ _ Q) as [w [Fw Sw]]. rewrite Sw in A7. congruence.
    + rewrite (proj2 (sfind_not_in _ d)) in A7; [exact A7|]. rewrite Kd. now apply sfind_not_in.
  - intros m' M' y. destruct (vSetup fns y) as [d'| | | |] eqn:E'; cbn [bind]; try reflexivity. destruct (setup_ok _ _ _ W E') as [Wd' [Kd' _]].
    rewrite (setAll_over d d' k k' Hs (swf_nodup _ Wd) (swf_nodup _ Wd') ltac:(intros z; rewrite Kd, Kd'; tauto) F). reflexivity.
Qed.
