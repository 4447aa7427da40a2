From Coq Require Import ZArith Sorted.
From Verif Require Import Base.Res Base.Num Base.SMap Model.Axis Model.Hist Model.Rand Model.Grid Spec.GridSpec Proofs.GenP Proofs.GenP8 Proofs.GridP Proofs.GridP2.
From Coq Require Import Lia.
Local Open Scope nat_scope.

Lemma dict_eqb_eq a b : dict_eqb a b = true <-> a = b.
Proof.
  revert b. induction a as [|[k x] a IH]; intros [|[k' y] b]; cbn; split; intros H; try discriminate; try reflexivity.
  - apply andb_true_iff in H. destruct H as [H H3]. apply andb_true_iff in H. destruct H as [H1 H2]. apply String.eqb_eq in H1. apply qeqb_eq in H2. apply IH in H3. congruence.
  - injection H as -> -> ->. rewrite String.eqb_refl, qeqb_refl. cbn. apply IH. reflexivity.
Qed.
Lemma keys_eqb_eq a b : keys_eqb a b = true <-> a = b.
Proof.
  revert b. induction a as [|k a IH]; intros [|k' b]; cbn; split; intros H; try discriminate; try reflexivity.
  - apply andb_true_iff in H. destruct H as [H1 H3]. apply String.eqb_eq in H1. apply IH in H3. congruence.
  - injection H as -> ->. rewrite String.eqb_refl. cbn. apply IH. reflexivity.
Qed.
Lemma val_mp h A a : NoDup (map gk A) -> In a A -> val (mp h A) (gk a) = h a.
Proof. intros N H. unfold val. rewrite sfind_mp by assumption. reflexivity. Qed.
Lemma val_app_r (p q : smap Qc) k : ~ In k (skeys p) -> val (p ++ q) k = val q k.
Proof.
  unfold val. intros H. replace (sfind k (p ++ q)) with (sfind k q); [reflexivity|]. induction p as [|[k' x] p IH]; [reflexivity|]. cbn [app sfind]. cbn in H. destruct (String.eqb_spec k k'); [subst; exfalso; auto|]. apply IH. intros C. apply H. right. exact C.
Qed.
Lemma zip_forall (P : Qc -> gax -> Prop) A zs : NoDup (map gk A) -> List.length zs = List.length A -> (Forall2 P zs A <-> forall a, In a A -> P (val (zipd A zs) (gk a)) a).
Proof.
  revert zs. induction A as [|a A IH]; intros [|z zs] N L; cbn in L; try discriminate.
  - split; [intros _ a []|constructor].
  - inversion N as [|? ? Hn Nd]; subst. injection L as L. assert (V0 : val (zipd (a :: A) (z :: zs)) (gk a) = z) by (unfold val, zipd; cbn; rewrite String.eqb_refl; reflexivity).
    assert (V1 : forall a', In a' A -> val (zipd (a :: A) (z :: zs)) (gk a') = val (zipd A zs) (gk a')).
    { intros a' Ha. unfold val, zipd. cbn. destruct (String.eqb_spec (gk a') (gk a)) as [E|]; [|reflexivity]. exfalso. apply Hn. rewrite <- E. apply in_map. exact Ha. }
    split.
    + intros H. inversion H as [|? ? ? ? Hz Ht]; subst. intros a' [<-|Ha]; [rewrite V0; exact Hz|]. rewrite V1 by exact Ha. apply IH; assumption.
    + intros H. constructor; [rewrite <- V0; apply H; left; reflexivity|]. apply IH; [assumption..|]. intros a' Ha. rewrite <- V1 by exact Ha. apply H. right. exact Ha.
Qed.
Lemma zipd_app A1 A2 xs ys : List.length xs = List.length A1 -> zipd (A1 ++ A2) (xs ++ ys) = zipd A1 xs ++ zipd A2 ys.
Proof. revert xs. induction A1 as [|a A1 IH]; intros [|x xs] L; cbn in *; try discriminate; [reflexivity|]. f_equal. apply IH. lia. Qed.
Lemma pgrid_len A xs : In xs (pgrid A) -> List.length xs = List.length A.
Proof. rewrite pgrid_in. intros H. induction H; cbn; congruence. Qed.

(** folding the comparison *)
Lemma better_fold b fe ps : forall r, let r' := fold_left (better b fe) ps r in grSeen r' = grSeen r ++ ps.
Proof.
  induction ps as [|p ps IH]; intros r; cbn; [rewrite app_nil_r; reflexivity|]. rewrite IH. unfold better. destruct (_ || _); cbn; rewrite <- app_assoc; reflexivity.
Qed.
Definition sc (b : bool) (fe : smap Qc -> Qc) (p : smap Qc) : Qc := if b then (fe p * - (1))%Qc else fe p.
Lemma better_min b fe ps : (forall p, In p ps -> fe p <> Q2Qc 0) -> forall r, grVal r <> Q2Qc 0 -> let r' := fold_left (better b fe) ps r in
  grVal r' <> Q2Qc 0 /\ (grVal r' <= grVal r)%Qc /\ (forall p, In p ps -> (grVal r' <= sc b fe p)%Qc) /\ (grBest r' = grBest r /\ grVal r' = grVal r \/ In (grBest r') ps /\ grVal r' = sc b fe (grBest r')).
Proof.
  induction ps as [|p ps IH]; intros Hz r Hr; cbn; [split; [exact Hr|]; split; [apply Qcle_refl|]; split; [intros p []|left; auto]|].
  assert (Hp : sc b fe p <> Q2Qc 0). { unfold sc. assert (fe p <> Q2Qc 0) by (apply Hz; left; reflexivity). destruct b; [|exact H]. intros C. apply H. transitivity ((fe p * - (1)) * - (1))%Qc; [ring|rewrite C; ring]. }
  assert (B : let r1 := better b fe r p in grVal r1 <> Q2Qc 0 /\ (grVal r1 <= grVal r)%Qc /\ (grVal r1 <= sc b fe p)%Qc /\ (grBest r1 = grBest r /\ grVal r1 = grVal r \/ grBest r1 = p /\ grVal r1 = sc b fe p)).
  { unfold better. fold (sc b fe p). destruct (qltb (sc b fe p) (grVal r)) eqn:E; cbn [orb].
    - apply qltb_lt in E. cbn. split; [exact Hp|]. split; [apply Qclt_le_weak; exact E|]. split; [apply Qcle_refl|right; auto].
    - destruct (qeqb (grVal r) 0) eqn:E2; [apply qeqb_eq in E2; contradiction|]. apply qltb_ge in E. cbn. split; [exact Hr|]. split; [apply Qcle_refl|]. split; [exact E|left; auto]. }
  destruct B as [B1 [B2 [B3 B4]]]. destruct (IH (fun q H => Hz q (or_intror H)) (better b fe r p) B1) as [C1 [C2 [C3 C4]]].
  split; [exact C1|]. split; [eapply Qcle_trans; eassumption|]. split.
  - intros q [<-|Hq]; [eapply Qcle_trans; eassumption|apply C3; exact Hq].
  - destruct C4 as [[C4 C5]|[C4 C5]]; [|right; split; [right; exact C4|exact C5]]. rewrite C4, C5. destruct B4 as [[B4 B5]|[B4 B5]]; [left; auto|right; rewrite B4; split; [left; reflexivity|exact B5]].
Qed.
Lemma better_all b fe p0 ps : (forall p, In p (p0 :: ps) -> fe p <> Q2Qc 0) -> let r' := fold_left (better b fe) (p0 :: ps) (mkGres sempty 0 []) in
  In (grBest r') (p0 :: ps) /\ grVal r' = sc b fe (grBest r') /\ forall p, In p (p0 :: ps) -> (grVal r' <= sc b fe p)%Qc.
Proof.
  intros Hz. cbn [fold_left]. assert (Hb : better b fe (mkGres sempty 0 []) p0 = mkGres p0 (sc b fe p0) [p0]).
  { unfold better. cbn [grVal grBest grSeen app]. change (qeqb 0 0) with true. rewrite orb_true_r. reflexivity. }
  rewrite Hb. clear Hb.
  set (r0 := mkGres p0 _ _).
  assert (H0 : grVal r0 <> Q2Qc 0). { cbn. unfold sc. assert (fe p0 <> Q2Qc 0) by (apply Hz; left; reflexivity). destruct b; [|exact H]. intros C. apply H. transitivity ((fe p0 * - (1)) * - (1))%Qc; [ring|rewrite C; ring]. }
  destruct (better_min b fe ps (fun q H => Hz q (or_intror H)) r0 H0) as [C1 [C2 [C3 C4]]]. 
  destruct C4 as [[C4 C5]|[C4 C5]].
  - rewrite C4, C5. split; [left; reflexivity|]. split; [reflexivity|]. intros p [<-|Hp]; [apply Qcle_refl|]. rewrite <- C5. apply C3. exact Hp.
  - split; [right; exact C4|]. split; [exact C5|]. intros p [<-|Hp]; [exact C2|apply C3; exact Hp].
Qed.

(** settings as axes *)
Lemma as_axes g : well_set g -> exists A, g = gr A (grMaximise g) /\ StronglySorted slt (map gk A) /\ Forall gax_ok A /\ dict_eqb (mp gmn A) (mp gmx A) = false /\
  Forall (fun a => (gmx a - gmn a < qz (2 ^ 64) * gst a)%Qc) A /\ List.length (grMin g) = List.length A.
Proof.
  intros [W1 [W2 [W3 [K1 [K2 [Hne H]]]]]]. destruct (axes_of_spec (grMin g) (grMax g) (grStep g) K1 K2) as [E1 [E2 E3]]. set (A := axes_of _ _ _) in *. clearbody A.
  assert (Ks : skeys (grMin g) = map gk A) by (rewrite E1; apply mp_keys). assert (Hs : StronglySorted slt (map gk A)) by (rewrite <- Ks; exact W1).
  assert (N : NoDup (map gk A)) by (rewrite <- Ks; apply swf_nodup; exact W1).
  assert (F : forall a, In a A -> (0 < gst a)%Qc /\ (gmn a <= gmx a)%Qc /\ (gmx a - gmn a < qz (2 ^ 64) * gst a)%Qc).
  { intros a Ha. specialize (H (gk a)). rewrite Ks in H. specialize (H (in_map gk _ _ Ha)). rewrite E1, E2, E3 in H. rewrite !val_mp in H by assumption. exact H. }
  exists A. split; [destruct g; cbn in *; unfold gr; congruence|]. split; [exact Hs|]. split; [apply Forall_forall; intros a Ha; destruct (F a Ha) as [U [V _]]; split; assumption|]. split.
  - destruct (dict_eqb _ _) eqn:D; [|reflexivity]. apply dict_eqb_eq in D. exfalso. apply Hne. congruence.
  - split; [apply Forall_forall; intros a Ha; apply F; exact Ha|]. rewrite E1. apply map_length.
Qed.
Lemma counts_ok A b : NoDup (map gk A) -> Forall gax_ok A -> Forall (fun a => (gmx a - gmn a < qz (2 ^ 64) * gst a)%Qc) A -> exists l, mapM (gCount (gr A b)) (grMin (gr A b)) = Ok l.
Proof.
  intros N F B. assert (G : forall a, In a A -> exists c, gCount (gr A b) (gk a, gmn a) = Ok c).
  { intros a Ha. rewrite Forall_forall in F, B. destruct (F a Ha) as [Hs Hm]. specialize (B a Ha). unfold gCount. cbn [fst snd grMax grStep gr]. rewrite !sfind_mp by assumption.
    destruct (qeqb (gst a) 0) eqn:Z0; [apply qeqb_eq in Z0; rewrite Z0 in Hs; exfalso; exact (Qclt_not_eq _ _ Hs eq_refl)|].
    assert (E : ((gmx a - gmn a) / gst a * gst a = gmx a - gmn a)%Qc) by (rewrite Qcmult_comm; apply Qcmult_div_r; intros C; rewrite C in Hs; exact (Qclt_not_eq _ _ Hs eq_refl)).
    assert (P : (0 <= (gmx a - gmn a) / gst a)%Qc) by (apply div_nonneg; [exact Hs|]; qlra). set (q := ((gmx a - gmn a) / gst a)%Qc) in *. clearbody q.
    assert (U : (q < qz (2 ^ 64))%Qc) by (set (z := qz (2 ^ 64)) in *; clearbody z; clear Z0; qnra). destruct (qtrunc_bounds q _ P U) as [U1 U2].
    destruct (Z.ltb_spec (qtrunc q) 0); [lia|]. destruct (Z.leb_spec (2 ^ 64) (qtrunc q)); [lia|]. eexists. reflexivity. }
  cbn [grMin gr]. unfold mp. revert G. generalize (gr A b). intros g G. clear -G. induction A as [|a A IH]; cbn [map]; [exists []; reflexivity|].
  destruct (G a (or_introl eq_refl)) as [c Ec]. destruct IH as [l El]; [intros a' Ha; apply G; right; exact Ha|]. unfold mapM in *. cbn [map seqM]. rewrite Ec. cbn [bind]. rewrite El. eexists. reflexivity.
Qed.
Lemma optimise_eq A b f fuel : StronglySorted slt (map gk A) -> Forall gax_ok A -> Forall (fun a => (gmx a - gmn a < qz (2 ^ 64) * gst a)%Qc) A ->
  gOptimise (gr A b) f fuel = gLoop (gr A b) f fuel (mp gmn A) (mkGres sempty 0 []).
Proof.
  intros Hs F B. unfold gOptimise. cbn [grStep grMax grMin gr]. unfold hasSameKeys. rewrite !mp_keys. assert (K : keys_eqb (map gk A) (map gk A) = true) by (apply keys_eqb_eq; reflexivity). rewrite K. cbn [negb orb].
  destruct (counts_ok A b) as [l El]; [apply keys_nodup; exact Hs|assumption..|]. cbn [grMin gr] in El. rewrite El. reflexivity.
Qed.
Lemma ongrid_zip A b zs : NoDup (map gk A) -> Forall gax_ok A -> List.length zs = List.length A -> (on_grid (gr A b) (zipd A zs) <-> In zs (pgrid A)).
Proof.
  intros N F L. rewrite pgrid_in. rewrite (zip_forall _ A zs N L). unfold on_grid. cbn [grMin grMax grStep gr]. rewrite mp_keys, zipd_keys by exact L. rewrite Forall_forall in F. split.
  - intros [_ H] a Ha. apply pts_in; [apply F; exact Ha|]. specialize (H (gk a) (in_map gk _ _ Ha)). rewrite !val_mp in H by assumption. exact H.
  - intros H. split; [reflexivity|]. intros k Hk. apply in_map_iff in Hk. destruct Hk as [a [<- Ha]]. rewrite !val_mp by assumption. apply pts_in; [apply F; exact Ha|]. apply H. exact Ha.
Qed.
