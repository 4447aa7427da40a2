From Coq Require Import ZArith.
From Verif Require Import Base.Res Base.Num Base.SMap Model.Axis Model.Event Model.Hist Model.ED Model.Comp Spec.AxisSpec Spec.HistSpec Spec.CutSpec Spec.FillSpec Spec.CompSpec
  Proofs.AxisP Proofs.HistP Proofs.HistP4 Proofs.CutP.
From Coq Require Import Lia.
Local Open Scope Qc_scope.
Local Open Scope res_scope.

(** induction on trees of distributions *)
Lemma dist_rect' (P : dist -> Prop) : (forall b, P (DBin b)) -> (forall a, P (DAna a)) -> (forall n l, (forall d, In d l -> P d) -> P (DComp n l)) -> forall d, P d.
Proof.
  intros A B C. fix IH 1. intros [b|a|n l]; [apply A|apply B|]. apply C. induction l as [|d l IHl]; [intros x []|]. intros x [E|H]; [rewrite <- E; apply IH|now apply IHl].
Qed.
Fixpoint prodM (l : list (res Qc)) (p : Qc) : res Qc := match l with [] => Ok p | r :: t => do q <- r; prodM t (p * q) end.
Lemma dprob_comp e n l : dprob e (DComp n l) = prodM (map (dprob e) l) 1.
Proof. cbn [dprob]. generalize 1. induction l as [|d l IH]; intros p; cbn [map prodM]; [reflexivity|]. destruct (dprob e d); cbn [bind]; auto. Qed.
Lemma dint_comp n l : dintegral (DComp n l) = prodM (map dintegral l) 1.
Proof. cbn [dintegral]. generalize 1. induction l as [|d l IH]; intros p; cbn [map prodM]; [reflexivity|]. destruct (dintegral d); cbn [bind]; auto. Qed.
Lemma prodM_ok l : forall ps p, l = map Ok ps -> prodM l p = Ok (p * product ps).
Proof.
  induction l as [|r l IH]; intros ps p E; destruct ps as [|q ps]; try discriminate; cbn [prodM product fold_right]; [f_equal; ring|].
  injection E as -> E. cbn [bind]. rewrite (IH ps) by exact E. f_equal. unfold product. cbn [fold_right]. ring.
Qed.
Lemma prodM_bad a r b : forall ps p, a = map Ok ps -> (forall q, r <> Ok q) -> prodM (a ++ r :: b) p = r.
Proof.
  induction a as [|x a IH]; intros ps p E H; destruct ps as [|q ps]; try discriminate; cbn [app prodM].
  - destruct r as [q| | | |]; cbn [bind]; try reflexivity. destruct (H q eq_refl).
  - injection E as -> E. cbn [bind]. now apply (IH ps).
Qed.
Lemma forall2_map_ok {A} (f : A -> res Qc) l ps : Forall2 (fun d p => f d = Ok p) l ps -> map f l = map Ok ps.
Proof. induction 1; cbn; congruence. Qed.

Lemma comp_prob_pkg e n l : (forall ps, Forall2 (fun d p => dprob e d = Ok p) l ps -> dprob e (DComp n l) = Ok (product ps)) /\
  (forall a d b ps, l = a ++ d :: b -> Forall2 (fun d p => dprob e d = Ok p) a ps -> (forall q, dprob e d <> Ok q) -> dprob e (DComp n l) = dprob e d).
Proof.
  rewrite dprob_comp. split.
  - intros ps H. rewrite (prodM_ok _ ps) by (now apply forall2_map_ok). f_equal. ring.
  - intros a d b ps -> H X. rewrite map_app. cbn [map]. apply (prodM_bad _ _ _ ps); [now apply forall2_map_ok|exact X].
Qed.
Lemma comp_int_pkg n l ps : Forall2 (fun d p => dintegral d = Ok p) l ps -> dintegral (DComp n l) = Ok (product ps).
Proof. intros H. rewrite dint_comp, (prodM_ok _ ps) by (now apply forall2_map_ok). f_equal. ring. Qed.

Lemma values_obs e o vals : values (osNames o) e vals -> toObsSet e o = Ok vals.
Proof. intros H. change (toObsSet e o) with (toObsSet e (mk_obsset (osNames o))). now apply (proj1 (CutP.toObsSet_pkg e (osNames o))). Qed.
Lemma bed_prob_pkg b e i : bed_ok b -> total (bdHist b) <> 0 -> falls b e i -> (i < hNBins (bdHist b))%nat /\ dprob e (DBin b) = Ok (cont (bdHist b) i / total (bdHist b)).
Proof.
  intros H NZ [vals [V [L F]]]. pose proof (h_reach_ok _ H) as Hok. destruct (fill_ok _ vals 0 Hok L) as [k [E [Hk _]]]. rewrite F in E. injection E as <-. split; [exact Hk|].
  cbn [dprob]. unfold bed_prob, bed_probVals. rewrite (values_obs e _ vals V). cbn [bind]. rewrite F. cbn [bind].
  destruct (bin_access_pkg (bdHist b) i 0 H) as [A _]. rewrite (proj1 (A Hk)). cbn [bind]. rewrite (integral_total _ Hok). cbn [bind]. unfold qdiv. apply qeqb_neq in NZ. now rewrite NZ.
Qed.
Lemma bed_sum_pkg b : bed_ok b -> total (bdHist b) <> 0 -> qsum (map (fun i => cont (bdHist b) i / total (bdHist b)) (seq 0 (hNBins (bdHist b)))) = 1.
Proof.
  intros H NZ. rewrite (qsum_map_ext _ (fun i => / total (bdHist b) * cont (bdHist b) i)) by (intros; unfold Qcdiv; ring). rewrite qsum_map_mul. fold (total (bdHist b)). field. exact NZ.
Qed.
(** Normalise *)
Lemma mapM_dn l : forall l', mapM dnormalise l = Ok l' <-> Forall2 (fun d d' => dnormalise d = Ok d') l l'.
Proof.
  induction l as [|d l IH]; intros l'; unfold mapM in *; cbn [map seqM].
  - split; [intros E; injection E as <-; constructor|]. inversion 1. reflexivity.
  - split.
    + destruct (dnormalise d) as [x| | | |] eqn:E; cbn [bind]; try discriminate. destruct (seqM (map dnormalise l)) as [y| | | |] eqn:E2; cbn [bind]; try discriminate.
      intros X. injection X as <-. constructor; [exact E|]. now apply IH.
    + inversion 1 as [|? y ? l2 A B]; subst. rewrite A. cbn [bind]. apply IH in B. rewrite B. reflexivity.
Qed.
Lemma forall2_ex {A B} (R : A -> B -> Prop) l : (forall x, In x l -> exists y, R x y) -> exists l', Forall2 R l l'.
Proof.
  induction l as [|x l IH]; intros H; [exists []; constructor|]. destruct (H x (or_introl eq_refl)) as [y Hy]. destruct IH as [l' Hl]; [intros; apply H; now right|]. exists (y :: l'). now constructor.
Qed.
Lemma prod_ones n : product (repeat 1 n) = 1.
Proof. induction n as [|n IH]; cbn [repeat product fold_right]; [reflexivity|]. unfold product in IH. rewrite IH. ring. Qed.
Lemma probVals_norm b b' : bed_ok b -> total (bdHist b) <> 0 -> hAxes (bdHist b') = hAxes (bdHist b) -> hNBins (bdHist b') = hNBins (bdHist b) -> hNDims (bdHist b') = hNDims (bdHist b) ->
  List.length (hCont (bdHist b')) = List.length (hCont (bdHist b)) ->
  (forall i, cont (bdHist b') i = cont (bdHist b) i / total (bdHist b)) -> total (bdHist b') = 1 -> integral (bdHist b') = Ok 1 -> forall v, bed_probVals b' v = bed_probVals b v.
Proof.
  intros H NZ EA EB ED EL C T I v. unfold bed_probVals, h_findBin. rewrite EA. destruct (ac_findBin (hAxes (bdHist b)) v) as [k| | | |]; cbn [bind]; try reflexivity.
  rewrite I, (integral_total _ (h_reach_ok _ H)). unfold getBinContent, vidx. rewrite EB.
  destruct (Nat.ltb (hNBins (bdHist b)) k); [reflexivity|]. destruct (nth_error (hCont (bdHist b)) k) as [x|] eqn:E.
  - assert (X : nth_error (hCont (bdHist b')) k = Some (x / total (bdHist b))).
    { assert (k < List.length (hCont (bdHist b)))%nat by (apply nth_error_Some; congruence).
      rewrite (nth_error_nth' _ 0) by lia. f_equal. specialize (C k). unfold cont in C. rewrite C. f_equal. apply nth_error_nth. exact E. }
    rewrite X. cbn [bind]. unfold qdiv. apply qeqb_neq in NZ. rewrite NZ. change (qeqb 1 0) with false. cbv iota. f_equal. unfold Qcdiv. change (/ 1) with 1. ring.
  - apply nth_error_None in E. assert (X : nth_error (hCont (bdHist b')) k = None) by (apply nth_error_None; lia). rewrite X. reflexivity.
Qed.
Lemma normalise_dist_pkg d : dist_ok d -> exists d', dnormalise d = Ok d' /\ dist_ok d' /\ dintegral d' = Ok 1 /\ dname d' = dname d /\ dndims d' = dndims d /\ forall e, dprob e d' = dprob e d.
Proof.
  induction d as [b|a|n l IH] using dist_rect'; intros H; inversion H as [b0 Hb NZ|a0 Ha|n0 l0 Hl]; subst.
  - destruct (normalise_pkg _ Hb) as [NP _]. destruct (NP NZ) as [h1 [E1 _]]. clear NP. pose proof (h_reach_ok _ Hb) as Hok. destruct (normalise_ok _ Hok NZ) as [h' [E [SS [C T]]]].
    pose proof SS as [EA [EB [ED EL]]]. assert (Hr : h_reach h') by (change h' with (fst (h', Ok tt : res unit)); rewrite <- E; now apply hr_normalise).
    assert (T' : integral h' = Ok 1) by (rewrite integral_total; [now rewrite T|eapply same_shape_ok; eassumption]).
    exists (DBin (bed_setHist b h')). split; [cbn [dnormalise]; unfold bed_ret, bed_normalise, bed_on; rewrite E; reflexivity|].
    split; [constructor; [exact Hr|cbn; rewrite T; discriminate]|]. split; [exact T'|]. split; [reflexivity|]. split; [cbn; congruence|]. intros e.
    cbn [dprob]. unfold bed_prob. cbn [bed_setHist bdObs]. destruct (toObsSet e (bdObs b)); cbn [bind]; try reflexivity. apply probVals_norm; try assumption; try (cbn; congruence).
  - eexists. split; [reflexivity|]. split; [now constructor|]. split; [reflexivity|]. split; [reflexivity|]. split; [reflexivity|]. intros e. cbn [dprob]. unfold aned_prob. cbn [anObs anFun anNorm]. now rewrite Ha.
  - destruct (forall2_ex (fun d d' => dnormalise d = Ok d' /\ dist_ok d' /\ dintegral d' = Ok 1 /\ dname d' = dname d /\ dndims d' = dndims d /\ forall e, dprob e d' = dprob e d) l) as [l' F].
    { intros d I. destruct (IH d I (Hl d I)) as [d' X]. now exists d'. }
    exists (DComp n l'). split; [cbn [dnormalise]; rewrite (proj2 (mapM_dn l l')); [reflexivity|]; clear - F; induction F; constructor; tauto|].
    split; [constructor; clear - F; intros d I; induction F as [|x y ? ? R F IHF]; [destruct I|destruct I as [->|I]; [apply R|now apply IHF]]|].
    split; [rewrite (comp_int_pkg n l' (repeat 1 (List.length l'))); [now rewrite prod_ones|]; clear - F; induction F as [|x y ? ? R F IHF]; cbn [List.length repeat]; constructor; [apply R|exact IHF]|].
    split; [reflexivity|]. split.
    + cbn [dndims]. generalize 0%nat. clear - F. induction F as [|x y ? ? R F IHF]; intros m; cbn [fold_left]; [reflexivity|]. assert (Q : dndims y = dndims x) by apply R. rewrite Q. apply IHF.
    + intros e. rewrite !dprob_comp. f_equal. clear - F. induction F as [|x y ? ? R F IHF]; cbn [map]; [reflexivity|]. assert (Q : dprob e y = dprob e x) by apply R. now rewrite Q, IHF.
Qed.
(** Clone *)
Lemma clone_pkg d : (forall e, dprob e (dclone d) = dprob e d) /\ dintegral (dclone d) = dintegral d /\ dndims (dclone d) = dndims d.
Proof.
  induction d as [b|a|n l IH] using dist_rect'; [repeat split..|]. cbn [dclone]. split; [|split].
  - intros e. rewrite !dprob_comp, map_map. f_equal. apply map_ext_in. intros d I. now apply (IH d I).
  - rewrite !dint_comp, map_map. f_equal. apply map_ext_in. intros d I. now apply (IH d I).
  - cbn [dndims]. generalize 0%nat. revert IH. induction l as [|d l IHl]; intros IH m; cbn [map fold_left]; [reflexivity|].
    rewrite (proj2 (proj2 (IH d (or_introl eq_refl)))). apply IHl. intros; apply IH; now right.
Qed.
Lemma dims_pkg n l : dndims (DComp n l) = fold_right (fun d s => (dndims d + s)%nat) 0%nat l.
Proof.
  cbn [dndims]. assert (G : forall m, fold_left (fun n d => (n + dndims d)%nat) l m = (m + fold_right (fun d s => (dndims d + s)%nat) 0%nat l)%nat).
  { induction l as [|d l IH]; intros m; cbn [fold_left fold_right]; [lia|]. rewrite IH. lia. }
  rewrite G. lia.
Qed.
Lemma times_pkg a b e : dprob e (dtimes a b) = (do p <- dprob e a; do q <- dprob e b; Ok (p * q)) /\
  dintegral (dtimes a b) = (do p <- dintegral a; do q <- dintegral b; Ok (p * q)) /\ dndims (dtimes a b) = (dndims a + dndims b)%nat /\
  (forall c, dprob e (dtimes (dtimes a b) c) = dprob e (compose [a; b; c])) /\ dprob e (compose [a; b]) = dprob e (dtimes a b).
Proof.
  unfold dtimes, compose. split; [|split; [|split; [|split]]].
  - rewrite dprob_comp. cbn [map prodM]. rewrite (proj1 (clone_pkg a)), (proj1 (clone_pkg b)). destruct (dprob e a) as [p| | | |]; cbn [bind]; try reflexivity. destruct (dprob e b) as [q| | | |]; cbn [bind]; try reflexivity. f_equal. ring.
  - rewrite dint_comp. cbn [map prodM]. rewrite (proj1 (proj2 (clone_pkg a))), (proj1 (proj2 (clone_pkg b))). destruct (dintegral a) as [p| | | |]; cbn [bind]; try reflexivity. destruct (dintegral b) as [q| | | |]; cbn [bind]; try reflexivity. f_equal. ring.
  - rewrite dims_pkg. cbn [fold_right]. rewrite (proj2 (proj2 (clone_pkg a))), (proj2 (proj2 (clone_pkg b))). lia.
  - intros c. rewrite !dprob_comp. cbn [map prodM]. rewrite (proj1 (clone_pkg (DComp _ _))), dprob_comp. cbn [map prodM]. rewrite !(proj1 (clone_pkg _)).
    destruct (dprob e a) as [p| | | |]; cbn [bind]; try reflexivity. destruct (dprob e b) as [q| | | |]; cbn [bind]; try reflexivity. destruct (dprob e c) as [r| | | |]; cbn [bind]; try reflexivity. f_equal. ring.
  - now rewrite !dprob_comp.
Qed.
Lemma bed_errors_pkg b e : bed_ok b ->
  (forall ns n, evNames e = Some ns -> List.length ns = List.length (evObs e) -> In n (osNames (bdObs b)) -> ~ In n ns -> dprob e (DBin b) = Throw NotFoundError) /\
  (forall vals, values (osNames (bdObs b)) e vals -> List.length vals <> hNDims (bdHist b) -> dprob e (DBin b) = Throw DimensionError).
Proof.
  intros H. cbn [dprob]. unfold bed_prob. split.
  - intros ns n E L I NI. change (toObsSet e (bdObs b)) with (toObsSet e (mk_obsset (osNames (bdObs b)))). destruct (toObsSet_pkg e (osNames (bdObs b))) as [_ [P _]].
    rewrite (P ns E L (ex_intro _ n (conj I NI))). reflexivity.
  - intros vals V L. rewrite (values_obs e _ vals V). cbn [bind]. unfold bed_probVals, h_findBin, ac_findBin.
    pose proof (h_reach_ok _ H) as Hok. destruct Hok as [A [B [C [D F]]]]. pose proof A as [_ [_ [A3 _]]]. rewrite D in L. destruct (Nat.eqb_spec (List.length vals) (acNDims (hAxes (bdHist b)))) as [X|X]; [|reflexivity]. rewrite X in L. congruence.
Qed.
Lemma bed_marg_pkg b names m : bed_marginalise b names = Ok m -> marginalise (bdHist b) names = Ok (bdHist m) /\ osNames (bdObs m) = names.
Proof. unfold bed_marginalise. destruct (marginalise (bdHist b) names) as [h| | | |]; cbn [bind]; try discriminate. intros E. injection E as <-. split; reflexivity. Qed.
Lemma ana_pkg n f dims o e vals : values (osNames o) e vals -> let a := aned_setObs (aned_new n f dims) o in
  dprob e (DAna a) = f vals /\ dintegral (DAna a) = Ok 1 /\ dndims (DAna a) = dims.
Proof.
  intros V a. split; [|split; reflexivity]. cbn [dprob]. unfold aned_prob, a. cbn [aned_setObs aned_new anObs anFun anNorm]. rewrite (values_obs e o vals V). cbn [bind].
  destruct (f vals) as [y| | | |]; cbn [bind]; try reflexivity. unfold qdiv. change (qeqb 1 0) with false. cbv iota. f_equal. unfold Qcdiv. change (/ 1) with 1. ring.
Qed.
