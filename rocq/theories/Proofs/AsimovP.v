From Coq Require Import ZArith Reals Lia.
From Verif Require Import Base.Res Base.Num Base.RNum Base.SMap Model.Axis Model.Event Model.Cut Model.Hist Model.ED Model.Param Model.Matrix Model.SystMan Model.Shrink Model.EDMan
  Model.Fill Model.Constraint Model.NLLH Model.Grid Model.Fit Spec.AxisSpec Spec.HistSpec Spec.ParamSpec Spec.EDManSpec Spec.SystManSpec Spec.NLLHSpec Spec.NLLHSysSpec Spec.GridSpec Spec.FitSpec Spec.AsimovSpec
  Proofs.NLLHP4 Proofs.NLLHS7 Proofs.NLLHS8 Proofs.FitP2.
From Coq Require Import Lra.

Lemma reg_app ops : let ops' := ops ++ [NReg] in
  NLLHSpec.added ops' = NLLHSpec.added ops /\ data_in ops' = data_in ops /\ con_in ops' = con_in ops /\ bb_in ops' = bb_in ops /\ registered ops' /\
  (forall obs, Forall (steady obs) ops -> Forall (steady obs) ops') /\
  forall names, (forall g, group_in names ops' g = group_in names ops g) /\ (forall q, is_sys names ops' q <-> is_sys names ops q) /\ (forall b, acting_on names ops' b = acting_on names ops b).
Proof.
  cbv zeta. destruct (tuning_app ops [NReg] ltac:(repeat constructor)) as [Ta [Ts [Td [Tc [Tb [_ Tf]]]]]]. split; [exact Ta|]. split; [exact Td|]. split; [exact Tc|]. split; [exact Tb|].
  split; [exists ops, []; split; [reflexivity|constructor]|]. split; [exact Tf|]. intros names.
  assert (Gi : forall g, group_in names (ops ++ [NReg]) g = group_in names ops g) by (intros h; unfold group_in; now rewrite Ts).
  split; [exact Gi|]. split; [intros q; unfold is_sys; split; intros [h H]; exists h; [rewrite <- Gi|rewrite Gi]; exact H|].
  intros b. unfold acting_on. rewrite Ts. destruct (regd _ _) as [gs|]; [|reflexivity]. unfold acting. rewrite Gi. f_equal. apply flat_map_ext, Gi.
Qed.
Section A.
Variables (names : nat -> string) (par : nat -> comp) (build : nat -> comp -> smat * res unit) (obs : list string) (ops : list nlop) (D : bed).
Notation at_pt := (at_point names par build ops).
Notation mu := (mu_at names par build ops).
Notation val_at := (value_at names par build ops).
Notation con := (con_at names par build ops).
Hypothesis C : configured names par build obs ops D.
Lemma value_form d : gives_all names par ops d -> responds names par build ops d -> (exists p, nl_getParams (at_pt d) = Ok p /\ swf p) /\ val_at d = outcome (cont (bdHist D)) (mu d) (hNBins (bdHist D)) (con d).
Proof.
  intros [W [Hk Hks]] [R1 R2]. destruct C as [Hpar [HB [F [Hdn [Hbb [Hdat [HD [Hnd [Hdf Hcov]]]]]]]]].
  destruct (reg_app ops) as [Ta [Td [Tc [Tb [Tr [Tf Tn]]]]]]. destruct (Tn names) as [Gi [Is Ao]].
  destruct (value_sys_tot names par build obs (ops ++ [NReg]) d D) as [s [p [E [_ [_ V]]]]]; rewrite ?Ta, ?Td, ?Tb; auto.
  - intros q. apply Hpar.
  - intros q q' H H'. apply Hdn; now apply Is.
  - intros q n H _. apply Hks. now apply Is.
  - cbv zeta in V. assert (Ea : at_pt d = s) by (unfold at_point; now rewrite E). rewrite Ta in V. rewrite Ea in R1, R2. destruct R2 as [R2 R3].
    destruct (V ltac:(intros q H; apply R1; now apply Is) ltac:(split; [intros h; rewrite Gi; apply R2|intros b Hb; rewrite Ao; now apply R3]) 0%nat) as [G [Wp [_ [_ X]]]].
    cbn [repeat nlrun fold_left] in G, X. split; [exists p; rewrite Ea; auto|]. unfold value_at, con_at. rewrite Ea, G. cbn [bind]. rewrite X, Tc. f_equal.
    apply FunctionalExtensionality.functional_extensionality. intros k. unfold mu_at, expected_sys. rewrite Ea. f_equal. apply map_ext. intros b. f_equal. f_equal. unfold responded. rewrite Ao. reflexivity.
Qed.
Lemma outcome_ok n m nb c v : outcome n m nb c = Ok v -> exists x, c = Ok x /\ (forall k, (k < nb)%nat -> (0 < m k)%Qc) /\ v = (rsum (map (fun k => poisson_nll (qr (n k)) (qr (m k))) (seq 0 nb)) + qr x)%R.
Proof.
  unfold outcome. destruct (existsb _ _); [discriminate|]. destruct c as [x| | | |]; try discriminate. destruct (forallb _ _) eqn:E; [|discriminate]. intros H. injection H as <-. exists x.
  split; [reflexivity|]. split; [|reflexivity]. rewrite forallb_forall in E. intros k Hk. apply qltb_lt, E, in_seq. lia.
Qed.
Lemma outcome_pos n m nb x : (forall k, (k < nb)%nat -> (0 < m k)%Qc) -> outcome n m nb (Ok x) = Ok (rsum (map (fun k => poisson_nll (qr (n k)) (qr (m k))) (seq 0 nb)) + qr x)%R.
Proof.
  intros H. unfold outcome. destruct (existsb _ _) eqn:E.
  - apply existsb_exists in E as [k [Hk E]]. apply in_seq in Hk. apply qeqb_eq in E. specialize (H k ltac:(lia)). rewrite E in H. discriminate.
  - destruct (forallb _ _) eqn:E2; [reflexivity|]. exfalso. rewrite <- not_true_iff_false, forallb_forall in E2. apply E2. intros k Hk. apply in_seq in Hk. apply qltb_lt, H. lia.
Qed.
Lemma sums_min (n m : nat -> Qc) l : (forall k, In k l -> (0 < n k)%Qc /\ (0 < m k)%Qc) ->
  (rsum (map (fun k => poisson_nll (qr (n k)) (qr (n k))) l) <= rsum (map (fun k => poisson_nll (qr (n k)) (qr (m k))) l))%R /\
  (rsum (map (fun k => poisson_nll (qr (n k)) (qr (n k))) l) = rsum (map (fun k => poisson_nll (qr (n k)) (qr (m k))) l) -> forall k, In k l -> m k = n k).
Proof.
  induction l as [|i l IH]; intros H; cbn [map rsum]; [split; [lra|intros _ k []]|]. destruct (IH (fun k Hk => H k (or_intror Hk))) as [I1 I2]. destruct (H i (or_introl eq_refl)) as [A B].
  destruct (poisson_min (qr (n i)) (qr (m i))) as [J1 J2]; [rewrite <- qr_0; apply qr_le, Qclt_le_weak, A|rewrite <- qr_0; apply qr_lt, B|]. split; [lra|]. intros E k [<-|Hk]; [apply qr_inj, J2; lra|apply I2; [lra|exact Hk]].
Qed.
Lemma minimum_at d0 d c0 : gives_all names par ops d0 -> responds names par build ops d0 -> gives_all names par ops d -> responds names par build ops d -> asimov names par build ops D d0 ->
  con d0 = Ok c0 -> (forall c, con d = Ok c -> (c0 <= c)%Qc) ->
  exists v0, val_at d0 = Ok v0 /\ forall v, val_at d = Ok v -> (v0 <= v)%R /\ (v = v0 <-> con d = Ok c0 /\ forall k, (k < hNBins (bdHist D))%nat -> mu d k = mu d0 k).
Proof.
  intros G0 R0 G R A E0 Hc. destruct (value_form d0 G0 R0) as [_ V0]. destruct (value_form d G R) as [_ V]. rewrite E0, outcome_pos in V0 by (intros k Hk; apply A, Hk).
  eexists. split; [exact V0|]. intros v Ev. rewrite V in Ev. apply outcome_ok in Ev as [c [Ec [P ->]]]. specialize (Hc c Ec). apply qr_le in Hc.
  set (nb := hNBins (bdHist D)) in *. set (l := seq 0 nb).
  assert (X0 : map (fun k => poisson_nll (qr (cont (bdHist D) k)) (qr (mu d0 k))) l = map (fun k => poisson_nll (qr (mu d0 k)) (qr (mu d0 k))) l).
  { apply map_ext_in. intros k Hk. apply in_seq in Hk. now rewrite (proj1 (A k ltac:(unfold nb in *; lia))). }
  assert (X : map (fun k => poisson_nll (qr (cont (bdHist D) k)) (qr (mu d k))) l = map (fun k => poisson_nll (qr (mu d0 k)) (qr (mu d k))) l).
  { apply map_ext_in. intros k Hk. apply in_seq in Hk. now rewrite (proj1 (A k ltac:(unfold nb in *; lia))). }
  rewrite X0, X. destruct (sums_min (mu d0) (mu d) l) as [S1 S2]; [intros k Hk; apply in_seq in Hk; split; [apply A|apply P]; unfold nb in *; lia|].
  split; [lra|]. split.
  - intros E. split; [rewrite Ec; f_equal; apply qr_inj; lra|]. intros k Hk. apply S2; [lra|]. apply in_seq. lia.
  - intros [E1 E2]. rewrite Ec in E1. injection E1 as ->. f_equal. f_equal. apply map_ext_in. intros k Hk. apply in_seq in Hk. rewrite E2 by lia. reflexivity.
Qed.
End A.
