(** C99: pdfs with more observables than the data; packaged. *)
From Coq Require Import ZArith Reals Lia.
From Verif Require Import Base.Res Base.Num Base.RNum Base.SMap Model.Axis Model.Event Model.Cut Model.Hist Model.ED Model.Param Model.Matrix Model.SystMan Model.Shrink Model.EDMan
  Model.Fill Model.Constraint Model.NLLH Spec.AxisSpec Spec.HistSpec Spec.HistToolsSpec Spec.ParamSpec Spec.EDManSpec Spec.SystManSpec Spec.NLLHSpec Spec.NLLHSysSpec Spec.ShrinkSpec Spec.BufferSpec Spec.ProjSpec
  Proofs.AxisP Proofs.HistP Proofs.HistP2 Proofs.HistP4 Proofs.ParamP Proofs.ParamP2 Proofs.ParamP3 Proofs.EDManP Proofs.EDManP2 Proofs.SystManP Proofs.SystManP2 Proofs.SystManP3 Proofs.NLLHP Proofs.NLLHP2
  Proofs.NLLHP3 Proofs.NLLHS1 Proofs.NLLHS2 Proofs.NLLHS6 Proofs.NLLHS8 Proofs.BufferP1 Proofs.BufferP2 Proofs.BufferP3 Proofs.BufferP4 Proofs.BufferP5 Proofs.ProjP1 Proofs.ProjP2 Proofs.ProjP3.
Local Open Scope Qc_scope.
Local Open Scope res_scope.

Lemma pdfs_setting obs ops : Forall (setting_pdfs obs) ops -> forall bb o st r, In (o, st, r) (pdfs_from bb ops) -> osNames (bdObs o) = obs /\ h_reach (bdHist o).
Proof.
  induction 1 as [|a ops H F IH]; intros bb o st r0 Hi; [destruct Hi|].
  destruct a as [b g [r|] st0| | | | | | y | | | | | |]; cbn [pdfs_from setting_pdfs] in *; try (eapply IH; eassumption).
  - destruct Hi as [E|Hi]; [injection E as <- <- <-; exact H|eapply IH; eassumption].
  - destruct bb; [eapply IH; eassumption|]. destruct Hi as [E|Hi]; [injection E as <- <- <-; exact H|eapply IH; eassumption].
Qed.
Lemma no_buffers ops : Forall no_buffer ops -> shBuf (configured (buffers ops)) = [].
Proof.
  unfold configured. intros F. assert (G : forall y, shBuf y = [] -> shBuf (fold_left sh_do (buffers ops) y) = []).
  { induction F as [|o ops H F IH]; intros y E; [exact E|]. destruct o; cbn [buffers no_buffer fold_left] in *; try contradiction; now apply IH. }
  apply G. reflexivity.
Qed.
Lemma works_in p R : loose p -> worksG p R -> forall w, In w (emWork p) -> exists i o st, nth_error (emOrig p) i = Some o /\ nth_error (emStat p) i = Some st /\ In (o, st) (pairs p) /\ nth_error (emWork p) i = Some w /\ w = R o st.
Proof.
  intros [[L1 _] L] H w Hw. cbn [base setOW emStat emOrig] in L1. destruct (In_nth_error _ _ Hw) as [i Hi]. assert (Li : (i < List.length (emWork p))%nat) by (apply nth_error_Some; congruence).
  destruct (nth_error (emOrig p) i) as [o|] eqn:Eo; [|apply nth_error_None in Eo; lia]. destruct (nth_error (emStat p) i) as [st|] eqn:Es; [|apply nth_error_None in Es; lia].
  exists i, o, st. split; [exact Eo|]. split; [exact Es|]. split; [unfold pairs; apply (nth_error_In _ i); rewrite combine_nth_err, Eo, Es; reflexivity|]. split; [exact Hi|]. specialize (H i o st Eo Es). congruence.
Qed.

Lemma project_pkg names par build obs ops ts d D : let pdfs := NLLHSpec.added ops in let dobs := osNames (bdObs D) in
  (forall q, comp_ok (par q)) -> Forall (setting_pdfs obs) ops -> Forall no_buffer ops -> registered ops -> distinct_names names ops -> bb_in ops = false ->
  data_in ops = Some D -> h_reach (bdHist D) -> obs <> dobs -> (forall b, In b pdfs -> axes_named (hAxes (bdHist (fst b))) dobs (bdHist D)) ->
  NoDup (fitted pdfs) -> direct_first pdfs ->
  (forall q, ~ is_sys names ops q) \/ (forall b, In b pdfs -> regd (bdName (fst b)) (sys_accepted names ops) <> None) ->
  swf d -> (forall n, In n (fitted pdfs) -> has_key d n) ->
  (forall q n, is_sys names ops q -> ~ is_dict (par q) -> In n (c_names (par q)) -> has_key d n) -> Forall tuning ts ->
  exists s p, nl_setParams (nlrun (nl_new names par build) (ops ++ ts)) d = (s, Ok tt) /\
    (forall q n v, is_sys names ops q -> In n (c_names (par q)) -> sfind n d = Some v -> c_get (nlPar s q) n = Ok v) /\
    let M := fun q => fst (build q (nlPar s q)) in
    (forall q, is_sys names ops q -> snd (build q (nlPar s q)) = Ok tt) -> fits names ops M pdfs ->
    exists Pr : bed -> hist, (forall b, In b pdfs -> h_reach (Pr (fst b)) /\ hNBins (Pr (fst b)) = hNBins (bdHist D) /\
        projection (bdHist (with_contents (fst b) (responded names ops M (fst b)))) dobs (Pr (fst b))) /\
    forall m, let s' := nlrun s (repeat NEval m) in
     nl_getParams s' = Ok p /\
     (forall n v, sfind n d = Some v -> In n (fitted pdfs) \/ (exists q, is_sys names ops q /\ In n (c_names (par q))) -> sfind n p = Some v) /\
     snd (nl_eval s') = outcome (cont (bdHist D)) (fun k => qsum (map (fun b => norm_in d b * cont (Pr (fst b)) k) pdfs)) (hNBins (bdHist D)) (cman_eval (con_in ops) p).
Proof.
  cbv zeta. intros Hpar Fo Hnb Hreg Hdn Hbb Hdat HD Hob Hax Hnd Hdf Hmode Wd Hk Hks Ht. set (pdfs := NLLHSpec.added ops) in *. set (dobs := osNames (bdObs D)) in *.
  set (x := configured (buffers ops)). pose proof (no_buffers ops Hnb) as Bx. fold x in Bx.
  assert (Hmap : sh_setBinMap x D = (x, Ok tt)) by (unfold sh_setBinMap; rewrite Bx; reflexivity).
  assert (Hsh : sh_shrink x D = Ok D) by (unfold sh_shrink; rewrite Bx; reflexivity).
  assert (Or : forall o st, In (o, st) pdfs -> osNames (bdObs o) = obs /\ h_reach (bdHist o)) by (intros o st Hi; unfold pdfs, NLLHSpec.added in Hi; apply in_map_iff in Hi; destruct Hi as [[[o' st'] r] [Ei Hi]]; cbn [fst] in Ei; injection Ei as -> ->; exact (pdfs_setting obs ops Fo _ _ _ _ Hi)).
  assert (Pj : forall o st w, In (o, st) pdfs -> h_reach (bdHist w) -> w = with_contents o (hCont (bdHist w)) ->
    bed_marginalise w dobs = Ok (proj dobs w) /\ h_reach (bdHist (proj dobs w)) /\ osNames (bdObs (proj dobs w)) = dobs /\ projection (bdHist w) dobs (bdHist (proj dobs w)) /\ hNBins (bdHist (proj dobs w)) = hNBins (bdHist D) /\ osNames (bdObs w) = obs).
  { intros o st w Hi R E. pose proof (Hax _ Hi) as A. cbn [fst] in A. assert (A' : axes_named (hAxes (bdHist w)) dobs (bdHist D)) by (rewrite E; exact A).
    destruct (named_nodup _ _ _ HD A') as [_ [N1 [N2 N3]]]. destruct (proj_ok dobs w R N1 N2 N3) as [P1 [P2 [P3 P4]]]. repeat (split; [assumption|]). split; [now apply proj_bins|]. rewrite E. apply (Or o st Hi). }
  assert (Sh0 : forall p, em_shrink p x = (p, Ok tt)) by (intros p; unfold em_shrink; now rewrite Bx).
  destruct (gen_pkg names par build obs ops ts d D D x (hNBins (bdHist D)) (fun w _ => proj dobs w) (fun _ _ => True) Hpar Fo Hreg Hdn Hbb Hdat Hmap Hsh (conj HD eq_refl) Hnd Hdf) as [s [p [E [Hs HH]]]]; auto.
  - intros w st R [o [Hi Ew]] _. destruct (Pj o st w Hi R Ew) as [_ [P1 [_ [_ [P2 _]]]]]. auto.
  - intros p R Lo Hp HR HW. unfold tailG. fold dobs. rewrite dims_all.
    + cbn [chain]. rewrite Sh0. eexists. split; [reflexivity|]. intros i o st Ho Hst. cbn [em_setWork emOrig emStat emWork] in *. rewrite nth_error_map, (HW i o st Ho Hst). reflexivity.
    + intros w Hw. destruct (works_in p _ Lo HW w Hw) as [i [o [st [_ [_ [Hi [_ ->]]]]]]]. rewrite Hp in Hi. destruct (HR o st Hi) as [R1 [R2 _]]. destruct (Pj o st (R o) Hi R1 R2) as [P1 [_ [_ [_ [_ P6]]]]].
      split; [|exact P1]. now rewrite P6.
  - intros _. split; [auto|]. intros p Lo Hp HW. exists p. split; [|exact HW]. unfold tailG. fold dobs. rewrite dims_same.
    + cbn [chain]. apply Sh0.
    + intros w Hw. destruct (works_in p _ Lo HW w Hw) as [i [o [st [_ [_ [Hi [_ ->]]]]]]]. rewrite Hp in Hi. destruct (Or o st Hi) as [_ R]. destruct (Pj o st o Hi R) as [_ [_ [P3 _]]]; [symmetry; apply with_same|]. exact P3.
  - exists s, p. split; [exact E|]. split; [exact Hs|]. cbv zeta in HH. intros HB HF. exists (fun b => bdHist (proj dobs (with_contents b (responded names ops (fun q => fst (build q (nlPar s q))) b)))). split.
    + intros [o st] Hi. cbn [fst]. destruct (Or o st Hi) as [_ R].
      set (w := with_contents o _).
      assert (Rw : h_reach (bdHist w)).
      { unfold w. cbn. apply h_ok_reach. destruct (h_reach_ok _ R) as [O1 [O2 [O3 [O4 O5]]]]. repeat split; cbn; auto; try apply O1.
        unfold responded. apply mvs_length. exact O5. }
      destruct (Pj o st w Hi Rw eq_refl) as [_ [P1 [_ [P2 [P3 _]]]]]. auto.
    + intros m. exact (HH HB HF (fun _ _ => Logic.I) m).
Qed.
