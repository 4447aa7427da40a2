(** A grid search over a live likelihood (C95). *)
From Coq Require Import ZArith Reals Lia.
From Verif Require Import Base.Res Base.Num Base.RNum Base.SMap Model.Axis Model.Event Model.Cut Model.Hist Model.ED Model.Param Model.Matrix Model.SystMan Model.Shrink Model.EDMan
  Model.Fill Model.Constraint Model.NLLH Model.Grid Model.Fit Spec.AxisSpec Spec.HistSpec Spec.ParamSpec Spec.EDManSpec Spec.SystManSpec Spec.NLLHSpec Spec.NLLHSysSpec Spec.GridSpec
  Proofs.ParamP Proofs.ParamP3 Proofs.EDManP Proofs.NLLHS1 Proofs.NLLHS2 Proofs.NLLHS4 Proofs.NLLHS5 Proofs.NLLHS8 Proofs.GridP3 Proofs.GridP4.
From Coq Require Import Lra.
Local Open Scope res_scope.

Definition visit (p : smap Qc) : list nlop := [NPars p; NEval].
Definition visits (pts : list (smap Qc)) : list nlop := flat_map visit pts.
Lemma visits_tuning pts : Forall tuning (visits pts).
Proof. induction pts; cbn; repeat constructor; auto. Qed.
Section Run.
Variable g : grid.
Variable B : nllh.
Variable F : smap Qc -> R.
Variable P : smap Qc -> Prop.
Hypothesis HF : forall ts p, Forall tuning ts -> P p -> exists s1, nl_setParams (nlrun B ts) p = (s1, Ok tt) /\ snd (nl_eval s1) = Ok (F p).
Definition one : smap Qc -> res Qc := fun _ => Ok (Q2Qc 1).
Definition fold_best (pts : list (smap Qc)) (r : fres) : fres := fold_left (fun r p => fbetter (grMaximise g) p (F p) r) pts r.
Lemma value_run ts p : Forall tuning ts -> P p -> fit_value (nlrun B ts) p = (nlrun B (ts ++ visit p), Ok (F p)).
Proof.
  intros T Hp. destruct (HF ts p T Hp) as [s1 [E1 E2]]. unfold fit_value. rewrite E1. unfold nlrun. rewrite fold_left_app. cbn [visit fold_left nldo]. unfold nlrun in E1. rewrite E1. cbn [fst].
  rewrite <- E2. apply surjective_pairing.
Qed.
Lemma sim fuel : forall vals r0 r, gLoop g one fuel vals r0 = Ok r -> exists pts, grSeen r = grSeen r0 ++ pts /\
  forall ts fr, (forall p, In p pts -> P p) -> Forall tuning ts -> fLoop g fuel (nlrun B ts) vals fr = (nlrun B (ts ++ visits pts), Ok (fold_best pts fr)).
Proof.
  induction fuel as [|fuel IH]; intros vals r0 r E; [discriminate|]. cbn [gLoop] in E. cbn [fLoop]. destruct (gInc g _ 0 _ vals) as [[b v]| | | |]; cbn [bind fbind fst snd] in *; try discriminate. destruct b.
  - unfold one in E at 1. cbn [bind] in E. apply IH in E as [pts [E1 E2]]. exists (v :: pts). split.
    + rewrite E1. destruct (_ || _); cbn [grSeen]; rewrite <- app_assoc; reflexivity.
    + intros ts fr Hp T. rewrite value_run by (auto; apply Hp; now left). cbn [fbind]. rewrite E2; [|intros p H; apply Hp; now right|apply Forall_app; split; [exact T|repeat constructor]].
      cbn [visits flat_map]. rewrite <- app_assoc. reflexivity.
  - injection E as <-. exists []. split; [now rewrite app_nil_r|]. intros ts fr _ _. cbn. now rewrite app_nil_r.
Qed.
Definition fscore (p : smap Qc) : R := if grMaximise g then (- F p)%R else F p.
Lemma better_eq p r : fbetter (grMaximise g) p (F p) r = (if Rlt_dec (fscore p) (fVal r) then mkFres p (fscore p) (fSeen r ++ [p]) else if Req_EM_T (fVal r) 0 then mkFres p (fscore p) (fSeen r ++ [p]) else mkFres (fBest r) (fVal r) (fSeen r ++ [p])).
Proof.
  unfold fbetter, fscore. destruct (grMaximise g).
  - replace (F p * - (1))%R with (- F p)%R by ring. destruct (Rlt_dec _ _); [reflexivity|]. destruct (Req_EM_T _ _); reflexivity.
  - destruct (Rlt_dec _ _); [reflexivity|]. destruct (Req_EM_T _ _); reflexivity.
Qed.
Lemma fold_seen pts : forall r, fSeen (fold_best pts r) = fSeen r ++ pts.
Proof.
  induction pts as [|p pts IH]; intros r; [cbn; now rewrite app_nil_r|]. unfold fold_best in *. cbn [fold_left]. rewrite IH, better_eq.
  destruct (Rlt_dec _ _); [|destruct (Req_EM_T _ _)]; cbn [fSeen]; rewrite <- app_assoc; reflexivity.
Qed.
Lemma fold_min pts : (forall p, In p pts -> F p <> 0%R) -> forall r, fVal r <> 0%R -> let r' := fold_best pts r in
  fVal r' <> 0%R /\ (fVal r' <= fVal r)%R /\ (forall p, In p pts -> (fVal r' <= fscore p)%R) /\ ((fBest r' = fBest r /\ fVal r' = fVal r) \/ (In (fBest r') pts /\ fVal r' = fscore (fBest r'))).
Proof.
  induction pts as [|p pts IH]; intros Z r Hr; cbv zeta.
  - cbn. repeat split; auto; [lra|intros p []].
  - unfold fold_best in *. cbn [fold_left]. assert (Zp : fscore p <> 0%R). { unfold fscore. specialize (Z p (or_introl eq_refl)). destruct (grMaximise g); lra. }
    set (r1 := fbetter _ _ _ r). assert (H1 : fVal r1 <> 0%R /\ (fVal r1 <= fVal r)%R /\ (fVal r1 <= fscore p)%R /\ ((fBest r1 = fBest r /\ fVal r1 = fVal r) \/ (fBest r1 = p /\ fVal r1 = fscore p))).
    { unfold r1. rewrite better_eq. destruct (Rlt_dec _ _); cbn; [repeat split; auto; lra|]. destruct (Req_EM_T _ _); [contradiction|]. cbn. repeat split; auto; lra. }
    destruct H1 as [A1 [A2 [A3 A4]]]. destruct (IH (fun q H => Z q (or_intror H)) r1 A1) as [B1 [B2 [B3 B4]]]. repeat split; auto; [lra| |].
    + intros q [<-|H]; [lra|now apply B3].
    + destruct B4 as [[B4 B5]|[B4 B5]]; [|right; split; [now right|exact B5]]. destruct A4 as [[A4 A5]|[A4 A5]]; [left; split; congruence|right]. rewrite B4, A4. split; [now left|]. congruence.
Qed.
Lemma fold_best_pkg pts : pts <> [] -> (forall p, In p pts -> F p <> 0%R) -> let r := fold_best pts (mkFres sempty 0 []) in
  In (fBest r) pts /\ fVal r = fscore (fBest r) /\ forall p, In p pts -> (fVal r <= fscore p)%R.
Proof.
  destruct pts as [|p pts]; [contradiction|]. intros _ Z. cbv zeta. unfold fold_best. cbn [fold_left]. set (r1 := fbetter _ _ _ _).
  assert (E1 : r1 = mkFres p (fscore p) [p]). { unfold r1. rewrite better_eq. cbn. destruct (Rlt_dec _ _); [reflexivity|]. destruct (Req_EM_T _ _); [reflexivity|contradiction]. }
  assert (Zp : fscore p <> 0%R). { unfold fscore. specialize (Z p (or_introl eq_refl)). destruct (grMaximise g); lra. }
  destruct (fold_min pts (fun q H => Z q (or_intror H)) r1) as [B1 [B2 [B3 B4]]]; [rewrite E1; exact Zp|]. unfold fold_best in *. rewrite E1 in *. cbn [fBest fVal] in *.
  split; [|split].
  - destruct B4 as [[-> _]|[B4 _]]; [now left|now right].
  - destruct B4 as [[-> B4]|[_ B4]]; exact B4.
  - intros q [<-|H]; [exact B2|now apply B3].
Qed.
(** the whole search, given the search over a constant *)
Lemma run_ends r n : (forall fuel, (n <= fuel)%nat -> gOptimise g one fuel = Ok r) -> (forall p, In p (grSeen r) -> P p) -> forall s0, nl_register s0 = B -> (exists q, nl_getParams B = Ok q) ->
  forall fuel, (n <= fuel)%nat -> fOptimise g s0 fuel = (nlrun B (visits (grSeen r)), Ok (fold_best (grSeen r) (mkFres sempty 0 []))).
Proof.
  intros E Hp s0 Es [q Eq] fuel Hf. specialize (E fuel Hf). unfold fOptimise. rewrite Es, Eq. cbn [fbind]. unfold gOptimise in E. destruct (_ || _); [discriminate|].
  destruct (mapM (gCount g) (grMin g)) as [l| | | |]; cbn [bind fbind] in *; try discriminate. apply sim in E as [pts [E1 E2]]. cbn [grSeen app] in E1. rewrite E1 in *.
  apply (E2 [] _ Hp). constructor.
Qed.
End Run.

Lemma getParams_calm names par build obs s : calmS names par build obs s -> exists q, nl_getParams s = Ok q.
Proof.
  intros C. unfold nl_getParams, cm_getAll. destruct (csInv _ _ _ _ _ C) as [I _]. assert (K : pm_ok (emPm (nlPm s))) by apply I.
  destruct (pm_getAll_ok _ K) as [d [Ed [Wd _]]].
  assert (G : forall qs pd, swf pd -> exists q, foldM (fun pd c => do m <- c_getAll c; Ok (fold_left (fun pd kv => sinsert (fst kv) (snd kv) pd) m pd)) (map (nl_comp s) (map RSys qs)) pd = Ok q).
  { intros qs pd W. rewrite map_map. cbn [nl_comp]. assert (Fo : Forall comp_ok (map (nlPar s) qs)) by (apply Forall_forall; intros c Hc; apply in_map_iff in Hc as [x [<- _]]; apply (csPar _ _ _ _ _ C x)).
    destruct (getAll_merge (map (nlPar s) qs) pd W Fo) as [q [E _]]. exists q. exact E. }
  destruct (csReg _ _ _ _ _ C) as [->|[qs ->]]; [exists sempty; reflexivity|]. cbn [map foldM nl_comp c_getAll]. rewrite Ed. cbn [bind]. apply G.
  apply (proj1 (sinsert_fold d (swf_nodup _ Wd) sempty EmptyString sempty_wf)).
Qed.
