(** C113: programs on a sum of binned likelihoods. *)
From Coq Require Import ZArith Reals Lia.
From Verif Require Import Base.Res Base.Num Base.RNum Base.SMap Model.Axis Model.Event Model.Cut Model.Hist Model.ED Model.Param Model.Matrix Model.SystMan Model.Shrink Model.EDMan
  Model.Fill Model.Constraint Model.NLLH Model.Sum Spec.AxisSpec Spec.HistSpec Spec.ParamSpec Spec.EDManSpec Spec.SystManSpec Spec.NLLHSpec Spec.NLLHSysSpec Spec.FitSpec Spec.AsimovSpec Spec.ClientSpec Spec.JointSpec
  Spec.SumSpec Proofs.SumP Proofs.NLLHS7 Proofs.NLLHS8 Proofs.FitP2 Proofs.AsimovP Proofs.ClientP.
Local Open Scope nat_scope.

Lemma set_any names par build obs ops D d ts : configured names par build obs ops D -> gives_all names par ops d -> Forall tuning ts ->
  snd (nl_setParams (nlrun (nl_new names par build) ((ops ++ [NReg]) ++ ts)) d) = Ok tt.
Proof.
  intros C [W [Hk Hks]] T. destruct C as [Hpar [HB [F [Hdn [Hbb [Hdat [HD [Hnd [Hdf Hcov]]]]]]]]].
  destruct (reg_app ops) as [Ta [Td [Tc [Tb [Tr [Tf Tn]]]]]]. destruct (Tn names) as [Gi [Is Ao]].
  destruct (function_pkg names par build obs (ops ++ [NReg]) ts d D 0 0) as [s1 [s2 [E1 [E2 _]]]]; rewrite ?Ta, ?Tb, ?Td; auto.
  - intros q q' H H'. apply Hdn; now apply Is.
  - intros q n H H'. eapply Hks; [apply Is; exact H|exact H'].
  - rewrite E2. reflexivity.
Qed.
Lemma get_at names par build obs ops D d : configured names par build obs ops D -> gives_all names par ops d -> responds names par build ops d ->
  exists p, nl_getParams (at_point names par build ops d) = Ok p /\ swf p /\
    forall n v, sfind n p = Some v <-> sfind n d = Some v /\ (In n (fitted (NLLHSpec.added ops)) \/ exists q, is_sys names ops q /\ In n (c_names (par q))).
Proof.
  intros C [W [Hk Hks]] [R1 R2]. destruct C as [Hpar [HB [F [Hdn [Hbb [Hdat [HD [Hnd [Hdf Hcov]]]]]]]]].
  destruct (reg_app ops) as [Ta [Td [Tc [Tb [Tr [Tf Tn]]]]]]. destruct (Tn names) as [Gi [Is Ao]].
  destruct (value_sys_tot names par build obs (ops ++ [NReg]) d D) as [s [p [E [_ [_ V]]]]]; rewrite ?Ta, ?Td, ?Tb; auto.
  - intros q. apply Hpar.
  - intros q q' H H'. apply Hdn; now apply Is.
  - intros q n H _. apply Hks. now apply Is.
  - cbv zeta in V. assert (Ea : at_point names par build ops d = s) by (unfold at_point; now rewrite E). rewrite Ta in V. rewrite Ea in R1, R2. destruct R2 as [R2 R3].
    destruct (V ltac:(intros q H; apply R1; now apply Is) ltac:(split; [intros h; rewrite Gi; apply R2|intros b Hb; rewrite Ao; now apply R3]) 0%nat) as [G [Wp [V1 [V2 _]]]].
    cbn [repeat nlrun fold_left] in G. exists p. rewrite Ea. split; [exact G|]. split; [exact Wp|]. intros n v. split.
    + intros H. destruct (V2 ltac:(intros q _; apply Hpar) n v H) as [A B]. split; [exact A|]. destruct B as [B|[q [B B']]]; [left; exact B|right; exists q; split; [now apply Is|exact B']].
    + intros [A B]. apply V1; [exact A|]. destruct B as [B|[q [B B']]]; [left; exact B|right; exists q; split; [now apply Is|exact B']].
Qed.

Lemma ts_eval_sum f (h : theap nllh) s l c : h s = Some (TSum l c) -> ts_eval nl_tsops (S f) h s = match ts_loop (ts_eval nl_tsops f) l h (Ok 0%R) with
    | (h', Ok acc) => (h', ts_constr c (ts_get nl_tsops (S f) h' s) acc) | (h', Throw e) => (h', Throw e) | (h', UB) => (h', UB) | (h', NonFinite) => (h', NonFinite) | (h', Diverge) => (h', Diverge) end.
Proof. intros H. cbn [ts_eval]. rewrite H. reflexivity. Qed.
Lemma ts_each_sum F f (h : theap nllh) s l c : h s = Some (TSum l c) -> ts_each F (S f) h s = iterS (ts_each F f) l h.
Proof. intros H. cbn [ts_each]. rewrite H. reflexivity. Qed.
Section joint.
Context (exps : nat -> jexp) (s : nat) (l : list nat) (c : cman).
Hypothesis good : forall q, In q l -> jgood (exps q).
Let base q ts := nlrun (nl_new (jNames (exps q)) (jPar (exps q)) (jBuild (exps q))) ((jOps (exps q) ++ [NReg]) ++ ts).
Let K0 (q : nat) (x : nllh) : Prop := exists ts, Forall tuning ts /\ x = base q ts.
Let K1 (d : smap Qc) (q : nat) (x : nllh) : Prop := exists ts n, Forall tuning ts /\ x = nlrun (fst (nl_setParams (base q ts) d)) (repeat NEval n).
Definition jinv (K : nat -> nllh -> Prop) (h : theap nllh) : Prop :=
  h s = Some (TSum l c) /\ forall q, In q l -> exists x, h q = Some (TLeaf x) /\ K q x.

Lemma K0_do q x o : tuning o -> K0 q x -> K0 q (nldo x o).
Proof.
  intros To [ts [T ->]]. exists (ts ++ [o]). split; [apply Forall_app; split; [exact T|constructor; [exact To|constructor]]|].
  unfold base. rewrite app_assoc, (nlrun_app _ (_ ++ ts) [o]). reflexivity.
Qed.
Lemma K1_K0 d q x : K1 d q x -> K0 q x.
Proof.
  intros [ts [n [T ->]]]. exists (ts ++ [NPars d] ++ repeat NEval n). split.
  - apply Forall_app. split; [exact T|]. apply Forall_app. split; [repeat constructor|apply evals_tuning].
  - unfold base. rewrite app_assoc, !nlrun_app. reflexivity.
Qed.
Lemma K1_eval d q x : K1 d q x -> K1 d q (fst (nl_eval x)).
Proof.
  intros [ts [n [T ->]]]. exists ts, (S n). split; [exact T|]. replace (S n) with (n + 1) by lia. rewrite repeat_app, nlrun_app. reflexivity.
Qed.
Lemma K1_set d q x : K0 q x -> K1 d q (fst (nl_setParams x d)).
Proof. intros [ts [T ->]]. exists ts, 0. split; [exact T|reflexivity]. Qed.
Lemma K0_set_ok d q x : In q l -> jpoint (exps q) d -> K0 q x -> snd (nl_setParams x d) = Ok tt.
Proof. intros Hq [G R] [ts [T ->]]. apply (set_any _ _ _ _ _ _ d ts (good q Hq) G T). Qed.
Lemma K1_get d q x : In q l -> jpoint (exps q) d -> K1 d q x ->
  nl_getParams x = nl_getParams (at_point (jNames (exps q)) (jPar (exps q)) (jBuild (exps q)) (jOps (exps q)) d) /\ snd (nl_eval x) = jvalue (exps q) d.
Proof.
  intros Hq [G R] [ts [n [T ->]]]. destruct (any_point _ _ _ _ _ _ d ts n (good q Hq) G R T) as [E1 E2]. cbv zeta in E1, E2.
  unfold base. rewrite nlrun_app. split; [exact E1|exact E2].
Qed.

Lemma jinv_put (K : nat -> nllh -> Prop) h q x : In q l -> jinv K h -> K q x -> jinv K (tput h q (TLeaf x)).
Proof.
  intros Hq [H1 H2] Hx. destruct (H2 q Hq) as [y [Hy _]]. split.
  - unfold tput. destruct (Nat.eqb_spec s q) as [->|_]; [congruence|exact H1].
  - intros q' Hq'. unfold tput. destruct (Nat.eqb_spec q' q) as [->|_]; [eauto|apply H2; exact Hq'].
Qed.
Lemma jinv_weaken (K K' : nat -> nllh -> Prop) h : (forall q x, In q l -> K q x -> K' q x) -> jinv K h -> jinv K' h.
Proof. intros W [H1 H2]. split; [exact H1|]. intros q Hq. destruct (H2 q Hq) as [x [Hx Kx]]. eauto. Qed.

(** the loop over the parts of SetParameters and RegisterFitComponents *)
Lemma each_inv (F : nllh -> nllh * res unit) (K : nat -> nllh -> Prop) (f : nat) : (forall q x, In q l -> K q x -> K q (fst (F x))) ->
  forall l' h, incl l' l -> jinv K h -> jinv K (fst (iterS (ts_each F (S f)) l' h)).
Proof.
  intros HF. induction l' as [|q l' IH]; intros h Hl Hh; cbn [iterS]; [exact Hh|]. pose proof Hh as [H1 H2]. destruct (H2 q (Hl q (or_introl eq_refl))) as [x [Hx Kx]].
  cbn [ts_each]. rewrite Hx. pose proof (HF q x (Hl q (or_introl eq_refl)) Kx) as Kx'. destruct (F x) as [x' r]. cbn [fst] in Kx'.
  assert (Hh' : jinv K (tput h q (TLeaf x'))) by (apply jinv_put; [apply Hl; now left|exact Hh|exact Kx']).
  destruct r; cbn [fst]; try exact Hh'. apply IH; [intros y Hy; apply Hl; now right|exact Hh'].
Qed.
Lemma each_set (F : nllh -> nllh * res unit) (A B : nat -> nllh -> Prop) (f : nat) : (forall q x, In q l -> A q x -> snd (F x) = Ok tt /\ B q (fst (F x))) ->
  (forall q x, In q l -> B q x -> A q x) ->
  forall l' h, incl l' l -> jinv A h -> exists h', iterS (ts_each F (S f)) l' h = (h', Ok tt) /\ jinv A h' /\
    (forall q x, In q l -> h q = Some (TLeaf x) -> B q x -> exists x', h' q = Some (TLeaf x') /\ B q x') /\
    (forall q, In q l' -> exists x', h' q = Some (TLeaf x') /\ B q x').
Proof.
  intros HF HBA. induction l' as [|q l' IH]; intros h Hl Hh; cbn [iterS].
  - exists h. split; [reflexivity|]. split; [exact Hh|]. split; [eauto|intros q []].
  - pose proof Hh as [H1 H2]. pose proof (Hl q (or_introl eq_refl)) as Hq. destruct (H2 q Hq) as [x [Hx Kx]].
    cbn [ts_each]. rewrite Hx. destruct (HF q x Hq Kx) as [Fr Fx]. destruct (F x) as [x' r]. cbn [fst snd] in *. subst r.
    assert (Hh' : jinv A (tput h q (TLeaf x'))) by (apply jinv_put; [exact Hq|exact Hh|apply HBA; assumption]).
    destruct (IH _ (fun y Hy => Hl y (or_intror Hy)) Hh') as [h' [E [I1 [I2 I3]]]]. exists h'. split; [exact E|]. split; [exact I1|]. split.
    + intros q' y Hq' Hy By. destruct (Nat.eq_dec q' q) as [->|Hne].
      * apply (I2 q x' Hq); [unfold tput; now rewrite Nat.eqb_refl|exact Fx].
      * apply (I2 q' y Hq'); [unfold tput; destruct (Nat.eqb_spec q' q); [contradiction|exact Hy]|exact By].
    + intros q' [->|Hin]; [|apply I3; exact Hin]. apply (I2 q' x' Hq); [unfold tput; now rewrite Nat.eqb_refl|exact Fx].
Qed.
(** the loop of Evaluate *)
Lemma loop_inv (K : nat -> nllh -> Prop) (f : nat) : (forall q x, In q l -> K q x -> K q (fst (nl_eval x))) ->
  forall l' h acc, incl l' l -> jinv K h -> jinv K (fst (ts_loop (ts_eval nl_tsops (S f)) l' h acc)).
Proof.
  intros HF. induction l' as [|q l' IH]; intros h acc Hl Hh; cbn [ts_loop]; [exact Hh|]. pose proof Hh as [H1 H2]. destruct (H2 q (Hl q (or_introl eq_refl))) as [x [Hx Kx]].
  cbn [ts_eval]. rewrite Hx. cbn [lEval nl_tsops]. pose proof (HF q x (Hl q (or_introl eq_refl)) Kx) as Kx'. destruct (nl_eval x) as [x' r]. cbn [fst] in Kx'.
  assert (Hh' : jinv K (tput h q (TLeaf x'))) by (apply jinv_put; [apply Hl; now left|exact Hh|exact Kx']).
  assert (Hl' : incl l' l) by (intros y Hy; apply Hl; now right).
  destruct r; cbn [fst]; try exact Hh'; apply IH; assumption.
Qed.
(** what the loop makes of the outcomes of the parts *)
Fixpoint fold_outcomes (acc : res R) (vs : list (res R)) : res (res R) :=
  match vs with
  | [] => Ok acc
  | v :: t => match v with
              | Ok w => fold_outcomes (tplus acc (Ok w)) t
              | NonFinite => fold_outcomes NonFinite t
              | Throw e => Throw e | UB => UB | Diverge => Diverge
              end
  end.
Lemma loop_val (K : nat -> nllh -> Prop) (f : nat) (val : nat -> res R) : (forall q x, In q l -> K q x -> K q (fst (nl_eval x)) /\ snd (nl_eval x) = val q) ->
  forall l' h acc, incl l' l -> jinv K h -> snd (ts_loop (ts_eval nl_tsops (S f)) l' h acc) = fold_outcomes acc (map val l').
Proof.
  intros HF. induction l' as [|q l' IH]; intros h acc Hl Hh; cbn [ts_loop map fold_outcomes]; [reflexivity|]. pose proof Hh as [H1 H2]. destruct (H2 q (Hl q (or_introl eq_refl))) as [x [Hx Kx]].
  cbn [ts_eval]. rewrite Hx. cbn [lEval nl_tsops]. destruct (HF q x (Hl q (or_introl eq_refl)) Kx) as [Kx' Ev]. destruct (nl_eval x) as [x' r]. cbn [fst snd] in *. subst r.
  assert (Hh' : jinv K (tput h q (TLeaf x'))) by (apply jinv_put; [apply Hl; now left|exact Hh|exact Kx']).
  assert (Hl' : incl l' l) by (intros y Hy; apply Hl; now right).
  destruct (val q); cbn [snd]; try reflexivity; apply IH; assumption.
Qed.
Definition after (acc : res R) (x : res R) : res R := match x with Ok w => tplus acc (Ok w) | r => r end.
Lemma outcomes_all vs con : forall acc, (exists a, acc = Ok a) \/ acc = NonFinite ->
  match fold_outcomes acc vs with Ok r => after r con | Throw e => Throw e | UB => UB | NonFinite => NonFinite | Diverge => Diverge end = after acc (all_of (vs ++ [con])).
Proof.
  induction vs as [|v vs IH]; intros acc Hacc; cbn [fold_outcomes app all_of].
  - destruct con; cbn [all_of after]; try reflexivity. rewrite Rplus_0_r. reflexivity.
  - destruct v as [w| | | |]; cbn [after]; try reflexivity.
    + rewrite IH.
      * destruct (all_of (vs ++ [con])) as [u| | | |]; cbn [after]; try reflexivity. destruct Hacc as [[a ->]| ->]; cbn [tplus]; [rewrite Rplus_assoc; reflexivity|reflexivity].
      * destruct Hacc as [[a ->]| ->]; cbn [tplus]; eauto.
    + rewrite IH by (right; reflexivity). destruct (all_of (vs ++ [con])) as [u| | | |]; cbn [after tplus]; reflexivity.
Qed.
Lemma fold_shape vs : forall acc r, (exists a, acc = Ok a) \/ acc = NonFinite -> fold_outcomes acc vs = Ok r -> (exists a, r = Ok a) \/ r = NonFinite.
Proof.
  induction vs as [|v vs IH]; intros acc r Hacc E; cbn [fold_outcomes] in E; [injection E as <-; exact Hacc|].
  destruct v as [w| | | |]; try discriminate; apply (IH _ _) in E; auto. destruct Hacc as [[a ->]| ->]; cbn [tplus]; eauto.
Qed.

(** GetParameters of the sum *)
Lemma get_inv d f h g : (forall q, In q l -> jpoint (exps q) d) -> jinv (K1 d) h -> picks exps l (fun d => forall q, In q l -> jpoint (exps q) d) g ->
  ts_get nl_tsops (S (S f)) h s = g d.
Proof.
  intros P [H1 H2] Hg. destruct (Hg d P) as [m [-> [Wm Fm]]]. cbn [ts_get]. rewrite H1.
  assert (G : forall l' acc, incl l' l -> swf acc -> exists r, foldM (fun acc q => bind (ts_get nl_tsops (S f) h q) (fun d => Ok (dmerge acc d))) l' acc = Ok r /\ swf r /\
    ((forall n v, sfind n acc = Some v -> sfind n d = Some v) ->
     forall n v, sfind n r = Some v <-> sfind n acc = Some v \/ (sfind n d = Some v /\ exists q, In q l' /\ owns (exps q) n))).
  { induction l' as [|q l' IH]; intros acc Hl Wa.
    - exists acc. split; [reflexivity|]. split; [exact Wa|]. intros _ n v. split; [auto|]. intros [H|[_ [q [[] _]]]]. exact H.
    - pose proof (Hl q (or_introl eq_refl)) as Hq. destruct (H2 q Hq) as [x [Hx Kx]]. destruct (K1_get d q x Hq (P q Hq) Kx) as [Gx _].
      destruct (P q Hq) as [Ga Re]. destruct (get_at _ _ _ _ _ _ d (good q Hq) Ga Re) as [p [Ep [Wp Fp]]].
      assert (Et : ts_get nl_tsops (S f) h q = Ok p) by (cbn [ts_get]; rewrite Hx; cbn [lGet nl_tsops]; rewrite Gx; exact Ep).
      destruct (IH (dmerge acc p) (fun y Hy => Hl y (or_intror Hy)) (dmerge_wf p acc Wa)) as [r [Er [Wr Fr]]]. exists r. split; [|split; [exact Wr|]].
      + cbn [foldM]. rewrite Et. cbn [bind]. exact Er.
      + intros Ha n v. rewrite Fr.
        * rewrite dmerge_find. split.
          -- intros [H|[H [q' [Hq' Ho]]]]; [|right; split; [exact H|exists q'; split; [now right|exact Ho]]].
             destruct (sfind n acc) as [u|] eqn:Ea; [left; exact H|right]. apply Fp in H as [H Ho]. split; [exact H|]. exists q. split; [now left|exact Ho].
          -- intros [H|[H [q' [[<-|Hq'] Ho]]]].
             ++ left. rewrite H. reflexivity.
             ++ left. destruct (sfind n acc) as [u|] eqn:Ea; [apply Ha in Ea; congruence|]. apply Fp. split; assumption.
             ++ right. split; [exact H|]. eauto.
        * intros n' v'. rewrite dmerge_find. destruct (sfind n' acc) as [u|] eqn:Ea; [intros [= <-]; apply Ha; exact Ea|]. intros H. apply Fp in H. apply H. }
  destruct (G l sempty (fun y Hy => Hy) sempty_wf) as [r [Er [Wr Fr]]]. etransitivity; [exact Er|]. f_equal.
  apply swf_ext; [exact Wr|exact Wm|]. intros n.
  assert (Fr' := Fr (fun n v (H : sfind n sempty = Some v) => ltac:(discriminate H))).
  destruct (sfind n r) as [v|] eqn:E1.
  - apply Fr' in E1 as [C|E1]; [discriminate C|]. symmetry. apply Fm. exact E1.
  - destruct (sfind n m) as [v|] eqn:E2; [|reflexivity]. apply Fm in E2. assert (X : sfind n r = Some v) by (apply Fr'; right; exact E2). congruence.
Qed.
(** Evaluate of the sum *)
Lemma eval_keeps (K : nat -> nllh -> Prop) (f : nat) h : (forall q x, In q l -> K q x -> K q (fst (nl_eval x))) -> jinv K h -> jinv K (fst (ts_eval nl_tsops (S (S f)) h s)).
Proof.
  intros HK Hh. pose proof Hh as [H1 _]. rewrite (ts_eval_sum (S f) h s l c H1). pose proof (loop_inv K f HK l h (Ok 0%R) (fun y Hy => Hy) Hh) as L.
  destruct (ts_loop (ts_eval nl_tsops (S f)) l h (Ok 0%R)) as [h' [acc| | | |]]; exact L.
Qed.
Lemma eval_inv d f h g : (forall q, In q l -> jpoint (exps q) d) -> jinv (K1 d) h -> picks exps l (fun d => forall q, In q l -> jpoint (exps q) d) g ->
  snd (ts_eval nl_tsops (S (S f)) h s) = all_of (map (fun q => jvalue (exps q) d) l ++ [as_real (bind (g d) (cman_eval c))]).
Proof.
  intros P Hh Hg. pose proof Hh as [H1 _].
  assert (HK : forall q x, In q l -> K1 d q x -> K1 d q (fst (nl_eval x)) /\ snd (nl_eval x) = jvalue (exps q) d).
  { intros q x Hq Kx. split; [apply K1_eval; exact Kx|apply K1_get; auto]. }
  pose proof (loop_inv (K1 d) f (fun q x Hq Kx => proj1 (HK q x Hq Kx)) l h (Ok 0%R) (fun y Hy => Hy) Hh) as L.
  pose proof (loop_val (K1 d) f _ HK l h (Ok 0%R) (fun y Hy => Hy) Hh) as V.
  assert (E0 : snd (ts_eval nl_tsops (S (S f)) h s) = match ts_loop (ts_eval nl_tsops (S f)) l h (Ok 0%R) with
    | (h', Ok acc) => ts_constr c (ts_get nl_tsops (S (S f)) h' s) acc | (h', Throw e) => Throw e | (h', UB) => UB | (h', NonFinite) => NonFinite | (h', Diverge) => Diverge end).
  { rewrite (ts_eval_sum (S f) h s l c H1).
    destruct (ts_loop (ts_eval nl_tsops (S f)) l h (Ok 0%R)) as [h' [acc| | | |]]; reflexivity. }
  rewrite E0. clear E0. pose proof (outcomes_all (map (fun q => jvalue (exps q) d) l) (as_real (bind (g d) (cman_eval c))) (Ok 0%R) (or_introl (ex_intro _ 0%R eq_refl))) as A.
  assert (Z : forall x : res R, after (Ok 0%R) x = x) by (intros [x| | | |]; cbn [after tplus]; [rewrite Rplus_0_l; reflexivity| | | |]; reflexivity).
  rewrite Z in A. rewrite <- A. clear A Z.
  destruct (ts_loop (ts_eval nl_tsops (S f)) l h (Ok 0%R)) as [h' r]. cbn [fst snd] in L, V. subst r.
  destruct (fold_outcomes (Ok 0%R) (map (fun q => jvalue (exps q) d) l)) as [acc| | | |] eqn:E; try reflexivity.
  rewrite (get_inv d f h' g P L Hg). destruct (Hg d P) as [m [Em _]]. rewrite Em. cbn [bind]. unfold ts_constr, as_real, rmap. cbn [bind]. destruct (cman_eval c m); reflexivity.
Qed.

Lemma joint_run {A} (cl : jclient A) g : picks exps l (fun d => forall q, In q l -> jpoint (exps q) d) g ->
  let f := fun d => all_of (map (fun q => jvalue (exps q) d) l ++ [as_real (bind (g d) (cman_eval c))]) in
  jproper l (fun d => forall q, In q l -> jpoint (exps q) d) cl g f ->
  forall fuel h, (2 <= fuel)%nat -> jinv K0 h -> on_sum fuel s cl h = on_functions cl g f.
Proof.
  cbv zeta. intros Hg. induction cl as [a|d n k IH|o cl IH]; intros P fuel h Hf Hh; cbn [jproper on_sum on_functions] in *; [reflexivity| |].
  - destruct P as [Pd P]. destruct fuel as [|[|f]]; [lia|lia|]. pose proof Hh as [H1 _].
    destruct (each_set (fun x => lSet nl_tsops x d) K0 (K1 d) f) with (l' := l) (h := h) as [h' [E [I1 [_ I3]]]]; [| |exact (fun y Hy => Hy)|exact Hh|].
    + intros q x Hq Kx. split; [apply (K0_set_ok d q x Hq (Pd q Hq) Kx)|apply K1_set; exact Kx].
    + intros q x Hq Kx. apply (K1_K0 d q x Kx).
    + assert (Es : ts_set nl_tsops (S (S f)) h s d = (h', Ok tt)).
      { unfold ts_set. rewrite (ts_each_sum _ (S f) h s l c H1). exact E. }
      rewrite Es. cbn [fst]. assert (Hh' : jinv (K1 d) h') by (split; [apply I1|exact I3]).
      assert (Hn : jinv (K1 d) (Nat.iter n (fun h => fst (ts_eval nl_tsops (S (S f)) h s)) h')).
      { clear - Hh'. induction n as [|n IHn]; [exact Hh'|]. change (jinv (K1 d) (fst (ts_eval nl_tsops (S (S f)) (Nat.iter n (fun h => fst (ts_eval nl_tsops (S (S f)) h s)) h') s))).
        apply eval_keeps; [intros q x _; apply K1_eval|exact IHn]. }
      set (h1 := Nat.iter n (fun h => fst (ts_eval nl_tsops (S (S f)) h s)) h') in *. clearbody h1. cbv zeta.
      rewrite (get_inv d f h1 g Pd Hn Hg), (eval_inv d f h1 g Pd Hn Hg). apply IH; [exact P|lia|].
      apply (jinv_weaken (K1 d)); [intros q x _; apply K1_K0|]. apply eval_keeps; [intros q x _; apply K1_eval|exact Hn].
  - destruct P as [Po P]. apply IH; [exact P|exact Hf|]. destruct fuel as [|[|f]]; [lia|lia|]. pose proof Hh as [H1 H2].
    assert (EA : forall F, fst (ts_each F (S (S f)) h s) = fst (iterS (ts_each F (S f)) l h)).
    { intros F. rewrite (ts_each_sum F (S f) h s l c H1). reflexivity. }
    destruct o as [d| | |q o]; cbn [jdo].
    + unfold ts_set. rewrite EA. apply each_inv; [|exact (fun y Hy => Hy)|exact Hh]. intros q x Hq Kx. apply (K0_do q x (NPars d) I Kx).
    + unfold ts_reg. rewrite EA. apply each_inv; [|exact (fun y Hy => Hy)|exact Hh]. intros q x Hq Kx. apply (K0_do q x NReg I Kx).
    + apply eval_keeps; [|exact Hh]. intros q x Hq Kx. apply (K0_do q x NEval I Kx).
    + destruct Po as [Hq To]. destruct (H2 q Hq) as [x [Hx Kx]]. rewrite Hx. apply jinv_put; [exact Hq|exact Hh|apply K0_do; assumption].
Qed.
Lemma joint_pkg_sec {A} (cl : jclient A) g h : h s = Some (TSum l c) -> (forall q, In q l -> h q = Some (TLeaf (jstart (exps q)))) ->
  picks exps l (fun d => forall q, In q l -> jpoint (exps q) d) g ->
  let f := fun d => all_of (map (fun q => jvalue (exps q) d) l ++ [as_real (bind (g d) (cman_eval c))]) in
  jproper l (fun d => forall q, In q l -> jpoint (exps q) d) cl g f ->
  forall fuel, (2 <= fuel)%nat -> on_sum fuel s cl (fst (ts_reg nl_tsops fuel h s)) = on_functions cl g f.
Proof.
  cbv zeta. intros H1 H2 Hg P fuel Hf. apply joint_run; [exact Hg|exact P|exact Hf|]. destruct fuel as [|[|f]]; [lia|lia|].
  assert (E : ts_reg nl_tsops (S (S f)) h s = iterS (ts_each (lReg nl_tsops) (S f)) l h).
  { unfold ts_reg. apply (ts_each_sum _ (S f) h s l c H1). }
  rewrite E. clear E.
  destruct (each_set (lReg nl_tsops) (fun q x => x = jstart (exps q) \/ K0 q x) K0 f) with (l' := l) (h := h) as [h' [E [I1 [_ I3]]]].
  - intros q x _ [->|[ts [T ->]]]; (split; [reflexivity|]); cbn [lReg nl_tsops fst].
    + exists []. split; [constructor|]. unfold base, jstart. rewrite app_nil_r, nlrun_app. reflexivity.
    + apply (K0_do q _ NReg I). exists ts. split; [exact T|reflexivity].
  - intros q x _ H. right. exact H.
  - exact (fun y Hy => Hy).
  - split; [exact H1|]. intros q Hq. exists (jstart (exps q)). split; [exact (H2 q Hq)|left; reflexivity].
  - rewrite E. split; [apply I1|exact I3].
Qed.
End joint.
Lemma joint_pkg A exps s l c (cl : jclient A) g h : (forall q, In q l -> jgood (exps q)) ->
  h s = Some (TSum l c) -> (forall q, In q l -> h q = Some (TLeaf (jstart (exps q)))) ->
  let P := fun d => forall q, In q l -> jpoint (exps q) d in
  let f := fun d => all_of (map (fun q => jvalue (exps q) d) l ++ [as_real (bind (g d) (cman_eval c))]) in
  picks exps l P g -> jproper l P cl g f ->
  forall fuel, (2 <= fuel)%nat -> on_sum fuel s cl (fst (ts_reg nl_tsops fuel h s)) = on_functions cl g f.
Proof. cbv zeta. intros Hg H1 H2 Hp P fuel Hf. exact (joint_pkg_sec exps s l c Hg cl g h H1 H2 Hp P fuel Hf). Qed.
