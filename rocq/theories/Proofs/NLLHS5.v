(** C89: the parameters of a likelihood with systematics. *)
From Coq Require Import ZArith Reals Lia.
From Verif Require Import Base.Res Base.Num Base.RNum Base.SMap Model.Axis Model.Event Model.Cut Model.Hist Model.ED Model.Param Model.Matrix Model.SystMan Model.Shrink Model.EDMan
  Model.Fill Model.Constraint Model.NLLH Spec.AxisSpec Spec.HistSpec Spec.ParamSpec Spec.EDManSpec Spec.SystManSpec Spec.NLLHSpec Spec.NLLHSysSpec
  Proofs.AxisP Proofs.HistP Proofs.HistP2 Proofs.ParamP Proofs.ParamP2 Proofs.ParamP3 Proofs.EDManP Proofs.EDManP2 Proofs.SystManP Proofs.SystManP2 Proofs.SystManP3 Proofs.NLLHP Proofs.NLLHP2 Proofs.NLLHS1 Proofs.NLLHS2 Proofs.NLLHS3 Proofs.NLLHS4.
Local Open Scope Qc_scope.
Local Open Scope res_scope.

Definition agree (d : smap Qc) (c : comp) : Prop := forall n v w, sfind n d = Some v -> c_get c n = Ok w -> w = v.
Lemma set_agree c d : comp_ok c -> swf d -> (~ is_dict c -> forall n, In n (c_names c) -> has_key d n) ->
  exists c', c_setAll c d = (c', Ok tt) /\ comp_ok c' /\ agree d c' /\ (forall n v, In n (c_names c) -> sfind n d = Some v -> c_get c' n = Ok v).
Proof.
  intros H W Hk. destruct c as [nm v|d0|p|ns h].
  2: { destruct (dict_params_pkg d0 d H W) as [c' [E [_ [B _]]]]. destruct (comp_setAll _ _ _ H W E) as [A [B' _]]. exists c'. split; [exact E|]. split; [exact A|]. split; [|exact B'].
       intros n v w Hv Hw. rewrite (B n v Hv) in Hw. congruence. }
  all: match goal with |- exists c', c_setAll ?c _ = _ /\ _ => assert (Hn : ~ is_dict c) by (intros []); destruct (proj1 (own_params_pkg c d H Hn W) (Hk Hn)) as [c' [E [A [N B]]]] end.
  all: exists c'; split; [exact E|]; split; [exact A|]; split; [|exact B]; intros n v' w Hv Hw.
  all: assert (Hin : In n (c_names c')) by (apply (comp_get c' A); eauto); apply N in Hin; rewrite (B n v' Hin Hv) in Hw; congruence.
Qed.
Lemma setLoop_all d cs : (forall c, In c cs -> snd (c_setAll c d) = Ok tt) -> cm_setLoop cs d = (map (fun c => fst (c_setAll c d)) cs, Ok tt).
Proof.
  induction cs as [|c cs IH]; intros H; cbn [cm_setLoop map]; [reflexivity|]. specialize (H c) as H0. destruct (c_setAll c d) as [c' r]. cbn [snd fst] in *.
  rewrite (H0 (or_introl eq_refl)). rewrite IH by (intros x Hx; apply H; now right). reflexivity.
Qed.

(** what the pdf manager reports *)
Lemma get_same (s : edman) d : em_inv2 s -> NoDup (fitted (pairs s)) -> holds s d ->
  exists m, pm_getAll (emPm s) = Ok m /\ swf m /\ restriction m d (fitted (pairs s)).
Proof.
  intros [I _] Hnd Hh. pose proof I as [_ [_ [_ [_ [_ [W [_ [_ H9]]]]]]]]. cbn [setOW emPm] in W.
  destruct (pm_getAll_ok _ W) as [m [E [Wm [_ Fm]]]]. exists m. split; [exact E|]. split; [exact Wm|].
  intros n v. rewrite Fm. split.
  - intros G. destruct (get_value (setOW (emOrig s) (emOrig s) s) n v I G) as [i [l [Hi [_ [_ Hv]]]]]. change (pairs (setOW (emOrig s) (emOrig s) s)) with (pairs s) in Hi. split; [eapply nth_error_In; eassumption|].
    rewrite (Hh i n Hi). f_equal. apply (nth_error_nth _ _ 0 Hv).
  - intros [Hin Hv]. apply In_nth_error in Hin as [i Hi].
    pose proof (H9 Hnd i n Hi) as B. destruct W as [_ Wl]. pose proof (Wl n _ B) as Hl. cbn [setOW emPm] in B.
    rewrite (pm_get_bound _ _ _ B Hl). pose proof (Hh i n Hi) as Hx. rewrite Hv in Hx. injection Hx as ->.
    cbn [deref]. cbn [loc_ok] in Hl. unfold cont_of in *. cbn [setOW emAllDir] in *. rewrite (nth_error_nth' _ 0 Hl). reflexivity.
Qed.
Definition ins (m pd : smap Qc) : smap Qc := fold_left (fun pd kv => sinsert (fst kv) (snd kv) pd) m pd.
Lemma getAll_merge cs : forall pd, swf pd -> Forall comp_ok cs -> exists p,
  foldM (fun pd c => do m <- c_getAll c; Ok (fold_left (fun pd kv => sinsert (fst kv) (snd kv) pd) m pd)) cs pd = Ok p /\ swf p /\
  forall n v, sfind n p = Some v -> (sfind n pd = Some v \/ exists c, In c cs /\ c_get c n = Ok v).
Proof.
  induction cs as [|c cs IH]; intros pd W F; cbn [foldM]; [exists pd; auto|]. inversion F as [|? ? F1 F2]; subst.
  destruct (comp_getAll c F1) as [m [E [Wm [_ G]]]]. rewrite E. cbn [bind]. pose proof (fun n => sinsert_fold m (swf_nodup _ Wm) pd n W) as SF.
  destruct (IH (ins m pd)) as [p [Ep [Wp Gp]]]; [apply (SF EmptyString)|exact F2|]. exists p. split; [exact Ep|]. split; [exact Wp|].
  intros n v Hv. destruct (Gp n v Hv) as [H|[c' [Hc H]]]; [|right; exists c'; split; [now right|exact H]].
  unfold ins in H. rewrite (proj2 (SF n)) in H. destruct (sfind n pd) as [w|] eqn:Ew; [left; exact H|]. right. exists c. split; [now left|]. now apply G.
Qed.
Lemma getAll_has cs : forall pd p, swf pd -> Forall comp_ok cs ->
  foldM (fun pd c => do m <- c_getAll c; Ok (fold_left (fun pd kv => sinsert (fst kv) (snd kv) pd) m pd)) cs pd = Ok p ->
  forall n, (exists v, sfind n pd = Some v) \/ (exists c v, In c cs /\ c_get c n = Ok v) -> exists v, sfind n p = Some v.
Proof.
  induction cs as [|c cs IH]; intros pd p W F; cbn [foldM]; [intros [= <-] n [H|[c [v [[] _]]]]; exact H|]. inversion F as [|? ? F1 F2]; subst.
  destruct (comp_getAll c F1) as [m [E [Wm [_ G]]]]. rewrite E. cbn [bind]. pose proof (fun n => sinsert_fold m (swf_nodup _ Wm) pd n W) as SF.
  intros Ef n H. apply (IH _ _ (proj1 (SF EmptyString)) F2 Ef). rewrite (proj2 (SF n)). destruct H as [[v H]|[c' [v [[<-|Hc] H]]]].
  - left. exists v. now rewrite H.
  - left. destruct (sfind n pd) as [w|]; [eauto|]. exists v. now apply G.
  - right. eauto.
Qed.

Section Par5.
Variables (names : nat -> string) (par : nat -> comp) (build : nat -> comp -> smat * res unit) (obs : list string).
Notation calmS := (calmS names par build obs).

Lemma setP s d qs t : calmS s -> skel (nlSm s) t -> nlReg s = RPdfs :: map RSys qs -> NoDup qs -> swf d -> NoDup (fitted (pairs (nlPm s))) ->
  (forall n, In n (fitted (pairs (nlPm s))) -> has_key d n) ->
  (forall q n, In q qs -> ~ is_dict (par q) -> In n (c_names (par q)) -> has_key d n) ->
  exists s', nl_setParams s d = (s', Ok tt) /\ calmS s' /\ skel (nlSm s') t /\ same_mode s s' /\ same_structure (nlPm s) (nlPm s') /\ holds (nlPm s') d /\
    (forall q, In q qs -> agree d (nlPar s' q) /\ forall n v, In n (c_names (par q)) -> sfind n d = Some v -> c_get (nlPar s' q) n = Ok v).
Proof.
  intros C K Er Hnd W Hf Hk Hq.
  destruct (paramsS names par build obs s d t C K) as [C1 [K1 [M1 T1]]]. cbv zeta in *. exists (fst (nl_setParams s d)).
  assert (Base : snd (nl_setParams s d) = Ok tt -> holds (nlPm (fst (nl_setParams s d))) d ->
    (forall q, In q qs -> agree d (nlPar (fst (nl_setParams s d)) q) /\ forall n v, In n (c_names (par q)) -> sfind n d = Some v -> c_get (nlPar (fst (nl_setParams s d)) q) n = Ok v) ->
    nl_setParams s d = (fst (nl_setParams s d), Ok tt) /\ calmS (fst (nl_setParams s d)) /\ skel (nlSm (fst (nl_setParams s d))) t /\ same_mode s (fst (nl_setParams s d)) /\
    same_structure (nlPm s) (nlPm (fst (nl_setParams s d))) /\ holds (nlPm (fst (nl_setParams s d))) d /\
    (forall q, In q qs -> agree d (nlPar (fst (nl_setParams s d)) q) /\ forall n v, In n (c_names (par q)) -> sfind n d = Some v -> c_get (nlPar (fst (nl_setParams s d)) q) n = Ok v)).
  { intros E H1 H2. split; [destruct (nl_setParams s d); cbn [fst snd] in *; congruence|]. repeat (split; [assumption|]). exact H2. }
  destruct d as [|kv d0].
  - apply Base.
    + unfold nl_setParams. reflexivity.
    + intros i n Hi. exfalso. rewrite (structure_pairs _ _ T1) in Hi. apply nth_error_In in Hi. destruct (Hk n Hi) as [v Hv]. discriminate Hv.
    + intros q _. split; [intros n v w Hv; discriminate Hv|intros n v _ Hv; discriminate Hv].
  - set (d := kv :: d0) in *. clear C1 K1 M1 T1.
    pose proof (csInv _ _ _ _ _ C) as [I0 _].
    destruct (setAll_holds (setOW (emOrig (nlPm s)) (emOrig (nlPm s)) (nlPm s)) d I0 Hf Hk) as [e [Ee [_ [Te He]]]].
    unfold em_setAll in Ee. cbn [setOW emPm] in Ee. destruct (pm_setAll (emPm (nlPm s)) d) as [pp rp] eqn:Ep. injection Ee as Ee ->.
    assert (Sys : forall q, In q qs -> exists c', c_setAll (nlPar s q) d = (c', Ok tt) /\ comp_ok c' /\ agree d c' /\ (forall n v, In n (c_names (nlPar s q)) -> sfind n d = Some v -> c_get c' n = Ok v)).
    { intros q Hin. destruct (csPar _ _ _ _ _ C q) as [Ok1 [E1 [E2 E3]]]. apply set_agree; auto. intros Hd n Hn. apply (Hq q n Hin); [tauto|]. apply E3; [tauto|exact Hn]. }
    assert (Ecs : cm_setAll (map (nl_comp s) (nlReg s)) d = (CPm pp :: map (fun q => fst (c_setAll (nlPar s q) d)) qs, Ok tt)).
    { rewrite Er. unfold cm_setAll. change (match d with [] => _ | _ :: _ => ?x end) with x. rewrite setLoop_all.
      - cbn [map nl_comp c_setAll]. rewrite Ep. cbn [fst]. rewrite !map_map. reflexivity.
      - intros c [<-|Hc]; [cbn [nl_comp c_setAll]; rewrite Ep; reflexivity|]. rewrite map_map in Hc. apply in_map_iff in Hc as [q [<- Hin]]. cbn [nl_comp].
        destruct (Sys q Hin) as [c' [E' _]]. rewrite E'. reflexivity. }
    unfold nl_setParams in Base |- *. rewrite Ecs, Er in *. cbn [map combine fold_left fst snd] in *. rewrite combine_sys in *.
    set (s1 := nl_putComp s (RPdfs, CPm pp)) in *.
    assert (C1 : calmS s1).
    { apply calmS_pm; [exact C|]. pose proof (setAll_structure (nlPm s) d) as T. unfold em_setAll in T. rewrite Ep in T. exact T. }
    destruct (put_all names par build obs (combine qs (map (fun q => fst (c_setAll (nlPar s q) d)) qs)) s1 t C1 K) as [C2 [K2 [M2 [P2 [Q2 Q3]]]]]; cbv zeta in *.
    { apply Forall_forall. intros [q c] Hin. cbn [fst snd]. assert (Hc : In q qs /\ c = fst (c_setAll (nlPar s q) d)).
      { clear -Hin. induction qs as [|x qs IH]; cbn in Hin; [destruct Hin|]. destruct Hin as [[= <- <-]|Hin]; [split; [now left|reflexivity]|]. destruct (IH Hin). split; [now right|assumption]. }
      destruct Hc as [_ ->]. destruct (csPar _ _ _ _ _ C q) as [A B]. destruct (setAll_keep (nlPar s q) d A) as [A1 B1]. split; [exact A1|eapply evolves_trans; eassumption]. }
    apply Base; [reflexivity| |].
    + rewrite P2. intros i n Hi. rewrite (He i n). 2: { rewrite <- Ee. exact Hi. } rewrite <- Ee. reflexivity.
    + intros q Hin. assert (Ein : In (q, fst (c_setAll (nlPar s q) d)) (combine qs (map (fun q => fst (c_setAll (nlPar s q) d)) qs))).
      { clear -Hin. induction qs as [|x qs IH]; cbn in *; [destruct Hin|]. destruct Hin as [<-|Hin]; [now left|right; auto]. }
      rewrite (Q2 (eq_ind_r (@NoDup nat) Hnd (map_fst_combine _ _ (eq_sym (map_length _ _)))) q _ Ein).
      destruct (Sys q Hin) as [c' [E' [Ok' [Ag' Gv']]]]. rewrite E'. cbn [fst]. split; [exact Ag'|]. intros n v Hn. apply Gv'. apply (csPar _ _ _ _ _ C q). exact Hn.
Qed.

(** the parameters reported do not depend on how often the statistic was evaluated *)
Lemma getP s d qs : calmS s -> nlReg s = RPdfs :: map RSys qs -> NoDup (fitted (pairs (nlPm s))) -> (forall n, In n (fitted (pairs (nlPm s))) -> has_key d n) -> holds (nlPm s) d ->
  (forall q, In q qs -> agree d (nlPar s q) /\ forall n v, In n (c_names (par q)) -> sfind n d = Some v -> c_get (nlPar s q) n = Ok v) ->
  exists p, nl_getParams s = Ok p /\ swf p /\
    (forall s', calmS s' -> nlReg s' = nlReg s -> nlPar s' = nlPar s -> pairs (nlPm s') = pairs (nlPm s) -> holds (nlPm s') d -> nl_getParams s' = Ok p) /\
    (forall n v, sfind n d = Some v -> In n (fitted (pairs (nlPm s))) \/ (exists q, In q qs /\ In n (c_names (par q))) -> sfind n p = Some v) /\
    (forall n v, sfind n p = Some v -> (In n (fitted (pairs (nlPm s))) /\ sfind n d = Some v) \/ exists q, In q qs /\ c_get (nlPar s q) n = Ok v).
Proof.
  intros C Er Hnd Hk Hh Hq. destruct (get_same _ d (csInv _ _ _ _ _ C) Hnd Hh) as [m [Em [Wm Rm]]].
  assert (F : Forall comp_ok (map (nlPar s) qs)) by (apply Forall_forall; intros c Hc; apply in_map_iff in Hc as [q [<- _]]; apply (csPar _ _ _ _ _ C q)).
  pose proof (fun n => sinsert_fold m (swf_nodup _ Wm) sempty n sempty_wf) as SF.
  destruct (getAll_merge (map (nlPar s) qs) (ins m sempty) (proj1 (SF EmptyString)) F) as [p [Ep [Wp Gp]]].
  assert (Eq : forall s', nlReg s' = nlReg s -> nlPar s' = nlPar s -> pm_getAll (emPm (nlPm s')) = Ok m -> nl_getParams s' = Ok p).
  { intros s' R' P' E'. unfold nl_getParams, cm_getAll. rewrite R', Er. cbn [map foldM nl_comp c_getAll]. rewrite E'. cbn [bind]. rewrite map_map. cbn [nl_comp]. rewrite P'. exact Ep. }
  assert (Gm : forall n v, sfind n (ins m sempty) = Some v <-> In n (fitted (pairs (nlPm s))) /\ sfind n d = Some v).
  { intros n v. unfold ins. rewrite (proj2 (SF n)). cbn [sfind sempty]. apply Rm. }
  exists p. split; [apply Eq; auto|]. split; [exact Wp|]. split; [|split].
  - intros s' C' R' P' Pp H'. apply Eq; auto. rewrite <- Pp in Hnd. destruct (get_same _ d (csInv _ _ _ _ _ C') Hnd H') as [m' [Em' [Wm' Rm']]]. rewrite Em'. f_equal.
    apply swf_ext; auto. intros n. rewrite Pp in Rm'. destruct (sfind n m') as [v|] eqn:E.
    + symmetry. apply Rm. apply Rm'. exact E.
    + destruct (sfind n m) as [v|] eqn:E'; [|reflexivity]. apply Rm in E'. apply Rm' in E'. congruence.
  - intros n v Hv H. destruct (getAll_has _ _ _ (proj1 (SF EmptyString)) F Ep n) as [w Hw].
    { destruct H as [H|[q [Hin Hn]]]; [left; exists v; apply Gm; auto|right]. exists (nlPar s q), v. split; [now apply in_map|]. apply (Hq q Hin); assumption. }
    rewrite Hw. f_equal. destruct (Gp n w Hw) as [H'|[c [Hc H']]].
    + apply Gm in H' as [_ H']. congruence.
    + apply in_map_iff in Hc as [q [<- Hin]]. destruct (Hq q Hin) as [Ag _]. eapply Ag; eassumption.
  - intros n v Hv. destruct (Gp n v Hv) as [H'|[c [Hc H']]]; [left; apply Gm; exact H'|]. right. apply in_map_iff in Hc as [q [<- Hin]]. eauto.
Qed.
End Par5.
