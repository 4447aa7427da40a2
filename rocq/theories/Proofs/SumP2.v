From Coq Require Import Reals ZArith.
From Verif Require Import Base.Res Base.Num Base.RNum Base.SMap Model.Axis Model.Event Model.Cut Model.Hist Model.ED Model.Param
  Model.EDMan Model.Constraint Model.NLLH Model.Sum Spec.HistSpec Spec.ParamSpec Spec.FillSpec Spec.CutSpec Spec.EDManSpec Spec.NLLHSpec Spec.SumSpec
  Proofs.ParamP Proofs.EDManP Proofs.EDManP2 Proofs.NLLHP Proofs.NLLHP2 Proofs.NLLHP3 Proofs.NLLHP7 Proofs.SumP.
From Coq Require Import Lra Psatz.
Local Open Scope Qc_scope.

Lemma getAll_gen s t : em_inv s -> same_structure s t -> emFit t = emFit s -> (emAllDir s = true -> emNorms t = emNorms s) ->
  pm_getAll (emPm t) = pm_getAll (emPm s).
Proof.
  intros I T B C. pose proof (structure_inv _ _ T I) as It. pose proof I as [_ [_ [_ [_ [_ [Ws [H7 _]]]]]]]. pose proof It as [_ [_ [_ [_ [_ [Wt [H7t _]]]]]]].
  destruct (pm_getAll_ok _ Ws) as [m [E [Wm [Km Fm]]]]. destruct (pm_getAll_ok _ Wt) as [m' [E' [Wm' [Km' Fm']]]]. rewrite E, E'. f_equal.
  destruct T as [A1 [A2 [A3 [A4 [A5 [A6 A7]]]]]].
  assert (G : forall n, pm_get (emPm t) n = pm_get (emPm s) n).
  { intros n. destruct (sfind n (pmPtrs (emPm s))) as [l|] eqn:Eb.
    - pose proof (proj2 Ws n l Eb) as Ls. assert (Ebt : sfind n (pmPtrs (emPm t)) = Some l) by (rewrite A5; exact Eb). pose proof (proj2 Wt n l Ebt) as Lt.
      rewrite (pm_get_bound _ _ _ Eb Ls), (pm_get_bound _ _ _ Ebt Lt). destruct (H7 n l Eb) as [i [_ ->]]. cbn [deref].
      unfold cont_of in *. destruct (emAllDir s) eqn:Ea.
      + change (mCnt (pmMem (emPm t)) c_norms) with (emNorms t). change (mCnt (pmMem (emPm s)) c_norms) with (emNorms s).
        rewrite (C eq_refl). reflexivity.
      + change (mCnt (pmMem (emPm t)) c_fit) with (emFit t). change (mCnt (pmMem (emPm s)) c_fit) with (emFit s). rewrite B. reflexivity.
    - rewrite !pm_get_unbound; [reflexivity|exact Eb|rewrite A5; exact Eb]. }
  apply swf_ext; auto. intros k. destruct (sfind k m') as [v|] eqn:Q.
  - apply Fm' in Q. rewrite G in Q. apply Fm in Q. symmetry. exact Q.
  - destruct (sfind k m) as [v|] eqn:Q'; [|reflexivity]. apply Fm in Q'. rewrite <- G in Q'. apply Fm' in Q'. congruence.
Qed.
Lemma getParams_pm obs s t : calm obs s -> nlReg t = nlReg s -> pm_getAll (emPm (nlPm t)) = pm_getAll (emPm (nlPm s)) -> nl_getParams t = nl_getParams s.
Proof.
  intros C R E. unfold nl_getParams. rewrite R. destruct (cmReg _ _ C) as [-> | ->]; [reflexivity|].
  cbn [map nl_comp]. unfold cm_getAll. cbn [foldM bind c_getAll]. rewrite E. reflexivity.
Qed.
Lemma eval_getParams obs s : calm obs s -> nl_getParams (fst (nl_eval s)) = nl_getParams s.
Proof.
  intros C. destruct (needData_calm obs s C) as [C0 [S0 [D0 K0]]].
  destruct (prepare_calm obs s C) as [p [T [Er Ep]]]. cbv zeta in Ep. unfold nl_eval. rewrite Ep. clear Ep.
  destruct (nl_needData s) as [s0 r] eqn:En. cbn [fst snd] in *. pose proof S0 as [A1 [A2 [A3 [A4 [A5 [A6 [A7 [A8 [A9 [A10 [A11 _]]]]]]]]]]].
  assert (Q : nl_getParams s0 = nl_getParams s) by (apply (getParams_pm obs); [exact C|assumption|rewrite A1; reflexivity]).
  destruct r as [[]|x| | |]; cbn [fst]; try exact Q. clear Q.
  set (s1 := nl_withShrunk (nl_withPm s0 p) (nlSh s) (nlData s0)).
  assert (C1 : calm obs s1).
  { assert (Cp : calm obs (nl_withPm s0 p)) by (apply calm_pm; [exact C0|rewrite A1; exact T]).
    pose proof (calm_shrunk obs _ Cp) as H. cbn [nlSh nl_withPm nlData] in H. rewrite A2 in H. exact H. }
  assert (G1 : nl_getParams s1 = nl_getParams s).
  { apply (getParams_pm obs); [exact C|cbn; assumption|]. change (nlPm s1) with p.
    destruct (reassert_ok false (nlPm s) (cmInv _ _ C)) as [p' [E' [T' [F [D N]]]]]. rewrite Er in E'. injection E' as <-.
    apply getAll_gen; [apply C|exact T|exact F|]. intros Hd. rewrite (D Hd). reflexivity. }
  destruct (loop_nleq (seq 0 (hNBins (bdHist (nlData s1)))) s1 s1 (Ok 0%R) (cmInv _ _ C1) (nleq_refl _)) as [_ [_ W2]].
  pose proof (getParams_nleq obs s1 _ C1 W2) as G2.
  destruct (nl_loop s1 _ (Ok 0%R)) as [s2 acc]. cbn [fst] in *. destruct acc; cbn [fst]; congruence.
Qed.
Lemma getParams_wf obs s d : calm obs s -> nl_getParams s = Ok d -> swf d.
Proof.
  intros C. unfold nl_getParams. destruct (cmReg _ _ C) as [-> | ->]; cbn [map nl_comp]; unfold cm_getAll; cbn [foldM bind c_getAll].
  - intros [= <-]. constructor.
  - destruct (pm_getAll (emPm (nlPm s))) as [m| | | |]; cbn [bind]; try discriminate. intros [= <-].
    apply (dmerge_wf m []). constructor.
Qed.
Lemma nllh_steady names par build obs ops v d : Forall (plain obs) ops -> let s := nlrun (nl_new names par build) ops in
  snd (nl_eval s) = Ok v -> nl_getParams s = Ok d -> steady nl_tsops s v d.
Proof.
  intros F s E G. destruct (nlrun_calm obs ops (nl_new names par build) None (calm_new obs names par build) F I) as [C _]. cbv zeta in C. fold s in C.
  split; [eapply getParams_wf; eassumption|]. intros k.
  assert (H : calm obs (evaluated nl_tsops k s) /\ snd (nl_eval (evaluated nl_tsops k s)) = Ok v /\ nl_getParams (evaluated nl_tsops k s) = Ok d).
  { induction k as [|k [IC [IE IG]]]; [auto|]. change (evaluated nl_tsops (S k) s) with (fst (nl_eval (evaluated nl_tsops k s))).
    split; [apply eval_calm; exact IC|]. split; [rewrite (again obs); assumption|rewrite (eval_getParams obs); assumption]. }
  exact (proj2 H).
Qed.

(** packages *)
Lemma sum_evaluate_pkg T (o : tsops T) h p t vals pars w : unfolds h p t -> (forall q, In q (ends t) -> part o h vals pars q) -> constraints pars t w ->
  forall fuel, (depth t <= fuel)%nat -> exists h', ts_eval o fuel h p = (h', Ok (rsum (map vals (ends t)) + w)%R) /\
    same_but (ends t) h h' /\ forall q, In q (ends t) -> part o h' vals pars q.
Proof.
  intros U P K fuel F. destruct (eval_tree o vals pars t h p w fuel U P K F) as [h' [E [[K1 K2] [P1 O1]]]]. exists h'. split; [exact E|].
  split; [|intros q Hq; apply P1, P, Hq]. intros q. split; [apply O1|]. split; [apply K1|apply K2].
Qed.
Lemma sum_parameters_pkg T (o : tsops T) h p t pars : unfolds h p t ->
  (forall q, In q (ends t) -> exists x, h q = Some (TLeaf x) /\ lGet o x = Ok (pars q) /\ swf (pars q)) ->
  forall fuel, (depth t <= fuel)%nat -> exists d, merged pars (ends t) d /\ ts_get o fuel h p = Ok d /\
    (exists names, ts_names o fuel h p = Ok names /\ NoDup names /\ ts_count o fuel h p = Ok (List.length names) /\
      forall n, In n names <-> exists q, In q (ends t) /\ In n (skeys (pars q))).
Proof.
  intros U P fuel F. destruct (get_merged o pars t h p fuel U P F) as [d [E M]]. exists d. split; [exact M|]. split; [exact E|].
  exists (skeys d). unfold ts_names, ts_count. rewrite E. cbn. split; [reflexivity|]. destruct M as [W M]. split; [apply swf_nodup, W|].
  split; [unfold skeys; rewrite map_length; reflexivity|]. intros n. rewrite sfind_in. setoid_rewrite sfind_in. rewrite M. clear. 
  induction (ends t) as [|q l IH]; unfold first_of; cbn.
  - split; [intros [v H]; discriminate|intros [q [[] _]]].
  - fold (first_of pars l n). destruct (sfind n (pars q)) as [v|] eqn:Q.
    + split; [intros _; exists q; split; [auto|exists v; exact Q]|intros _; exists v; reflexivity].
    + rewrite IH. split; [intros [r [Hr X]]; exists r; auto|intros [r [[<- |Hr] [v X]]]; [congruence|exists r; split; [auto|exists v; exact X]]].
Qed.
Lemma sum_set_pkg T (o : tsops T) h p t : unfolds h p t -> forall fuel, (depth t <= fuel)%nat ->
  (forall d, ts_set o fuel h p d = iterS (on_part (fun x => lSet o x d)) (ends t) h) /\
  ts_reg o fuel h p = iterS (on_part (lReg o)) (ends t) h.
Proof. intros U fuel F. split; [intros d|]; apply each_flat; assumption. Qed.

Lemma iter_reach {T} (f : T -> T * res unit) l : forall h,
  (forall q, In q l -> exists x, h q = Some (TLeaf x) /\ forall k, snd (f (Nat.iter k (fun y => fst (f y)) x)) = Ok tt) ->
  exists h', iterS (on_part f) l h = (h', Ok tt) /\
    (forall q x, h q = Some (TLeaf x) -> h' q = Some (TLeaf (Nat.iter (count_occ Nat.eq_dec l q) (fun y => fst (f y)) x))) /\
    forall q, ~ In q l -> h' q = h q.
Proof.
  induction l as [|p l IH]; intros h H; cbn [iterS].
  - exists h. split; [reflexivity|]. split; [intros q x E; exact E|reflexivity].
  - destruct (H p (or_introl eq_refl)) as [x [Hx Ax]]. unfold on_part at 1. rewrite Hx. pose proof (Ax O) as A0. cbn in A0. cbn [snd fst].
    rewrite A0. destruct (IH (tput h p (TLeaf (fst (f x))))) as [h' [E [R O1]]].
    + intros q Hq. unfold tput. destruct (Nat.eqb_spec q p) as [->|Hn].
      * exists (fst (f x)). split; [reflexivity|]. intros k. specialize (Ax (S k)).
        replace (Nat.iter k (fun y => fst (f y)) (fst (f x))) with (Nat.iter (S k) (fun y => fst (f y)) x); [exact Ax|].
        clear. induction k as [|k IH]; [reflexivity|]. cbn [Nat.iter nat_rect] in *. change (fst (f (Nat.iter (S k) (fun y => fst (f y)) x)) = fst (f (Nat.iter k (fun y => fst (f y)) (fst (f x))))). do 2 f_equal. exact IH.
      * apply H. right. exact Hq.
    + exists h'. split; [exact E|]. split.
      * intros q y Hy. cbn [count_occ]. destruct (Nat.eq_dec p q) as [->|Hn].
        -- rewrite Hx in Hy. injection Hy as <-. rewrite (R q (fst (f x))); [|unfold tput; rewrite Nat.eqb_refl; reflexivity]. do 2 f_equal.
           clear. generalize (count_occ Nat.eq_dec l q). induction n as [|k IH]; [reflexivity|].
           change (fst (f (Nat.iter k (fun y => fst (f y)) (fst (f x)))) = fst (f (Nat.iter (S k) (fun y => fst (f y)) x))). do 2 f_equal. exact IH.
        -- apply R. unfold tput. destruct (Nat.eqb_spec q p); [congruence|exact Hy].
      * intros q Hq. cbn in Hq. rewrite O1 by tauto. unfold tput. destruct (Nat.eqb_spec q p); [subst; tauto|reflexivity].
Qed.
Lemma sum_reach_pkg T (o : tsops T) h p t d : unfolds h p t ->
  (forall q, In q (ends t) -> exists x, h q = Some (TLeaf x) /\ forall k, snd (lSet o (Nat.iter k (fun y => fst (lSet o y d)) x) d) = Ok tt) ->
  forall fuel, (depth t <= fuel)%nat -> exists h', ts_set o fuel h p d = (h', Ok tt) /\
    (forall q x, h q = Some (TLeaf x) ->
       h' q = Some (TLeaf (Nat.iter (count_occ Nat.eq_dec (ends t) q) (fun y => fst (lSet o y d)) x))) /\
    (forall q, ~ In q (ends t) -> h' q = h q).
Proof.
  intros U H fuel F. destruct (iter_reach (fun x => lSet o x d) (ends t) h H) as [h' [E [R O1]]]. exists h'.
  split; [unfold ts_set; rewrite (each_flat _ t h p fuel U F); exact E|]. split; [exact R|exact O1].
Qed.
