(** C62, C79: an optimiser and a fit result nobody has configured. *)
From Coq Require Import ZArith.
From Verif Require Import Base.Res Base.Num Base.SMap Model.Axis Model.Hist Model.Matrix Model.Grid Model.Minuit Spec.SystSpec Spec.MinuitSpec Proofs.MinuitP Proofs.MinuitP2.
From Coq Require Import Lia.
Local Open Scope Qc_scope.
Lemma defaults_pkg ts vals errs : swf vals -> swf errs -> same_keys errs vals -> tsNames ts = skeys errs ->
  exists pb, runs_on (setInitialErrors errs (setInitialValues vals newMinuit)) ts pb /\
    pbMethod pb = "Migrad"%string /\ pbStrategy pb = 2%Z /\ pbMaxCalls pb = 0%Z /\ pbTol pb = qq 1 10 /\ pbUp pb = qhalf /\ pbFixed pb = [] /\
    pbLimits pb = repeat None (List.length (tsNames ts)) /\
    forall v, List.length v = List.length (tsNames ts) -> exists d, is_dict d (tsNames ts) v /\ pbFCN pb v = tsEval ts d.
Proof.
  intros Wv We K N. set (m := setInitialErrors errs (setInitialValues vals newMinuit)).
  assert (R : ready m ts).
  { split; [repeat split; try exact sempty_wf; assumption|]. split; [intros k; split; auto|]. split; [exact K|]. split; [intros k lo hi C; discriminate C|].
    split; [left; reflexivity|]. split; [exact N|]. intros n []. }
  destruct (run_runs ts m R) as [pb [Ro [E [L _]]]]. exists pb. split; [exact Ro|]. cbn [m setInitialErrors setInitialValues newMinuit mFixed List.length] in L.
  apply length_zero_iff_nil in L. rewrite L in E. rewrite E.
  cbn [init_problem pbMethod pbStrategy pbMaxCalls pbTol pbUp pbFixed pbLimits pbFCN m setInitialErrors setInitialValues newMinuit mMethod mStrategy mMaxCalls mTol mMaximising mSet mErrs].
  do 4 (split; [reflexivity|]). split; [reflexivity|]. split; [reflexivity|]. split.
  - change (snd (the_lims m)) with (map (fun _ : string => @None (Qc * Qc)) (skeys errs)). rewrite N. clear. induction (skeys errs) as [|k l IH]; [reflexivity|]. cbn [map List.length repeat]. now rewrite IH.
  - rewrite N. intros v Lv. destruct (setValues_ok sempty (skeys errs) v (swf_nodup _ We) Lv sempty_wf) as [d [Ed [Wd [A B]]]]. exists d. split.
    + split; [exact Lv|]. split; [exact Wd|]. split; [|exact A]. intros k. split.
      * intros I. destruct (in_dec string_dec k (skeys errs)) as [J|J]; [exact J|]. apply sfind_in in I. destruct I as [y I]. rewrite (B k J) in I. discriminate.
      * intros I. apply In_nth with (d := ""%string) in I. destruct I as [i [I1 I2]]. apply sfind_in. exists (nth i v 0). rewrite <- I2. now apply A.
    + unfold fcn. rewrite Ed. cbn [bind]. destruct (tsEval ts d); reflexivity.
Qed.
Lemma unrun_pkg : mFit newMinuit = fit0 /\ frBest fit0 = [] /\ frExtreme fit0 = 0 /\ frValid fit0 = true /\ (sNR (frCov fit0) = 0 /\ sNC (frCov fit0) = 0)%nat /\ fitGetSpace fit0 = UB.
Proof. repeat split. Qed.
