(** C62, C79 *)
From Coq Require Import ZArith.
From Verif Require Import Base.Res Base.Num Base.SMap Model.Axis Model.Hist Model.Matrix Model.Grid Model.Minuit Spec.SystSpec Spec.MinuitSpec
  Proofs.MinuitP Proofs.MinuitP2 Proofs.MinuitP3 Proofs.MinuitP4 Props.HistProps.
Local Open Scope Qc_scope.
Local Open Scope res_scope.

(** the minimiser gets method, strategy, call limit, tolerance, and each parameter's own value and error *)
Theorem C62_start (m : minuit) (ts : stat) : ready m ts -> exists pb, runs_on m ts pb /\
  pbMethod pb = mMethod m /\ pbStrategy pb = mStrategy m /\ pbMaxCalls pb = mMaxCalls m /\ pbTol pb = mTol m /\
  List.length (pbVals pb) = List.length (tsNames ts) /\ List.length (pbErrs pb) = List.length (tsNames ts) /\ List.length (pbLimits pb) = List.length (tsNames ts) /\
  forall i, (i < List.length (tsNames ts))%nat -> sfind (nth i (tsNames ts) ""%string) (mVals m) = Some (nth i (pbVals pb) 0) /\
    sfind (nth i (tsNames ts) ""%string) (mErrs m) = Some (nth i (pbErrs pb) 0).
Proof. exact (start_pkg m ts). Qed.
Print Assumptions C62_start.
(** limits by name; no limits at all when none were set.  Missing from C62: a parameter without limits gets the limits (0, 0) when others have some *)
Theorem C62_limits_partial (m : minuit) (ts : stat) : ready m ts -> exists pb, runs_on m ts pb /\ List.length (pbLimits pb) = List.length (tsNames ts) /\
  forall i, (i < List.length (tsNames ts))%nat ->
    (mMin m = [] -> nth i (pbLimits pb) None = None) /\
    (forall lo hi, sfind (nth i (tsNames ts) ""%string) (mMin m) = Some lo -> sfind (nth i (tsNames ts) ""%string) (mMax m) = Some hi -> nth i (pbLimits pb) None = Some (lo, hi)) /\
    (mMin m <> [] -> ~ In (nth i (tsNames ts) ""%string) (skeys (mMin m)) -> nth i (pbLimits pb) None = Some (0, 0)).
Proof. exact (limits_pkg m ts). Qed.
Print Assumptions C62_limits_partial.
(** ... and then every later Optimise is refused, whatever the statistic *)
Theorem C62_partial_limits_refuted (m : minuit) (ts : stat) (n : string) : ready m ts -> mMin m <> [] -> In n (tsNames ts) -> ~ In n (skeys (mMin m)) -> forall M,
  let m' := fst (mOptimise M ts m) in
  sfind n (mMin m') = Some 0 /\ sfind n (mMax m') = Some 0 /\ forall M' ts', snd (mOptimise M' ts' m') = Throw LogicError.
Proof. exact (second_pkg m ts n). Qed.
Print Assumptions C62_partial_limits_refuted.
(** exactly the positions of the fixed names are fixed *)
Theorem C62_fix (m : minuit) (ts : stat) : ready m ts -> exists pb, runs_on m ts pb /\
  forall i, In i (pbFixed pb) <-> (i < List.length (tsNames ts))%nat /\ In (nth i (tsNames ts) ""%string) (mFixed m).
Proof. exact (fix_pkg m ts). Qed.
Print Assumptions C62_fix.
Theorem C62_fix_release (n k : string) (m : minuit) :
  (In k (mFixed (fix_ n m)) <-> k = n \/ In k (mFixed m)) /\ (In k (mFixed (release n m)) <-> k <> n /\ In k (mFixed m)).
Proof. exact (fixset_pkg n k m). Qed.
Print Assumptions C62_fix_release.
(** the contour edge set by the user never reaches the minimiser, and is forgotten *)
Theorem C62_upper_contour_refuted (m : minuit) (ts : stat) (x : Qc) : ready m ts -> exists pb, runs_on (setUpperContourEdge x m) ts pb /\ pbUp pb = qhalf /\
  forall M, mUp (fst (mOptimise M ts (setUpperContourEdge x m))) = qhalf.
Proof. exact (up_pkg m ts x). Qed.
Print Assumptions C62_upper_contour_refuted.
(** the function minimised: the statistic at those values by name, negated when maximising *)
Theorem C62_objective (m : minuit) (ts : stat) : ready m ts -> exists pb, runs_on m ts pb /\ forall v, List.length v = List.length (tsNames ts) -> exists d,
  (forall i, (i < List.length (tsNames ts))%nat -> sfind (nth i (tsNames ts) ""%string) d = Some (nth i v 0)) /\
  (forall k, ~ In k (tsNames ts) -> sfind k d = sfind k (mSet m)) /\
  ((forall k, In k (skeys (mSet m)) -> In k (tsNames ts)) -> is_dict d (tsNames ts) v) /\
  pbFCN pb v = (if mMaximising m then rmap Qcopp (tsEval ts d) else tsEval ts d).
Proof. exact (fcn_pkg m ts). Qed.
Print Assumptions C62_objective.
(** an optimiser used on one statistic hands its parameters to the next one too *)
Theorem C62_stale_parameters_refuted (m : minuit) (ts : stat) : ready m ts ->
  (forall M a v, (forall pb, M pb = Ok a) -> anLast a = Some v -> List.length v = List.length (tsNames ts) ->
     forall k, In k (tsNames ts) -> In k (skeys (mSet (fst (mOptimise M ts m))))) /\
  (forall k x, sfind k (mSet m) = Some x -> ~ In k (tsNames ts) -> exists pb, runs_on m ts pb /\
     forall v, List.length v = List.length (tsNames ts) -> exists d, sfind k d = Some x /\ pbFCN pb v = (if mMaximising m then rmap Qcopp (tsEval ts d) else tsEval ts d)).
Proof. exact (fun H => conj (stale_pkg m ts H) (stale2_pkg m ts H)). Qed.
Print Assumptions C62_stale_parameters_refuted.
Theorem C62_result (m : minuit) (ts : stat) : ready m ts -> exists pb, runs_on m ts pb /\ forall M a free, M pb = Ok a -> sized_answer (List.length (tsNames ts)) a free ->
  exists m' f, mOptimise M ts m = (m', Ok (pb, f)) /\ mFit m' = f /\ is_dict (frBest f) (tsNames ts) (anParams a) /\
    frExtreme f = (if mMaximising m then - anFval a else anFval a) /\ frValid f = anValid a /\
    square (frCov f) free /\ forall j k, (k <= j < free)%nat ->
      m_get (frCov f) j k = Ok (nth (tri j + k) (anCov a) 0) /\ m_get (frCov f) k j = Ok (nth (tri j + k) (anCov a) 0).
Proof. exact (result_pkg m ts). Qed.
Print Assumptions C62_result.
Theorem C62_covariance_size (m : minuit) (ts : stat) : ready m ts -> exists pb, runs_on m ts pb /\ forall M a, M pb = Ok a -> List.length (anParams a) = List.length (tsNames ts) ->
  (forall n, List.length (anCov a) <> tri n) -> snd (mOptimise M ts m) = Throw DimensionError.
Proof. exact (cov_size_pkg m ts). Qed.
Print Assumptions C62_covariance_size.
(** mismatched configurations are refused whatever the minimiser *)
Theorem C62_rejects (M : problem -> res answer) (ts : stat) (m : minuit) : dicts_ok m ->
  (~ same_keys (mMin m) (mMax m) -> snd (mOptimise M ts m) = Throw LogicError) /\
  (same_keys (mMin m) (mMax m) -> ~ same_keys (mErrs m) (mVals m) -> snd (mOptimise M ts m) = Throw LogicError) /\
  (same_keys (mMin m) (mMax m) -> same_keys (mErrs m) (mVals m) -> ~ ranges_ok m -> snd (mOptimise M ts m) = Throw LogicError) /\
  (same_keys (mMin m) (mMax m) -> same_keys (mErrs m) (mVals m) -> ranges_ok m -> ~ method_known (mMethod m) -> snd (mOptimise M ts m) = Throw ValueError) /\
  (same_keys (mMin m) (mMax m) -> same_keys (mErrs m) (mVals m) -> ranges_ok m -> method_known (mMethod m) ->
     (tsNames ts <> skeys (mErrs m) \/ exists n, In n (mFixed m) /\ ~ In n (skeys (mErrs m))) -> snd (mOptimise M ts m) = Throw LogicError).
Proof. exact (reject_pkg M ts m). Qed.
Print Assumptions C62_rejects.
(** an optimiser told nothing but where to start: Migrad, strategy 2, tolerance 0.1, no call limit, no parameter limited or fixed, and it minimises
    the statistic itself *)
Theorem C62_defaults ts vals errs : swf vals -> swf errs -> same_keys errs vals -> tsNames ts = skeys errs ->
  exists pb, runs_on (setInitialErrors errs (setInitialValues vals newMinuit)) ts pb /\
    pbMethod pb = "Migrad"%string /\ pbStrategy pb = 2%Z /\ pbMaxCalls pb = 0%Z /\ pbTol pb = qq 1 10 /\ pbUp pb = qhalf /\ pbFixed pb = [] /\
    pbLimits pb = repeat None (List.length (tsNames ts)) /\
    forall v, List.length v = List.length (tsNames ts) -> exists d, is_dict d (tsNames ts) v /\ pbFCN pb v = tsEval ts d.
Proof. exact (defaults_pkg ts vals errs). Qed.
Print Assumptions C62_defaults.
(** repeated fits keep the settings when the limits are set for all parameters or for none *)
Theorem C62_again (m : minuit) (ts : stat) : ready m ts -> (mMin m = [] \/ same_keys (mMin m) (mErrs m)) -> forall M,
  let m' := fst (mOptimise M ts m) in
  ready m' ts /\ mVals m' = mVals m /\ mErrs m' = mErrs m /\ (forall k, sfind k (mMin m') = sfind k (mMin m)) /\ (forall k, sfind k (mMax m') = sfind k (mMax m)) /\
  mFixed m' = mFixed m /\ mMethod m' = mMethod m /\ mStrategy m' = mStrategy m /\ mMaxCalls m' = mMaxCalls m /\ mTol m' = mTol m /\ mMaximising m' = mMaximising m.
Proof. exact (again_pkg m ts). Qed.
Print Assumptions C62_again.

(** C79: results copied by construction are the same; a result without a space has none to give *)
Theorem C79_copy (f : fitres) : fitCopy f = f /\ (forall h, fitGetSpace (fitSetSpace h f) = Ok h) /\ (frSpace f = None -> fitGetSpace f = UB).
Proof. exact (copy_pkg f). Qed.
Print Assumptions C79_copy.
(** assignment is faithful when both or neither have a space *)
Theorem C79_assign_partial (t f : fitres) : (frSpace t = None <-> frSpace f = None) -> fitAssign t f = Ok f.
Proof.
  exact (fun H => match frSpace t as x, frSpace f as y return frSpace t = x -> frSpace f = y -> fitAssign t f = Ok f with
    | None, None => fun A B => proj1 (assign_pkg t f) A B
    | Some a, Some b => fun A B => proj1 (proj2 (assign_pkg t f)) a b A B
    | None, Some b => fun A B => False_ind _ (ltac:(rewrite A, B in H; destruct H as [H _]; discriminate (H eq_refl)))
    | Some a, None => fun A B => False_ind _ (ltac:(rewrite A, B in H; destruct H as [_ H]; discriminate (H eq_refl)))
    end eq_refl eq_refl).
Qed.
Print Assumptions C79_assign_partial.
(** otherwise the space is dropped, or a null pointer is read *)
Theorem C79_assign_refuted (t f : fitres) :
  (forall b, frSpace t = None -> frSpace f = Some b -> exists r, fitAssign t f = Ok r /\ r <> f /\ frSpace r = None /\
     frBest r = frBest f /\ frExtreme r = frExtreme f /\ frValid r = frValid f /\ frCov r = frCov f) /\
  (forall a, frSpace t = Some a -> frSpace f = None -> fitAssign t f = UB).
Proof. exact (proj2 (proj2 (assign_pkg t f))). Qed.
Print Assumptions C79_assign_refuted.

(** before any fit: the result of a new optimiser is empty, has value zero, counts as valid, and has no space to give *)
Theorem C79_unrun : mFit newMinuit = fit0 /\ frBest fit0 = [] /\ frExtreme fit0 = 0 /\ frValid fit0 = true /\ (sNR (frCov fit0) = 0 /\ sNC (frCov fit0) = 0)%nat /\ fitGetSpace fit0 = UB.
Proof. exact unrun_pkg. Qed.
Print Assumptions C79_unrun.

(** an optimiser of two parameters, one fixed, both limited, maximising *)
Definition ex_mdict (x y : Qc) : smap Qc := [("a"%string, x); ("b"%string, y)].
Definition ex_mn : minuit :=
  setMaximising true (fix_ "b" (setMaxima (ex_mdict (qz 5) (qz 6)) (setMinima (ex_mdict (- qz 5) 0) (setInitialErrors (ex_mdict 1 1) (setInitialValues (ex_mdict 0 (qz 3)) newMinuit))))).
Definition ex_mstat : stat := mkStat ["a"; "b"]%string (fun d => Ok (qsum (map snd d))).
Definition ex_mans : answer := mkAnswer [qz 5; qz 3] (- qz 8) true [qz 2] (Some [qz 5; qz 3]).
Lemma ex_wf2 x y : swf (ex_mdict x y).
Proof. unfold swf, skeys, ex_mdict, slt. cbn. repeat constructor. Qed.
Lemma ex_same x y x' y' : same_keys (ex_mdict x y) (ex_mdict x' y').
Proof. intros k. reflexivity. Qed.
Lemma ex_find k x y v : sfind k (ex_mdict x y) = Some v -> (k = "a"%string /\ v = x) \/ (k = "b"%string /\ v = y).
Proof. unfold ex_mdict. cbn [sfind]. destruct (String.eqb_spec k "a"); [intros E; injection E; auto|]. destruct (String.eqb_spec k "b"); [intros E; injection E; auto|discriminate]. Qed.
Lemma ex_mn_ready : ready ex_mn ex_mstat.
Proof.
  unfold ready, dicts_ok. change (mVals ex_mn) with (ex_mdict 0 (qz 3)). change (mErrs ex_mn) with (ex_mdict 1 1). change (mMin ex_mn) with (ex_mdict (- qz 5) 0).
  change (mMax ex_mn) with (ex_mdict (qz 5) (qz 6)). change (mSet ex_mn) with (@sempty Qc). split; [repeat split; try apply ex_wf2; constructor|].
  split; [apply ex_same|]. split; [apply ex_same|]. split; [|split; [left; reflexivity|split; [reflexivity|]]].
  - intros k lo hi A B. apply ex_find in A. apply ex_find in B. destruct A as [[-> ->]|[-> ->]], B as [[B ->]|[B ->]]; try discriminate; vm_compute; reflexivity.
  - intros n [<-|[]]. right. left. reflexivity.
Qed.
Example C62_nonvacuous : ready ex_mn ex_mstat /\ same_keys (mMin ex_mn) (mErrs ex_mn) /\ mMaximising ex_mn = true /\ mFixed ex_mn = ["b"%string] /\ sized_answer 2 ex_mans 1.
Proof. split; [exact ex_mn_ready|]. split; [apply ex_same|]. repeat split. Qed.
Example C62_nonvacuous_run : exists f, snd (mOptimise (fun _ => Ok ex_mans) ex_mstat ex_mn) = Ok f /\ sfind "a"%string (frBest (snd f)) = Some (qz 5) /\ frExtreme (snd f) = qz 8.
Proof. eexists. split; [vm_compute; reflexivity|]. split; [vm_compute; reflexivity|]. apply Qc_is_canon. vm_compute. reflexivity. Qed.
(** limits for one of two parameters only *)
Definition ex_mn1 : minuit := setMaxima [("a"%string, 1)] (setMinima [("a"%string, 0)] ex_mn).
Example C62_nonvacuous_one_limit : ready ex_mn1 ex_mstat /\ mMin ex_mn1 <> [] /\ In "b"%string (tsNames ex_mstat) /\ ~ In "b"%string (skeys (mMin ex_mn1)).
Proof.
  destruct ex_mn_ready as [[W1 [W2 [_ [_ W5]]]] [_ [K2 [_ [A [B C]]]]]].
  split; [|split; [discriminate|split; [right; left; reflexivity|intros [H|[]]; discriminate]]].
  split; [split; [exact W1|split; [exact W2|split; [|split; [|exact W5]]]]; unfold swf; cbn; repeat constructor|].
  split; [intros k; reflexivity|]. split; [exact K2|]. split; [|repeat split; assumption].
  intros k lo hi. cbn. destruct (String.eqb k "a"); [|discriminate]. intros E F. injection E as <-. injection F as <-. reflexivity.
Qed.
(** refused: limits on different parameters, reversed limits, unknown parameter to fix *)
Example C62_nonvacuous_reject : dicts_ok (setMaxima sempty ex_mn) /\ ~ same_keys (mMin (setMaxima sempty ex_mn)) (mMax (setMaxima sempty ex_mn)) /\
  ~ ranges_ok (setMinima (ex_mdict (qz 9) 0) ex_mn) /\ ~ method_known "Fumili" /\ In "c"%string (mFixed (fix_ "c" ex_mn)) /\ ~ In "c"%string (skeys (mErrs ex_mn)).
Proof.
  destruct ex_mn_ready as [[W1 [W2 [W3 [_ W5]]]] _].
  split; [split; [exact W1|split; [exact W2|split; [exact W3|split; [constructor|exact W5]]]]|].
  split; [intros H; destruct (proj1 (H "a"%string) (or_introl eq_refl))|].
  split; [intros H; specialize (H "a"%string (qz 9) (qz 5) eq_refl eq_refl); vm_compute in H; discriminate|].
  split; [intros [H|[H|H]]; discriminate|]. split; [vm_compute; auto|]. intros [H|[H|[]]]; discriminate.
Qed.
Example C62_nonvacuous_stale : exists k x, sfind k (mSet (fst (mOptimise (fun _ => Ok ex_mans) ex_mstat ex_mn))) = Some x /\ ~ In k (tsNames (mkStat ["b"%string] (fun _ => Ok 0))).
Proof. exists "a"%string, (qz 5). split; [vm_compute; reflexivity|]. intros [H|[]]; discriminate. Qed.
Example C79_nonvacuous : frSpace fit0 = None /\ exists f, frSpace f = Some ex_h1 /\ fitAssign fit0 f <> Ok f /\ fitAssign f fit0 = UB.
Proof. split; [reflexivity|]. exists (fitSetSpace ex_h1 fit0). split; [reflexivity|]. split; [discriminate|reflexivity]. Qed.
Example C62_defaults_nonvacuous : swf (ex_mdict 0 (qz 3)) /\ swf (ex_mdict 1 1) /\ same_keys (ex_mdict 1 1) (ex_mdict 0 (qz 3)) /\ tsNames ex_mstat = skeys (ex_mdict 1 1).
Proof. split; [repeat constructor|]. split; [repeat constructor|]. split; [intros k; split; auto|reflexivity]. Qed.
