From Coq Require Import ZArith.
From Verif Require Import Base.Res Base.Num Base.SMap Model.Axis Model.Hist Model.Matrix Model.Grid Model.Minuit Spec.SystSpec Spec.MinuitSpec Proofs.GridP3 Proofs.MinuitP.
From Coq Require Import Lia.
Local Open Scope Qc_scope.
Local Open Scope res_scope.

Definition the_lims (m : minuit) : smap Qc * smap Qc * list (option (Qc * Qc)) :=
  if andb (negb (Nat.eqb (List.length (mMin m)) 0)) (negb (Nat.eqb (List.length (mMax m)) 0))
  then limits (skeys (mErrs m)) (mMin m) (mMax m) else (mMin m, mMax m, map (fun _ => None) (skeys (mErrs m))).
Definition init_state (m : minuit) : minuit :=
  mkMinuit (mVals m) (mErrs m) (fst (fst (the_lims m))) (snd (fst (the_lims m))) (mFixed m) (mMaxCalls m) (mTol m) (mStrategy m) (mMethod m) (mMaximising m) qhalf (mMaximising m) (mSet m) (skeys (mErrs m)) (mFit m).
Definition init_problem (ts : stat) (m : minuit) (fixed : list nat) : problem :=
  mkProblem (mMethod m) (map (fun k => get0 k (mVals m)) (skeys (mErrs m))) (map (fun k => get0 k (mErrs m)) (skeys (mErrs m))) (snd (the_lims m)) fixed qhalf
    (mStrategy m) (mMaxCalls m) (mTol m) (fcn ts (mMaximising m) (mSet m) (skeys (mErrs m))).
Lemma init_ok ts m : ready m ts -> mInit ts m = (init_state m, Ok (init_problem ts m [])).
Proof.
  intros [[W1 [W2 [W3 [W4 W5]]]] [K1 [K2 [R [M _]]]]]. unfold mInit. rewrite (proj2 (hasSame _ _ W3 W4) K1), (proj2 (hasSame _ _ W2 W1) K2). cbn [negb].
  rewrite (proj2 (range_check m W3 W4 K1) R). fold (the_lims m). destruct (the_lims m) as [[mn mx] l] eqn:E. unfold init_state, init_problem. rewrite E. cbn [fst snd].
  rewrite getValues_ok by (intros k I; now apply K2). cbn [bind]. rewrite getValues_ok by auto. cbn [bind]. apply known_bool in M. rewrite M. reflexivity.
Qed.
Lemma lims_facts m : same_keys (mMin m) (mMax m) ->
  List.length (snd (the_lims m)) = List.length (mErrs m) /\
  (mMin m = [] -> snd (the_lims m) = map (fun _ => None) (skeys (mErrs m)) /\ fst (the_lims m) = (mMin m, mMax m)) /\
  (mMin m <> [] -> snd (the_lims m) = map (fun n => Some (get0 n (mMin m), get0 n (mMax m))) (skeys (mErrs m)) /\
     forall k, sfind k (fst (fst (the_lims m))) = (if existsb (String.eqb k) (skeys (mErrs m)) then Some (get0 k (mMin m)) else sfind k (mMin m)) /\
               sfind k (snd (fst (the_lims m))) = (if existsb (String.eqb k) (skeys (mErrs m)) then Some (get0 k (mMax m)) else sfind k (mMax m))) /\
  (swf (mMin m) -> swf (fst (fst (the_lims m)))) /\ (swf (mMax m) -> swf (snd (fst (the_lims m)))).
Proof.
  intros K. unfold the_lims. destruct (mMin m) as [|[k v] mn] eqn:E1.
  - cbn. repeat split; auto; [|congruence|congruence..]. unfold skeys. now rewrite !map_length.
  - assert (NE : List.length (mMax m) <> 0%nat). { intros Z. apply length_zero_iff_nil in Z. pose proof (proj1 (K k) (or_introl eq_refl)) as X. rewrite Z in X. destruct X. }
    destruct (Nat.eqb_spec (List.length (mMax m)) 0) as [Z|_]; [contradiction|]. cbn [List.length Nat.eqb negb andb].
    destruct (limits_ok (skeys (mErrs m)) ((k, v) :: mn) (mMax m)) as [a [b [l [-> [-> [Ha [Hb [Wa Wb]]]]]]]]. cbn [fst snd]. split; [unfold skeys; now rewrite !map_length|].
    split; [discriminate|]. split; [|auto]. intros _. split; [reflexivity|]. intros x. auto.
Qed.
Lemma run_ok ts m : ready m ts -> exists pb, pb = init_problem ts m (pbFixed pb) /\ List.length (pbFixed pb) = List.length (mFixed m) /\
  (forall i, In i (pbFixed pb) <-> (i < List.length (skeys (mErrs m)))%nat /\ In (nth i (skeys (mErrs m)) ""%string) (mFixed m)) /\
  forall M, mOptimise M ts m = 
    match M pb with
    | Ok a => let set' := match anLast a with
                          | Some v => match setValues (mSet m) (skeys (mErrs m)) v with Ok d => d | _ => mSet m end
                          | None => mSet m
                          end in
              let m2 f := mkMinuit (mVals m) (mErrs m) (mMin (init_state m)) (mMax (init_state m)) (mFixed m) (mMaxCalls m) (mTol m) (mStrategy m) (mMethod m)
                            (mMaximising m) qhalf (mMaximising m) set' (skeys (mErrs m)) f in
              match (do best <- setValues sempty (skeys (mErrs m)) (anParams a); do cov <- calcCov (anCov a);
                     Ok (mkFit best (if mMaximising m then - anFval a else anFval a) (anValid a) cov (frSpace (mFit m)))) with
              | Ok f => (m2 f, Ok (pb, f))
              | Throw e => (m2 (mFit m), Throw e) | UB => (m2 (mFit m), UB) | NonFinite => (m2 (mFit m), NonFinite) | Diverge => (m2 (mFit m), Diverge)
              end
    | Throw e => (init_state m, Throw e) | UB => (init_state m, UB) | NonFinite => (init_state m, NonFinite) | Diverge => (init_state m, Diverge)
    end.
Proof.
  intros H. pose proof H as [[W1 [W2 [W3 [W4 W5]]]] [K1 [K2 [R [M [N F]]]]]].
  destruct (fixAll_ok (skeys (mErrs m)) (mFixed m) (swf_nodup _ W2) F) as [l [E [L P]]]. exists (init_problem ts m l). split; [reflexivity|]. split; [exact L|]. split; [exact P|].
  intros MM. unfold mOptimise. rewrite (init_ok ts m H). change (mNames (init_state m)) with (skeys (mErrs m)). change (mFixed (init_state m)) with (mFixed m).
  rewrite N, (proj2 (keys_eqb_eq _ _) eq_refl). cbn [negb]. rewrite E. reflexivity.
Qed.
Lemma runs ts m pb : (forall M, mOptimise M ts m = mOptimise (fun _ => M pb) ts m) -> (forall M e, M pb = Throw e -> snd (mOptimise M ts m) = Throw e) -> runs_on m ts pb.
Proof. intros A B. split; assumption. Qed.
Lemma run_runs ts m : ready m ts -> exists pb, runs_on m ts pb /\ pb = init_problem ts m (pbFixed pb) /\ List.length (pbFixed pb) = List.length (mFixed m) /\
  (forall i, In i (pbFixed pb) <-> (i < List.length (skeys (mErrs m)))%nat /\ In (nth i (skeys (mErrs m)) ""%string) (mFixed m)).
Proof.
  intros H. destruct (run_ok ts m H) as [pb [E [L [P Q]]]]. exists pb. split; [|auto]. apply runs; [intros M; rewrite !Q; reflexivity|]. intros M e X. rewrite Q, X. reflexivity.
Qed.
Lemma map_nth' {A B} (f : A -> B) l i d d' : (i < List.length l)%nat -> nth i (map f l) d' = f (nth i l d).
Proof. intros H. rewrite (nth_indep _ d' (f d)) by (now rewrite map_length). apply map_nth. Qed.
Lemma get0_find k d : In k (skeys d) -> sfind k d = Some (get0 k d).
Proof. intros H. apply sfind_in in H. destruct H as [v E]. unfold get0. now rewrite E. Qed.

(** packages *)
Lemma start_pkg m ts : ready m ts -> exists pb, runs_on m ts pb /\
  pbMethod pb = mMethod m /\ pbStrategy pb = mStrategy m /\ pbMaxCalls pb = mMaxCalls m /\ pbTol pb = mTol m /\
  List.length (pbVals pb) = List.length (tsNames ts) /\ List.length (pbErrs pb) = List.length (tsNames ts) /\ List.length (pbLimits pb) = List.length (tsNames ts) /\
  forall i, (i < List.length (tsNames ts))%nat -> sfind (nth i (tsNames ts) ""%string) (mVals m) = Some (nth i (pbVals pb) 0) /\
    sfind (nth i (tsNames ts) ""%string) (mErrs m) = Some (nth i (pbErrs pb) 0).
Proof.
  intros H. destruct (run_runs ts m H) as [pb [R [E _]]]. exists pb. split; [exact R|]. pose proof H as [W [K1 [K2 [_ [_ [N _]]]]]]. rewrite N. set (fx := pbFixed pb) in E. clearbody fx. subst pb.
  cbn [init_problem pbMethod pbStrategy pbMaxCalls pbTol pbVals pbErrs pbLimits]. rewrite !map_length. destruct (lims_facts m K1) as [L _].
  assert (LL : List.length (skeys (mErrs m)) = List.length (mErrs m)) by (unfold skeys; apply map_length). rewrite L, LL.
  do 7 (split; [reflexivity|]). intros i Hi. rewrite <- LL in Hi. split.
  - rewrite (map_nth' _ _ _ ""%string) by exact Hi. apply get0_find. apply K2. now apply nth_In.
  - rewrite (map_nth' _ _ _ ""%string) by exact Hi. apply get0_find. now apply nth_In.
Qed.
Lemma limits_pkg m ts : ready m ts -> exists pb, runs_on m ts pb /\ List.length (pbLimits pb) = List.length (tsNames ts) /\
  forall i, (i < List.length (tsNames ts))%nat ->
    (mMin m = [] -> nth i (pbLimits pb) None = None) /\
    (forall lo hi, sfind (nth i (tsNames ts) ""%string) (mMin m) = Some lo -> sfind (nth i (tsNames ts) ""%string) (mMax m) = Some hi -> nth i (pbLimits pb) None = Some (lo, hi)) /\
    (mMin m <> [] -> ~ In (nth i (tsNames ts) ""%string) (skeys (mMin m)) -> nth i (pbLimits pb) None = Some (0, 0)).
Proof.
  intros H. destruct (run_runs ts m H) as [pb [R [E _]]]. exists pb. split; [exact R|]. pose proof H as [W [K1 [K2 [_ [_ [N _]]]]]]. rewrite N. set (fx := pbFixed pb) in E. clearbody fx. subst pb.
  cbn [init_problem pbLimits]. destruct (lims_facts m K1) as [L [A [B _]]]. assert (LL : List.length (skeys (mErrs m)) = List.length (mErrs m)) by (unfold skeys; apply map_length).
  rewrite L, LL. split; [reflexivity|]. intros i Hi. rewrite <- LL in Hi. split; [|split].
  - intros Z. rewrite (proj1 (A Z)). now rewrite (map_nth' _ _ _ ""%string) by exact Hi.
  - intros lo hi F1 F2. assert (NE : mMin m <> []) by (intros Z; rewrite Z in F1; discriminate). rewrite (proj1 (B NE)). rewrite (map_nth' _ _ _ ""%string) by exact Hi. unfold get0. now rewrite F1, F2.
  - intros NE NI. rewrite (proj1 (B NE)). rewrite (map_nth' _ _ _ ""%string) by exact Hi. unfold get0. assert (NI2 := NI). rewrite (K1 _) in NI2. apply sfind_not_in in NI. apply sfind_not_in in NI2. now rewrite NI, NI2.
Qed.
Lemma fix_pkg m ts : ready m ts -> exists pb, runs_on m ts pb /\
  forall i, In i (pbFixed pb) <-> (i < List.length (tsNames ts))%nat /\ In (nth i (tsNames ts) ""%string) (mFixed m).
Proof.
  intros H. destruct (run_runs ts m H) as [pb [R [E [_ P]]]]. exists pb. split; [exact R|]. pose proof H as [_ [_ [_ [_ [_ [N _]]]]]]. rewrite N. exact P.
Qed.
Lemma up_pkg m ts x : ready m ts -> exists pb, runs_on (setUpperContourEdge x m) ts pb /\ pbUp pb = qhalf /\
  forall M, mUp (fst (mOptimise M ts (setUpperContourEdge x m))) = qhalf.
Proof.
  intros H. assert (H' : ready (setUpperContourEdge x m) ts) by exact H. destruct (run_ok _ _ H') as [pb [E [_ [_ Q]]]]. exists pb.
  split; [apply runs; [intros M; rewrite !Q; reflexivity|intros M e X; rewrite Q, X; reflexivity]|]. split; [rewrite E; reflexivity|].
  intros M. rewrite Q. destruct (M pb) as [a| | | |]; try reflexivity. destruct (bind _ _); reflexivity.
Qed.
Lemma fcn_pkg m ts : ready m ts -> exists pb, runs_on m ts pb /\ forall v, List.length v = List.length (tsNames ts) -> exists d,
  (forall i, (i < List.length (tsNames ts))%nat -> sfind (nth i (tsNames ts) ""%string) d = Some (nth i v 0)) /\
  (forall k, ~ In k (tsNames ts) -> sfind k d = sfind k (mSet m)) /\
  ((forall k, In k (skeys (mSet m)) -> In k (tsNames ts)) -> is_dict d (tsNames ts) v) /\
  pbFCN pb v = (if mMaximising m then rmap Qcopp (tsEval ts d) else tsEval ts d).
Proof.
  intros H. destruct (run_runs ts m H) as [pb [R [E _]]]. exists pb. split; [exact R|]. pose proof H as [[_ [W2 [_ [_ W5]]]] [_ [_ [_ [_ [N _]]]]]]. rewrite N.
  intros v L. destruct (setValues_ok (mSet m) (skeys (mErrs m)) v (swf_nodup _ W2) L W5) as [d [Ed [Wd [A B]]]]. exists d. split; [exact A|]. split; [exact B|]. split.
  - intros S. split; [exact L|]. split; [exact Wd|]. split; [|exact A]. intros k. split.
    + intros I. destruct (in_dec string_dec k (skeys (mErrs m))) as [J|J]; [exact J|]. apply S. apply sfind_in. rewrite <- (B k J). now apply sfind_in.
    + intros I. apply In_nth with (d := ""%string) in I. destruct I as [i [I1 I2]]. apply sfind_in. exists (nth i v 0). rewrite <- I2. now apply A.
  - rewrite E. cbn [init_problem pbFCN]. unfold fcn. rewrite Ed. cbn [bind]. destruct (tsEval ts d) as [y| | | |]; cbn [bind rmap]; destruct (mMaximising m); try reflexivity; try (f_equal; ring).
Qed.
Lemma result_pkg m ts : ready m ts -> exists pb, runs_on m ts pb /\ forall M a free, M pb = Ok a -> sized_answer (List.length (tsNames ts)) a free ->
  exists m' f, mOptimise M ts m = (m', Ok (pb, f)) /\ mFit m' = f /\ is_dict (frBest f) (tsNames ts) (anParams a) /\
    frExtreme f = (if mMaximising m then - anFval a else anFval a) /\ frValid f = anValid a /\
    square (frCov f) free /\ forall j k, (k <= j < free)%nat ->
      m_get (frCov f) j k = Ok (nth (tri j + k) (anCov a) 0) /\ m_get (frCov f) k j = Ok (nth (tri j + k) (anCov a) 0).
Proof.
  intros H. destruct (run_ok _ _ H) as [pb [E [_ [_ Q]]]]. exists pb. split; [apply runs; [intros M; rewrite !Q; reflexivity|intros M e X; rewrite Q, X; reflexivity]|].
  pose proof H as [[_ [W2 _]] [_ [_ [_ [_ [N _]]]]]]. rewrite N. intros M a free X [L1 L2].
  destruct (setValues_ok sempty (skeys (mErrs m)) (anParams a) (swf_nodup _ W2) L1 sempty_wf) as [d [Ed [Wd [A B]]]]. destruct (calcCov_ok _ _ L2) as [c [Ec [Sq G]]].
  rewrite Q, X, Ed. cbn [bind]. rewrite Ec. cbn [bind]. do 2 eexists. split; [reflexivity|]. split; [reflexivity|]. cbn [frBest frExtreme frValid frCov]. split; [|auto].
  split; [exact L1|]. split; [exact Wd|]. split; [|exact A]. intros k. split.
  - intros I. destruct (in_dec string_dec k (skeys (mErrs m))) as [J|J]; [exact J|]. apply sfind_in in I. destruct I as [y I]. rewrite (B k J) in I. discriminate.
  - intros I. apply In_nth with (d := ""%string) in I. destruct I as [i [I1 I2]]. apply sfind_in. exists (nth i (anParams a) 0). rewrite <- I2. now apply A.
Qed.
(** partial limits poison the next fit *)
Lemma second_pkg m ts n : ready m ts -> mMin m <> [] -> In n (tsNames ts) -> ~ In n (skeys (mMin m)) -> forall M,
  let m' := fst (mOptimise M ts m) in
  sfind n (mMin m') = Some 0 /\ sfind n (mMax m') = Some 0 /\ forall M' ts', snd (mOptimise M' ts' m') = Throw LogicError.
Proof.
  intros H NE I NI M m'. pose proof H as [[W1 [W2 [W3 [W4 W5]]]] [K1 [K2 [_ [_ [N _]]]]]]. destruct (run_ok _ _ H) as [pb [_ [_ [_ Q]]]].
  destruct (lims_facts m K1) as [_ [_ [B [Wa Wb]]]]. destruct (B NE) as [_ F]. clear B.
  assert (SM : mMin m' = fst (fst (the_lims m)) /\ mMax m' = snd (fst (the_lims m)) /\ mErrs m' = mErrs m /\ mVals m' = mVals m).
  { unfold m'. rewrite Q. destruct (M pb) as [a| | | |]; try (cbn; tauto). destruct (bind _ _); cbn; tauto. }
  destruct SM as [S1 [S2 [S3 S4]]]. rewrite N in I. assert (NI2 := NI). rewrite (K1 _) in NI2. apply sfind_not_in in NI. apply sfind_not_in in NI2.
  assert (G1 : sfind n (mMin m') = Some 0) by (rewrite S1, (proj1 (F n)), (proj2 (existsb_in n _) I); unfold get0; now rewrite NI).
  assert (G2 : sfind n (mMax m') = Some 0) by (rewrite S2, (proj2 (F n)), (proj2 (existsb_in n _) I); unfold get0; now rewrite NI2).
  split; [exact G1|]. split; [exact G2|]. intros M' ts'. unfold mOptimise, mInit.
  destruct (negb (hasSameKeys (mMin m') (mMax m'))); [reflexivity|]. destruct (negb (hasSameKeys (mErrs m') (mVals m'))); [reflexivity|].
  assert (X : existsb (fun e => qleb (snd (sub (fst e) (mMax m'))) (snd e)) (mMin m') = true).
  { apply existsb_exists. exists (n, 0). split; [apply sfind_In; [rewrite S1; now apply Wa|exact G1]|]. cbn [fst snd]. rewrite sub_eq. unfold get0. rewrite G2. reflexivity. }
  rewrite X. reflexivity.
Qed.
(** parameters of an earlier fit stay in the dictionary *)
Lemma stale_pkg m ts : ready m ts -> forall M a v, (forall pb, M pb = Ok a) -> anLast a = Some v -> List.length v = List.length (tsNames ts) ->
  forall k, In k (tsNames ts) -> In k (skeys (mSet (fst (mOptimise M ts m)))).
Proof.
  intros H M a v X Y L k I. destruct (run_ok _ _ H) as [pb [_ [_ [_ Q]]]]. pose proof H as [[_ [W2 [_ [_ W5]]]] [_ [_ [_ [_ [N _]]]]]]. rewrite N in *.
  destruct (setValues_ok (mSet m) (skeys (mErrs m)) v (swf_nodup _ W2) L W5) as [d [Ed [Wd [A B]]]].
  assert (S : mSet (fst (mOptimise M ts m)) = d). { rewrite Q, X, Y, Ed. cbv zeta. destruct (bind _ _); reflexivity. }
  rewrite S. apply In_nth with (d := ""%string) in I. destruct I as [i [I1 I2]]. apply sfind_in. exists (nth i v 0). rewrite <- I2. now apply A.
Qed.
Lemma reject_pkg M ts m : dicts_ok m ->
  (~ same_keys (mMin m) (mMax m) -> snd (mOptimise M ts m) = Throw LogicError) /\
  (same_keys (mMin m) (mMax m) -> ~ same_keys (mErrs m) (mVals m) -> snd (mOptimise M ts m) = Throw LogicError) /\
  (same_keys (mMin m) (mMax m) -> same_keys (mErrs m) (mVals m) -> ~ ranges_ok m -> snd (mOptimise M ts m) = Throw LogicError) /\
  (same_keys (mMin m) (mMax m) -> same_keys (mErrs m) (mVals m) -> ranges_ok m -> ~ method_known (mMethod m) -> snd (mOptimise M ts m) = Throw ValueError) /\
  (same_keys (mMin m) (mMax m) -> same_keys (mErrs m) (mVals m) -> ranges_ok m -> method_known (mMethod m) ->
     (tsNames ts <> skeys (mErrs m) \/ exists n, In n (mFixed m) /\ ~ In n (skeys (mErrs m))) -> snd (mOptimise M ts m) = Throw LogicError).
Proof.
  intros [W1 [W2 [W3 [W4 W5]]]]. unfold mOptimise, mInit. split; [|split; [|split; [|split]]].
  - intros H. destruct (hasSameKeys (mMin m) (mMax m)) eqn:E; [apply hasSame in E; try assumption; contradiction|reflexivity].
  - intros K1 H. rewrite (proj2 (hasSame _ _ W3 W4) K1). cbn [negb]. destruct (hasSameKeys (mErrs m) (mVals m)) eqn:E; [apply hasSame in E; try assumption; contradiction|reflexivity].
  - intros K1 K2 R. rewrite (proj2 (hasSame _ _ W3 W4) K1), (proj2 (hasSame _ _ W2 W1) K2). cbn [negb].
    destruct (existsb _ (mMin m)) eqn:E; [reflexivity|]. apply range_check in E; try assumption. contradiction.
  - intros K1 K2 R H. rewrite (proj2 (hasSame _ _ W3 W4) K1), (proj2 (hasSame _ _ W2 W1) K2). cbn [negb]. rewrite (proj2 (range_check m W3 W4 K1) R). fold (the_lims m).
    destruct (the_lims m) as [[mn mx] l]. rewrite getValues_ok by (intros k I; now apply K2). cbn [bind]. rewrite getValues_ok by auto. cbn [bind].
    destruct (_ || _)%bool eqn:E; [apply known_bool in E; contradiction|reflexivity].
  - intros K1 K2 R H D. rewrite (proj2 (hasSame _ _ W3 W4) K1), (proj2 (hasSame _ _ W2 W1) K2). cbn [negb]. rewrite (proj2 (range_check m W3 W4 K1) R). fold (the_lims m).
    destruct (the_lims m) as [[mn mx] l]. rewrite getValues_ok by (intros k I; now apply K2). cbn [bind]. rewrite getValues_ok by auto. cbn [bind]. apply known_bool in H. rewrite H.
    cbn [mNames mFixed]. destruct (keys_eqb (tsNames ts) (skeys (mErrs m))) eqn:E; [|reflexivity]. cbn [negb]. apply keys_eqb_eq in E. destruct D as [D|[n [D1 D2]]]; [contradiction|].
    rewrite (fixAll_bad _ _ n D1 D2). reflexivity.
Qed.
Lemma fixset_pkg n k m : (In k (mFixed (fix_ n m)) <-> k = n \/ In k (mFixed m)) /\ (In k (mFixed (release n m)) <-> k <> n /\ In k (mFixed m)).
Proof.
  split.
  - cbn [fix_ withFixed mFixed]. unfold sset_add. rewrite skeys_sset_in. unfold skeys. rewrite map_map, map_id. reflexivity.
  - cbn [release withFixed mFixed]. rewrite filter_In. destruct (String.eqb_spec k n); cbn; intuition congruence.
Qed.
