(** C36: sums of statistics *)
From Coq Require Import Reals ZArith.
From Verif Require Import Base.Res Base.Num Base.RNum Base.SMap Model.Axis Model.Event Model.Cut Model.Hist Model.ED Model.Param
  Model.EDMan Model.Constraint Model.NLLH Model.Sum Spec.HistSpec Spec.ParamSpec Spec.FillSpec Spec.CutSpec Spec.EDManSpec Spec.NLLHSpec Spec.SumSpec
  Proofs.SumP Proofs.SumP2 Proofs.SumP3.
From Coq Require Import Lra Psatz.
Local Open Scope nat_scope.

(** Evaluate of a sum, however nested and however shared its parts, is the total of the parts and of the constraints of
    all the sums; the heap keeps its structure and the parts their values, so that the next Evaluate agrees *)
Theorem C36_evaluate : forall T (o : tsops T) h p t vals pars w,
  unfolds h p t -> (forall q, In q (ends t) -> part o h vals pars q) -> constraints pars t w ->
  forall fuel, depth t <= fuel -> exists h', ts_eval o fuel h p = (h', Ok (rsum (map vals (ends t)) + w)%R) /\
    same_but (ends t) h h' /\ forall q, In q (ends t) -> part o h' vals pars q.
Proof. exact sum_evaluate_pkg. Qed.
Print Assumptions C36_evaluate.
Theorem C36_parameters : forall T (o : tsops T) h p t pars, unfolds h p t ->
  (forall q, In q (ends t) -> exists x, h q = Some (TLeaf x) /\ lGet o x = Ok (pars q) /\ swf (pars q)) ->
  forall fuel, depth t <= fuel -> exists d, merged pars (ends t) d /\ ts_get o fuel h p = Ok d /\
    (exists names, ts_names o fuel h p = Ok names /\ NoDup names /\ ts_count o fuel h p = Ok (List.length names) /\
      forall n, In n names <-> exists q, In q (ends t) /\ In n (skeys (pars q))).
Proof. exact sum_parameters_pkg. Qed.
Print Assumptions C36_parameters.
(** SetParameters and RegisterFitComponents are exactly the same call on each part, left to right, until one fails *)
Theorem C36_set_order : forall T (o : tsops T) h p t, unfolds h p t -> forall fuel, depth t <= fuel ->
  (forall d, ts_set o fuel h p d = iterS (on_part (fun x => lSet o x d)) (ends t) h) /\
  ts_reg o fuel h p = iterS (on_part (lReg o)) (ends t) h.
Proof. exact sum_set_pkg. Qed.
Print Assumptions C36_set_order.
Theorem C36_set_reaches : forall T (o : tsops T) h p t d, unfolds h p t ->
  (forall q, In q (ends t) -> exists x, h q = Some (TLeaf x) /\ forall k, snd (lSet o (Nat.iter k (fun y => fst (lSet o y d)) x) d) = Ok tt) ->
  forall fuel, depth t <= fuel -> exists h', ts_set o fuel h p d = (h', Ok tt) /\
    (forall q x, h q = Some (TLeaf x) ->
       h' q = Some (TLeaf (Nat.iter (count_occ Nat.eq_dec (ends t) q) (fun y => fst (lSet o y d)) x))) /\
    (forall q, ~ In q (ends t) -> h' q = h q).
Proof. exact sum_reach_pkg. Qed.
Print Assumptions C36_set_reaches.
(** the operators: statistic + statistic (also the one used for statistic + sum), sum + statistic, Sum(list) *)
Theorem C36_operators : forall T (o : tsops T) h vals pars s, h s = None ->
  (forall p q v v', worth o h vals pars p v -> worth o h vals pars q v' -> evaluates o (tput h s (op_plus p q)) s (v + v')) /\
  (forall p l c q v v', h p = Some (TSum l c) -> worth o h vals pars p v -> worth o h vals pars q v' ->
    (forall k f m sg, In (k, (f, m, sg)) (cShape c) -> forall d d', extends d' d -> f d' = f d) ->
    evaluates o (tput h s (op_plus_sum (TSum l c) q)) s (v + v')) /\
  (forall l vs, Forall2 (worth o h vals pars) l vs -> evaluates o (tput h s (op_sum l)) s (rsum vs)).
Proof. exact operators_pkg. Qed.
Print Assumptions C36_operators.
Theorem C36_value : forall T (o : tsops T) h vals pars p v, worth o h vals pars p v -> evaluates o h p v.
Proof. exact worth_evaluates. Qed.
Print Assumptions C36_value.
(** a sum added to itself never returns a value *)
Theorem C36_self : forall T (o : tsops T) p l c, In p l -> forall fuel h v, h p = Some (TSum l c) -> snd (ts_eval o fuel h p) <> Ok v.
Proof. exact self_sum_pkg. Qed.
Print Assumptions C36_self.
(** binned likelihoods without systematics or buffers are parts in this sense *)
Theorem C36_likelihoods : forall names par build obs ops v d, Forall (plain obs) ops -> let s := nlrun (nl_new names par build) ops in
  snd (nl_eval s) = Ok v -> nl_getParams s = Ok d -> steady nl_tsops s v d.
Proof. exact nllh_steady. Qed.
Print Assumptions C36_likelihoods.

(** example: statistics with one parameter a, worth a^2 *)
Definition ex_ops : tsops Qc := mkTs Qc (fun x => (x, Ok (qr (x * x)%Qc)))
  (fun x d => match sfind "a"%string d with Some v => (v, Ok tt) | None => (x, Throw ParameterError) end)
  (fun x => Ok (sof [("a"%string, x)])) (fun x => (x, Ok tt)).
Definition ex_c : cman := fst (set_single cman_new "a"%string (mk_quad (Q2Qc 0) 1%Qc)).
Definition ex_heap : theap Qc := fun p =>
  match p with 0 => Some (TLeaf (qz 2)) | 1 => Some (TLeaf (qz 3)) | 2 => Some (TSum [0; 1] ex_c) | 3 => Some (TSum [2; 0] cman_new) | _ => None end.
Definition ex_t := Node [Node [End 0; End 1] ex_c; End 0] cman_new.
Definition ex_vals (q : nat) : R := if Nat.eqb q 0 then qr (qz 4) else qr (qz 9).
Definition ex_pars (q : nat) : smap Qc := if Nat.eqb q 0 then sof [("a"%string, qz 2)] else sof [("a"%string, qz 3)].
Lemma ex_steady x v : qr (x * x)%Qc = v -> steady ex_ops x v (sof [("a"%string, x)]).
Proof.
  intros E. split; [repeat constructor|]. intros k. assert (H : evaluated ex_ops k x = x).
  { induction k as [|k IH]; [reflexivity|]. change (fst (lEval ex_ops (evaluated ex_ops k x)) = x). rewrite IH. reflexivity. }
  rewrite H. split; [cbn; rewrite E; reflexivity|reflexivity].
Qed.
Lemma ex_merged l : (forall q, In q l -> q = 0 \/ q = 1) -> match l with 0 :: _ => True | _ => False end -> merged ex_pars l (sof [("a"%string, qz 2)]).
Proof.
  intros H E. destruct l as [|[|] l]; try contradiction. split; [repeat constructor|]. intros n. unfold first_of. cbn.
  destruct (String.eqb_spec n "a"); [subst; reflexivity|].
  assert (G : forall m, (forall q, In q m -> q = 0 \/ q = 1) -> fold_right (fun p r => match sfind n (ex_pars p) with Some v => Some v | None => r end) None m = None).
  { clear -n0. induction m as [|q m IH]; intros Hm; [reflexivity|]. cbn. rewrite IH by (intros; apply Hm; cbn; tauto).
    destruct (Hm q (or_introl eq_refl)) as [-> | ->]; cbn; destruct (String.eqb_spec n "a"); congruence. }
  symmetry. apply G. intros q Hq. apply H. cbn. tauto.
Qed.
Example C36_nonvacuous : unfolds ex_heap 3 ex_t /\ (forall q, In q (ends ex_t) -> part ex_ops ex_heap ex_vals ex_pars q) /\
  (exists w, constraints ex_pars ex_t w) /\ ends ex_t = [0; 1; 0] /\ ex_heap 4 = None /\
  (forall q, In q (ends ex_t) -> exists x, ex_heap q = Some (TLeaf x) /\ forall k,
     snd (lSet ex_ops (Nat.iter k (fun y => fst (lSet ex_ops y (sof [("a"%string, qz 5)]))) x) (sof [("a"%string, qz 5)])) = Ok tt) /\
  (exists h' , ts_set ex_ops 5 ex_heap 3 (sof [("a"%string, qz 5)]) = (h', Ok tt) /\ h' 1 = Some (TLeaf (qz 5))) /\
  exists v, evaluates ex_ops ex_heap 3 v.
Proof.
  assert (U : unfolds ex_heap 3 ex_t).
  { eapply U_node; [reflexivity|]. constructor; [eapply U_node; [reflexivity|]|]; repeat (constructor; [eapply U_end; reflexivity|]); constructor. }
  assert (P : forall q, In q (ends ex_t) -> part ex_ops ex_heap ex_vals ex_pars q).
  { intros q Hq. cbn in Hq. assert (q = 0 \/ q = 1) as [-> | ->] by (intuition lia).
    - exists (qz 2). split; [reflexivity|]. apply ex_steady. unfold ex_vals. cbn [Nat.eqb]. f_equal.
    - exists (qz 3). split; [reflexivity|]. apply ex_steady. unfold ex_vals. cbn [Nat.eqb]. f_equal. }
  assert (K : exists w, constraints ex_pars ex_t w).
  { eexists. econstructor; [apply ex_merged; [intros q Hq; cbn in Hq; intuition lia|exact I]|reflexivity|].
    constructor; [|constructor; [apply K_end|constructor]].
    econstructor; [apply ex_merged; [intros q Hq; cbn in Hq; intuition lia|exact I]|vm_compute; reflexivity|].
    constructor; [apply K_end|]. constructor; [apply K_end|constructor]. }
  split; [exact U|]. split; [exact P|]. split; [exact K|]. split; [reflexivity|]. split; [reflexivity|].
  split.
  { intros q Hq. cbn in Hq. assert (q = 0 \/ q = 1) as [-> | ->] by (intuition lia); (eexists; split; [reflexivity|]); intros k; reflexivity. }
  split; [eexists; split; reflexivity|].
  destruct K as [w K]. eexists. eapply (worth_evaluates _ ex_ops ex_heap ex_vals ex_pars). exists ex_t, w. split; [exact U|]. split; [exact P|]. split; [exact K|]. reflexivity.
Qed.
