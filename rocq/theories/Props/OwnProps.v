(** C93: objects that hold other objects through raw pointers behave like values. *)
From Verif Require Import Base.Res Base.Num Model.Own Spec.OwnSpec Proofs.OwnP3.
Local Open Scope res_scope.
Local Open Scope nat_scope.

(** Any program that keeps to the allowed statements runs without undefined behaviour, and every variable then has exactly the value it would have
    if objects were plain values: copies are equal to and independent of their originals, setting the parameters of one object changes no other,
    destroying one invalidates no other. *)
Theorem C93_value_semantics_partial p : throughout allowed p ->
  exists m, runp p mc_init = Ok m /\ forall i, observe m i = match val_at (vrun p) i with Some v => Some (Ok v) | None => None end.
Proof. intros H. destruct (own_pkg p H) as [m [A [B _]]]. exists m. split; [exact A|exact B]. Qed.
Print Assumptions C93_value_semantics_partial.
(** If it moreover replaces no part it cannot free, then after every variable is destroyed no object is left. *)
Theorem C93_no_leak_partial p : throughout allowed p -> throughout tidy p -> (forall i, val_at (vrun p) i = None) ->
  exists m, runp p mc_init = Ok m /\ forall l, stHeap (mcStore m) l = None.
Proof. intros H T G. destruct (own_pkg p H) as [m [A [_ C]]]. exists m. split; [exact A|exact (C T G)]. Qed.
Print Assumptions C93_no_leak_partial.

(** What goes wrong otherwise.  Two AnalyticEDs, one assigned to the other, both destroyed: a double free. *)
Theorem C93_assign_analytic_refuted x y :
  runp [SNew KPdf x; SNew KPdf y; SFrom KAna [0]; SFrom KAna [1]; SAssign 2 3; SDestroy 2; SDestroy 3] mc_init = UB.
Proof. vm_compute. reflexivity. Qed.
Print Assumptions C93_assign_analytic_refuted.
(** ... and before that, setting the parameter of one changes the other *)
Theorem C93_assign_analytic_shares_refuted x y z : exists m,
  runp [SNew KPdf x; SNew KPdf y; SFrom KAna [0]; SFrom KAna [1]; SAssign 2 3; SParam 2 z] mc_init = Ok m /\
  observe m 3 = Some (Ok (V KAna 0%Qc [V KPdf z [] []] [])).
Proof. eexists. split; vm_compute; reflexivity. Qed.
Print Assumptions C93_assign_analytic_shares_refuted.
(** a CompositeED copied (not cloned): a double free; so are a copied Convolution and EDManager *)
Theorem C93_copy_composite_refuted x y :
  runp [SNew KBed x; SNew KBed y; SFrom KComp [0; 1]; SCopy 2; SDestroy 3; SDestroy 2] mc_init = UB.
Proof. vm_compute. reflexivity. Qed.
Print Assumptions C93_copy_composite_refuted.
Theorem C93_copy_convolution_refuted x y :
  runp [SNew KConv x; SNew KPdf y; SGive 0 1; SCopy 0; SDestroy 2; SDestroy 0] mc_init = UB.
Proof. vm_compute. reflexivity. Qed.
Print Assumptions C93_copy_convolution_refuted.
Theorem C93_copy_edmanager_refuted x y :
  runp [SNew KEdm x; SNew KBed y; SGive 0 1; SCopy 0; SDestroy 2; SDestroy 0] mc_init = UB.
Proof. vm_compute. reflexivity. Qed.
Print Assumptions C93_copy_edmanager_refuted.
(** a VaryingCDF with a kernel and a dependence given to a Convolution: destroying both frees the function twice *)
Theorem C93_varying_shared_refuted x y z w :
  runp [SNew KVary x; SNew KPdf y; SNew KFun z; SGive 0 1; SGive 0 2; SNew KConv w; SGive 3 0; SDestroy 0; SDestroy 3] mc_init = UB /\
  runp [SNew KVary x; SNew KPdf y; SNew KFun z; SGive 0 1; SGive 0 2; SCopy 0; SDestroy 0; SDestroy 3] mc_init = UB /\
  (exists m, runp [SNew KVary x; SNew KPdf y; SNew KFun z; SGive 0 1; SGive 0 2; SNew KConv w; SGive 3 0; SParam 3 (x + 1)%Qc] mc_init = Ok m /\
     observe m 0 = Some (Ok (V KVary x [V KJump 0%Qc [V KPdf y [] []] []] [V KFun (x + 1)%Qc [] []]))).
Proof. split; [|split; [|eexists; split]]; vm_compute; reflexivity. Qed.
Print Assumptions C93_varying_shared_refuted.
(** a VaryingCDF that never received a kernel is destroyed: the uninitialised pointer is freed *)
Theorem C93_varying_bare_refuted x : runp [SNew KVary x; SDestroy 0] mc_init = UB.
Proof. vm_compute. reflexivity. Qed.
Print Assumptions C93_varying_bare_refuted.
(** FitResult: assigning a result without histogram to one with histogram reads a null pointer; the other way round the histogram is lost *)
Theorem C93_assign_result_refuted x y z :
  runp [SNew KRes x; SNew KRes y; SNew KHist z; SGive 0 2; SAssign 0 1] mc_init = UB /\
  (exists m, runp [SNew KRes x; SNew KRes y; SNew KHist z; SGive 1 2; SAssign 0 1] mc_init = Ok m /\
     observe m 1 = Some (Ok (V KRes y [V KHist z [] []] [])) /\ observe m 0 = Some (Ok (V KRes y [] []))).
Proof. split; [|eexists; split; [|split]]; vm_compute; reflexivity. Qed.
Print Assumptions C93_assign_result_refuted.
(** SetParameter on a Convolution without kernel reads a null pointer *)
Theorem C93_convolution_bare_refuted x v : runp [SNew KConv x; SParam 0 v] mc_init = UB.
Proof. vm_compute. reflexivity. Qed.
Print Assumptions C93_convolution_bare_refuted.
(** a CutCollection assigned to itself is empty afterwards *)
Theorem C93_cuts_self_assign_refuted x y : exists m, runp [SNew KCuts x; SNew KCut y; SGive 0 1; SAssign 0 0] mc_init = Ok m /\
  observe m 0 = Some (Ok (V KCuts x [] [])).
Proof. eexists. split; vm_compute; reflexivity. Qed.
Print Assumptions C93_cuts_self_assign_refuted.
(** leaks: every variable is gone and an object is left *)
Theorem C93_leak_refuted x y :
  (exists m l c, runp [SNew KPdf x; SFrom KJump [0]; SFrom KJump [0]; SAssign 1 2; SDestroy 0; SDestroy 1; SDestroy 2] mc_init = Ok m /\
     (forall i, var m i = None) /\ stHeap (mcStore m) l = Some c) /\
  (exists m l c, runp [SNew KEvConv x; SNew KPdf y; SGive 0 1; SGive 0 1; SDestroy 0; SDestroy 1] mc_init = Ok m /\
     (forall i, var m i = None) /\ stHeap (mcStore m) l = Some c) /\
  (exists m l c, runp [SNew KRes x; SNew KHist y; SGive 0 1; SGive 0 1; SDestroy 0; SDestroy 1] mc_init = Ok m /\
     (forall i, var m i = None) /\ stHeap (mcStore m) l = Some c).
Proof.
  split; [|split].
  - eexists _, 1, _. split; [vm_compute; reflexivity|]. split; [intros [|[|[|[|i]]]]; reflexivity|vm_compute; reflexivity].
  - eexists _, 2, _. split; [vm_compute; reflexivity|]. split; [intros [|[|[|i]]]; reflexivity|vm_compute; reflexivity].
  - eexists _, 2, _. split; [vm_compute; reflexivity|]. split; [intros [|[|[|i]]]; reflexivity|vm_compute; reflexivity].
Qed.
Print Assumptions C93_leak_refuted.

(** a program that meets all hypotheses: clones, copies, assignments, a replaced Convolution kernel, everything destroyed *)
Definition ex_own : list stmt :=
  [SNew KPdf (qq 1 2); SFrom KAna [0]; SCopy 1; SParam 2 (qq 3 1); SFrom KComp [1; 2]; SClone 3; SNew KEdm 0%Qc; SGive 5 3; SNew KConv 0%Qc; SGive 6 0;
   SFrom KJump [0]; SGive 6 7; SParam 6 (qq 7 1); SNew KCut (qq 5 1); SNew KCuts 0%Qc; SGive 9 8; SCopy 9; SAssign 9 10; SNew KVary 0%Qc; SGive 11 0; SNew KFun 0%Qc;
   SGive 11 12; SParam 11 (qq 9 1); SNew KJump 0%Qc; SAssign 13 7].
Definition ex_own_all : list stmt := ex_own ++ map SDestroy (seq 0 14).
Definition okb (vs : list (option val)) (o : stmt) : bool :=
  let nota i c := match val_at vs i with Some v => negb (cls_eqb (vcls v) c) | None => true end in
  let isb i c := match val_at vs i with Some v => cls_eqb (vcls v) c | None => false end in
  let bare i c := isb i c && match val_at vs i with Some v => match vkids v with [] => true | _ => false end | None => false end in
  match o with
  | SCopy i => nota i KComp && nota i KConv && nota i KEdm && nota i KVary
  | SClone i => nota i KVary
  | SAssign i j => nota i KAna && nota i KComp && nota i KConv && nota i KEdm && nota i KVary && nota i KRes && (nota i KCuts || negb (Nat.eqb i j)) &&
      (bare i KJump || nota i KJump) && (bare i KEvConv || nota i KEvConv)
  | SGive i j => nota j KVary && (bare i KEvConv || nota i KEvConv) && (bare i KRes || nota i KRes) && (bare i KVary || isb j KFun || nota i KVary)
  | SParam i _ => negb (bare i KConv)
  | SDestroy i => negb (bare i KVary)
  | _ => true
  end.
Fixpoint okp (vs : list (option val)) (p : list stmt) : bool := match p with [] => true | o :: t => okb vs o && okp (vexec vs o) t end.
Lemma cls_eqb_refl c : cls_eqb c c = true. Proof. destruct c; reflexivity. Qed.
Lemma nota_ok vs i c : match val_at vs i with Some v => negb (cls_eqb (vcls v) c) | None => true end = true -> ~ is_a vs i c.
Proof. intros H [v [E C]]. rewrite E, C, cls_eqb_refl in H. discriminate. Qed.
Lemma okb_ok vs o : okb vs o = true -> allowed vs o /\ tidy vs o.
Proof.
  destruct o; cbn [okb allowed tidy]; auto; rewrite ?andb_true_iff; intros H.
  - split; [|exact I]. destruct H as [[[A B] C] D]. repeat split; now apply nota_ok.
  - split; [|exact I]. now apply nota_ok.
  - destruct H as [[[[[[[[A1 A2] A3] A4] A5] A6] A7] A8] A9]. split.
    + repeat split; try now apply nota_ok. intros Hc ->. apply orb_prop in A7 as [A7|A7]; [exact (nota_ok _ _ _ A7 Hc)|]. rewrite Nat.eqb_refl in A7. discriminate.
    + intros v Hv [C|C]; rewrite Hv, C in *; cbn in *; [clear - A8|clear - A9]; destruct (vkids v); try reflexivity; discriminate.
  - destruct H as [[[A1 A2] A3] A4]. split; [now apply nota_ok|]. intros v Hv [C|[C|[C N]]]; rewrite Hv, C in *; cbn in *.
    + destruct (vkids v); try reflexivity; discriminate.
    + destruct (vkids v); try reflexivity; discriminate.
    + destruct (vkids v); [reflexivity|]. exfalso. apply N. unfold is_a. cbn in A4. destruct (val_at vs j) as [w|]; [|discriminate]. exists w. split; [reflexivity|]. destruct (vcls w); try discriminate; reflexivity.
  - split; [|exact I]. intros [w [E [C K]]]. rewrite E, C, K in H. discriminate.
  - split; [|exact I]. intros [w [E [C K]]]. rewrite E, C, K in H. discriminate.
Qed.
Lemma okp_ok p : okp [] p = true -> throughout allowed p /\ throughout tidy p.
Proof.
  intros H. assert (G : forall q vs, okp vs q = true -> forall pre o post, q = pre ++ o :: post -> allowed (fold_left vexec pre vs) o /\ tidy (fold_left vexec pre vs) o).
  { induction q as [|a q IH]; intros vs Hq [|b pre] o post E; try discriminate; cbn in Hq; apply andb_prop in Hq as [Q1 Q2]; cbn in E; injection E as -> E.
    - now apply okb_ok.
    - cbn. eapply IH; eauto. }
  split; intros pre o post E; now apply (G p [] H pre o post E).
Qed.
Example C93_nonvacuous : throughout allowed ex_own_all /\ throughout tidy ex_own_all /\ (forall i, val_at (vrun ex_own_all) i = None).
Proof.
  destruct (okp_ok ex_own_all) as [A B]; [vm_compute; reflexivity|]. split; [exact A|]. split; [exact B|].
  intros i. do 14 (destruct i as [|i]; [vm_compute; reflexivity|]). vm_compute. now destruct i.
Qed.
Example C93_nonvacuous_values : val_at (vrun ex_own) 4 = Some (V KComp 0%Qc [V KAna 0%Qc [V KPdf (qq 1 2) [] []] []; V KAna 0%Qc [V KPdf (qq 3 1) [] []] []] []) /\
  val_at (vrun ex_own) 6 = Some (V KConv 0%Qc [V KJump 0%Qc [V KPdf (qq 7 1) [] []] []] []) /\
  val_at (vrun ex_own) 11 = Some (V KVary 0%Qc [V KJump 0%Qc [V KPdf (qq 1 2) [] []] []] [V KFun (qq 9 1) [] []]).
Proof. repeat split; vm_compute; reflexivity. Qed.
