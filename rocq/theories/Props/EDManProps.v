(** C28, C69: the pdf manager. *)
From Verif Require Import Base.Res Base.Num Base.SMap Model.Axis Model.Event Model.Hist Model.ED Model.Param Model.EDMan
  Spec.AxisSpec Spec.HistSpec Spec.ParamSpec Spec.EDManSpec.
From Verif Require Import Proofs.EDManP2 Props.AxisProps Props.ShrinkProps.
Local Open Scope Qc_scope.

(** C28.  After SetParameters with a value for every fitted name, BinProbability is the weighted sum.  Holds
    when no two fitted pdfs share a name and no DIRECT pdf was added after an INDIRECT one; the general
    statement is false (below). *)
Theorem C28_binprob_partial : forall ops d reads k, let pdfs := pdfs_of ops in
  NoDup (fitted pdfs) -> direct_first pdfs -> Forall (has_bin k) pdfs -> (forall n, In n (fitted pdfs) -> has_key d n) ->
  Forall asks reads ->
  exists s, em_setAll (emrun em_new ops) d = (s, Ok tt) /\
    snd (em_binProb (emrun s reads) k) = Ok (qsum (map (fun p => norm_in d p * cont (bdHist (fst p)) k) pdfs)).
Proof. exact binprob_pkg. Qed.
Print Assumptions C28_binprob_partial.
Theorem C28_missing_name_throws : forall ops d, (exists n, In n (fitted (pdfs_of ops)) /\ ~ has_key d n) ->
  snd (em_setAll (emrun em_new ops) d) = Throw ParameterError.
Proof. exact setAll_missing_pkg. Qed.
Print Assumptions C28_missing_name_throws.
(** SetNormalisations: a wrong count is refused; the values are used when every pdf is DIRECT *)
Theorem C28_setNormalisations_partial : forall ops l k, let pdfs := pdfs_of ops in
  (List.length l <> List.length pdfs -> em_setNorms (emrun em_new ops) l = (emrun em_new ops, Throw LogicError)) /\
  (List.length l = List.length pdfs -> all_direct pdfs -> Forall (has_bin k) pdfs ->
   exists s, em_setNorms (emrun em_new ops) l = (s, Ok tt) /\
     snd (em_binProb s k) = Ok (qsum (map (fun q => snd q * cont (bdHist (fst (fst q))) k) (combine pdfs l)))).
Proof. exact setnorms_pkg. Qed.
Print Assumptions C28_setNormalisations_partial.

Definition ex_pa := mkBed "a" (bdHist ex_sbed) (bdObs ex_sbed).
Definition ex_pb := mkBed "b" (fst (setBinContents (mk_hist ex_sac) (map qz [100;0;0; 0;0;0; 0;0;0; 0;0;0]%Z))) (bdObs ex_sbed).
Lemma ex_pb_reach : h_reach (bdHist ex_pb).
Proof. apply hr_setBins, hr_new; [exact ex_sac_reach|discriminate]. Qed.
Definition ex_d : smap Qc := sof [("a", qz 2); ("b", qz 3)]%string.

(** pdf "b" (DIRECT, content 100) is weighted with the value of "a"; the values given to SetNormalisations
    are ignored for pdfs of the default status INDIRECT *)
Theorem C28_mixed_statuses_refuted :
  (exists ops d k, let pdfs := pdfs_of ops in
     NoDup (fitted pdfs) /\ Forall (has_bin k) pdfs /\ (forall n, In n (fitted pdfs) -> has_key d n) /\
     exists s v, em_setAll (emrun em_new ops) d = (s, Ok tt) /\ snd (em_binProb s k) = Ok v /\
       v <> qsum (map (fun p => norm_in d p * cont (bdHist (fst p)) k) pdfs)) /\
  (exists ops l k, let pdfs := pdfs_of ops in
     Forall (has_bin k) pdfs /\
     exists s v, em_setNorms (emrun em_new ops) l = (s, Ok tt) /\ snd (em_binProb s k) = Ok v /\
       v <> qsum (map (fun q => snd q * cont (bdHist (fst (fst q))) k) (combine pdfs l))).
Proof.
  split.
  - exists [EAdd ex_pa NIndirect; EAdd ex_pb NDirect], ex_d, 0%nat. cbv zeta. split; [|split; [|split]].
    + repeat constructor; cbn; intuition discriminate.
    + apply Forall_cons; [split; [exact ex_sbed_reach|cbn; lia]|]. apply Forall_cons; [split; [exact ex_pb_reach|cbn; lia]|]. constructor.
    + intros n [<-|[<-|[]]]; eexists; reflexivity.
    + eexists. eexists. split; [vm_compute; reflexivity|]. split; [vm_compute; reflexivity|].
      intros C; apply (f_equal (fun q => this q)) in C; vm_compute in C; discriminate.
  - exists [EAdd ex_pa NIndirect], [qz 2], 0%nat. cbv zeta. split.
    + apply Forall_cons; [split; [exact ex_sbed_reach|cbn; lia]|]. constructor.
    + eexists. eexists. split; [vm_compute; reflexivity|]. split; [vm_compute; reflexivity|].
      intros C; apply (f_equal (fun q => this q)) in C; vm_compute in C; discriminate.
Qed.
Print Assumptions C28_mixed_statuses_refuted.

Definition ex_emops := [EAdd ex_pb NDirect; ESet "b"%string (qz 9); EBin 3; EAdds [ex_pa] None; EAdd (mkBed "c" (bdHist ex_sbed) (bdObs ex_sbed)) NFalse].
Example C28_nonvacuous :
  let pdfs := pdfs_of ex_emops in
  fitted pdfs = ["b"; "a"]%string /\ NoDup (fitted pdfs) /\ direct_first pdfs /\ Forall (has_bin 0) pdfs /\ (forall n, In n (fitted pdfs) -> has_key ex_d n) /\
  snd (em_binProb (fst (em_setAll (emrun em_new ex_emops) ex_d)) 0) = Ok (qz 303) /\
  (In "b"%string (fitted pdfs) /\ ~ has_key (sof [("a"%string, qz 1)]) "b"%string) /\
  all_direct (pdfs_of [EAdds [ex_pa; ex_pb] (Some [NDirect; NDirect])]) /\
  snd (em_binProb (fst (em_setNorms (emrun em_new [EAdds [ex_pa; ex_pb] (Some [NDirect; NDirect])]) [qz 2; qz 3])) 0) = Ok (qz 302).
Proof.
  cbv zeta. split; [reflexivity|]. split; [repeat constructor; cbn; intuition discriminate|]. split; [|split; [|split; [|split; [|split; [|split]]]]].
  - intros i j bi bj. change (pdfs_of ex_emops) with [(ex_pb, NDirect); (ex_pa, NIndirect); (mkBed "c" (bdHist ex_sbed) (bdObs ex_sbed), NFalse)].
    destruct i as [|[|[|[|i]]]]; cbn [nth_error]; try discriminate; destruct j as [|[|[|[|j]]]]; cbn [nth_error]; try discriminate; intros; lia.
  - repeat (apply Forall_cons; [split; [first [exact ex_sbed_reach|exact ex_pb_reach]|cbn; lia]|]). constructor.
  - intros n [<-|[<-|[]]]; eexists; reflexivity.
  - vm_compute. repeat f_equal; apply Qc_is_canon; reflexivity.
  - split; [now left|]. intros [v C]. discriminate.
  - repeat constructor.
  - vm_compute. repeat f_equal; apply Qc_is_canon; reflexivity.
Qed.

(** C69.  Adding a pdf leaves the values already set alone, unless it is the first pdf that is not DIRECT *)
Theorem C69_adding_keeps_values_partial : forall ops b st n v, let pdfs := pdfs_of ops in
  NoDup (fitted (pdfs ++ [(b, st)])) -> (~ all_direct pdfs \/ st = NDirect) ->
  em_get (emrun em_new ops) n = Ok v ->
  exists s', em_addPdf (emrun em_new ops) b st = (s', Ok tt) /\ em_get s' n = Ok v /\
    (fittable st = true -> em_get s' (bdName b) = Ok 0).
Proof. exact add_keeps_pkg. Qed.
Print Assumptions C69_adding_keeps_values_partial.
Theorem C69_adding_keeps_values_refuted : exists ops b st n v, let pdfs := pdfs_of ops in
  NoDup (fitted (pdfs ++ [(b, st)])) /\ em_get (emrun em_new ops) n = Ok v /\ v <> 0 /\
  exists s', em_addPdf (emrun em_new ops) b st = (s', Ok tt) /\ em_get s' n = Ok 0.
Proof.
  exists [EAdd ex_pa NDirect; ESet "a"%string (qz 5)], ex_pb, NIndirect, "a"%string, (qz 5). cbv zeta. split; [|split; [|split]].
  - repeat constructor; cbn; intuition discriminate.
  - vm_compute. repeat f_equal; apply Qc_is_canon; reflexivity.
  - intros C; apply (f_equal (fun q => this q)) in C; vm_compute in C; discriminate.
  - eexists. split; [vm_compute; reflexivity|]. vm_compute. repeat f_equal; apply Qc_is_canon; reflexivity.
Qed.
Print Assumptions C69_adding_keeps_values_refuted.
Example C69_nonvacuous : 
  NoDup (fitted (pdfs_of [EAdd ex_pa NIndirect; ESet "a"%string (qz 5)] ++ [(ex_pb, NDirect)])) /\
  ~ all_direct (pdfs_of [EAdd ex_pa NIndirect; ESet "a"%string (qz 5)]) /\
  em_get (emrun em_new [EAdd ex_pa NIndirect; ESet "a"%string (qz 5)]) "a" = Ok (qz 5).
Proof.
  split; [repeat constructor; cbn; intuition discriminate|]. split.
  - intros C. inversion C; subst. discriminate.
  - vm_compute. repeat f_equal; apply Qc_is_canon; reflexivity.
Qed.
