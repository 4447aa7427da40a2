(** The order in which a likelihood is configured: C107. *)
From Coq Require Import ZArith Reals.
From Verif Require Import Base.Res Base.Num Base.RNum Base.SMap Model.Axis Model.Event Model.Cut Model.Hist Model.ED Model.Param
  Model.Matrix Model.SystMan Model.Shrink Model.EDMan Model.Fill Model.Constraint Model.NLLH Model.Grid
  Spec.AxisSpec Spec.HistSpec Spec.ParamSpec Spec.EDManSpec Spec.SystManSpec Spec.NLLHSpec Spec.NLLHSysSpec Spec.GridSpec Spec.FitSpec Spec.AsimovSpec Spec.ClientSpec Spec.OrderSpec
  Proofs.OrderP2 Props.AxisProps Props.NLLHProps Props.SystManProps Props.NLLHSysProps Props.FitProps Props.ClientProps.
From Coq Require Import Lra Lia.
Local Open Scope Qc_scope.

(** C107.  Exchange the calls that configure a likelihood - pdfs of different names, data, constraints, systematics among calls of other kinds -
    any number of times, keeping DIRECT pdfs before INDIRECT ones: no program using the likelihood afterwards can tell the difference. *)
Theorem C107_calls_partial : forall A names par build obs ops ops' D (c : client A), shuffled ops ops' -> configured names par build obs ops D -> direct_first (NLLHSpec.added ops') ->
  let g := fun d => nl_getParams (at_point names par build ops d) in let f := value_at names par build ops in
  proper (fun d => gives_all names par ops d /\ responds names par build ops d) c g f ->
  snd (on_statistic c (nl_register (nlrun (nl_new names par build) ops'))) = snd (on_statistic c (nl_register (nlrun (nl_new names par build) ops))).
Proof. exact @order_pkg. Qed.
Print Assumptions C107_calls_partial.

Definition ex_oops := [NData (ex_fdat ex_fr1); NSys 1 "g"; NEval; NAdd ex_bed ["g"] None NIndirect; NReg; NSys 0 ""; NAdd ex_bed' [""] None NIndirect; NSys 1 "";
                       NPars ex_sv0; NEval]%string%nat.
Example C107_nonvacuous : shuffled (ex_fops ex_fr1) ex_oops /\ ex_oops <> ex_fops ex_fr1 /\ direct_first (NLLHSpec.added ex_oops) /\
  let f := value_at ex_sn ex_sp ex_fb (ex_fops ex_fr1) in let g := fun d => nl_getParams (at_point ex_sn ex_sp ex_fb (ex_fops ex_fr1) d) in
  configured ex_sn ex_sp ex_fb ["x"%string] (ex_fops ex_fr1) (ex_fdat ex_fr1) /\
  proper (fun d => gives_all ex_sn ex_sp (ex_fops ex_fr1) d /\ responds ex_sn ex_sp ex_fb (ex_fops ex_fr1) d) ex_client g f /\
  (exists q v v', on_function ex_client g f = (Ok q, Ok v, Ok v')).
Proof.
  split; [|split; [unfold ex_oops, ex_fops; discriminate|split; [|exact C97_nonvacuous]]].
  - unfold ex_fops, ex_oops.
    apply (sh_swap [NSys 1 "g"; NAdd ex_bed ["g"] None NIndirect; NEval; NSys 0 ""; NReg; NAdd ex_bed' [""] None NIndirect]%string (NSys 1 "") (NData _)); [exact I|cbn [app]].
    apply (sh_swap [NSys 1 "g"; NAdd ex_bed ["g"] None NIndirect; NEval; NSys 0 ""; NReg]%string (NAdd _ _ _ _) (NData _)); [exact I|cbn [app]].
    apply (sh_swap [NSys 1 "g"; NAdd ex_bed ["g"] None NIndirect; NEval; NSys 0 ""]%string NReg (NData _)); [exact I|cbn [app]].
    apply (sh_swap [NSys 1 "g"; NAdd ex_bed ["g"] None NIndirect; NEval]%string (NSys _ _) (NData _)); [exact I|cbn [app]].
    apply (sh_swap [NSys 1 "g"; NAdd ex_bed ["g"] None NIndirect]%string NEval (NData _)); [exact I|cbn [app]].
    apply (sh_swap [NSys 1 "g"]%string (NAdd _ _ _ _) (NData _)); [exact I|cbn [app]].
    apply (sh_swap [] (NSys _ _) (NData _)); [exact I|cbn [app]].
    apply (sh_swap [NData _; NSys 1 "g"]%string (NAdd _ _ _ _) NEval); [exact I|cbn [app]].
    apply (sh_swap [NData _; NSys 1 "g"; NEval; NAdd _ _ _ _]%string (NSys _ _) NReg); [exact I|cbn [app]].
    apply sh_same.
  - intros i j bi bj. change (NLLHSpec.added ex_oops) with [(ex_bed, NIndirect); (ex_bed', NIndirect)]. destruct j as [|[|[|j]]]; cbn [nth_error]; intros; discriminate.
Qed.

(** Adding the same two pdfs in the other order - an INDIRECT one before a DIRECT one - turns a finite likelihood into an exception. *)
Definition ex_o1 := [NAdd ex_bed [""] None NDirect; NAdd ex_bed' [""] None NIndirect; NData (ex_fdat ex_fr1)]%string.
Definition ex_o2 := [NAdd ex_bed' [""] None NIndirect; NAdd ex_bed [""] None NDirect; NData (ex_fdat ex_fr1)]%string.
Definition ex_od : smap Qc := [("free", 0); ("pdf", qz 3)]%string.
Theorem C107_order_refuted : exists names par build obs ops ops' D d v, shuffled ops ops' /\ configured names par build obs ops D /\ gives_all names par ops d /\ responds names par build ops d /\
  value_at names par build ops d = Ok v /\ value_at names par build ops' d = Throw std_runtime_error.
Proof.
  assert (NS : forall q, ~ is_sys ex_sn ex_o1 q) by (intros q [g H]; vm_compute in H; exact H).
  assert (E : exists v, value_at ex_sn ex_sp ex_fb ex_o1 ex_od = Ok v).
  { unfold value_at. lazy -[poisson_term rlift2 qr Rplus]. repeat pt_fine. cbn [rlift2]. eexists. reflexivity. }
  destruct E as [v E].
  exists ex_sn, ex_sp, ex_fb, ["x"%string], ex_o1, ex_o2, (ex_fdat ex_fr1), ex_od, v.
  split; [apply (sh_swap [] (NAdd _ _ _ _) (NAdd _ _ _ _)); [cbn; discriminate|apply sh_same]|].
  assert (Hc : ex_fc ex_fr1) by now left. destruct (ex_fhyp _ Hc) as [H1 [H2 _]].
  split; [split; [exact H1|split; [exact H2|]]|].
  { split. { repeat (apply Forall_cons; [first [exact I|reflexivity|split; [reflexivity|apply ex_h2_reach]]|]); constructor. }
    split; [intros q q' H; destruct (NS q H)|]. split; [reflexivity|]. split; [reflexivity|]. split; [apply ex_h2_reach|]. split; [repeat constructor; cbn; intuition discriminate|].
    split. { clear. intros i j bi bj. change (NLLHSpec.added ex_o1) with [(ex_bed, NDirect); (ex_bed', NIndirect)]. destruct i as [|[|[|i]]]; cbn [nth_error]; try discriminate; destruct j as [|[|[|j]]]; cbn [nth_error]; try discriminate; intros; lia. }
    repeat (apply Forall_cons; [split; [apply ex_h2_reach|cbn; lia]|]). constructor. }
  split. { split; [unfold swf; cbn; repeat constructor|]. split; [intros n [<-|[<-|[]]]; eexists; reflexivity|intros q n H; destruct (NS q H)]. }
  split. { split; [intros q H; destruct (NS q H)|]. split; [intros g; exists 0%nat; apply Forall_forall; intros q Hq; destruct (NS q); exists g; exact Hq|].
    intros b [<-|[<-|[]]]; vm_compute; constructor. }
  split; [exact E|]. unfold value_at. lazy -[poisson_term rlift2 qr Rplus]. reflexivity.
Qed.
Print Assumptions C107_order_refuted.
