(** C27, C68: the systematic manager. *)
From Verif Require Import Base.Res Base.Num Base.SMap Model.Axis Model.Event Model.Hist Model.Matrix Model.ED Model.SystMan
  Spec.SystManSpec.
From Verif Require Import Proofs.SystManP Proofs.SystManP2 Proofs.SystManP3 Proofs.SystManP4 Props.HistProps.
Local Open Scope Qc_scope.

(** C27 *)
Theorem C27_groups_hold_accepted_calls : forall obj l,
  let s := smrun (sm_new obj) l in let acc := accepted (sm_new obj) l in
  (forall g, sm_grp s g = added g acc) /\ (forall n, sfind n (smDists s) = regd n acc).
Proof. exact history_pkg. Qed.
Print Assumptions C27_groups_hold_accepted_calls.
Theorem C27_distort_applies_in_order : forall obj l s' origs works norms,
  let s := smrun (sm_new obj) l in let acc := accepted (sm_new obj) l in
  let grp := fun g => added g acc in let build := fun p => fst (syBuild (smObj s p)) in
  let result := fun o w => match regd (bdName o) acc with
                           | None => w
                           | Some gs => with_contents o (mvs (hNBins (bdHist o)) (map build (acting grp gs)) (hCont (bdHist o)))
                           end in
  sm_construct s = (s', Ok tt) ->
  (List.length works <= List.length origs)%nat ->
  (forall ns, norms = Some ns -> (List.length works <= List.length ns)%nat) ->
  (forall o gs, In o origs -> regd (bdName o) acc = Some gs ->
     List.length (hCont (bdHist o)) = hNBins (bdHist o) /\
     Forall (fun p => sized (hNBins (bdHist o)) (build p)) (acting grp gs)) ->
  exists works' norms', sm_distort s' origs works norms = Ok (works', norms') /\ List.length works' = List.length works /\
    (forall j o w, nth_error origs j = Some o -> nth_error works j = Some w -> nth_error works' j = Some (result o w)) /\
    match norms with
    | None => norms' = None
    | Some ns => exists ns', norms' = Some ns' /\ List.length ns' = List.length ns /\
        forall j x o w, nth_error ns j = Some x -> nth_error works j = Some w -> nth_error origs j = Some o ->
          nth_error ns' j = Some (match regd (bdName o) acc with None => x | Some _ => qsum (hCont (bdHist (result o w))) end)
    end.
Proof. exact distort_pkg. Qed.
Print Assumptions C27_distort_applies_in_order.
Theorem C27_construct_succeeds : forall obj l,
  let s := smrun (sm_new obj) l in let acc := accepted (sm_new obj) l in
  (forall g p, In p (added g acc) -> snd (syBuild (smObj s p)) = Ok tt) ->
  (forall g, exists n, Forall (fun p => sized n (fst (syBuild (smObj s p)))) (added g acc)) ->
  exists s', sm_construct s = (s', Ok tt).
Proof. exact construct_ok_pkg. Qed.
Print Assumptions C27_construct_succeeds.
Theorem C27_distort_before_construct : forall obj l n gs o w,
  let s := smrun (sm_new obj) l in let acc := accepted (sm_new obj) l in
  ~ In Build l -> bdName o = n -> regd n acc = Some gs -> acting (fun g => added g acc) gs <> [] ->
  sm_distort s [o] [w] None = Throw NotFoundError.
Proof. exact not_constructed_pkg. Qed.
Print Assumptions C27_distort_before_construct.

Definition m22 (a b c d : Qc) : smat :=
  mkMat 2 2 2 2 (fun i j => match i, j with 0, 0 => a | 0, 1 => b | 1, 0 => c | 1, 1 => d | _, _ => Q2Qc 0 end)%nat.
Definition ex_obj (p : nat) : syst :=
  match p with
  | 0 => mkSyst "stretch" mat_empty (m22 (qz 2) 0 0 (qz 3), Ok tt)
  | 1 => mkSyst "swap" mat_empty (m22 0 1 1 0, Ok tt)
  | _ => mkSyst "mix" mat_empty (m22 1 1 0 1, Ok tt)
  end%nat%string.
Definition ex_smops := [Add 1 "g"; Add 0 ""; AddDist "pdf" ["g"]; Add 2 "g"; Build; Tune 2 (m22 1 0 1 1, Ok tt)]%string%nat.
Definition ex_bed := mkBed "pdf" (fst (setBinContents (mk_hist (fst (addAxes ac_empty [AxisProps.ex_axis "x" 0 2 2]))) [qz 5; qz 7])) (mk_obsset ["x"%string]).
Definition ex_bed' := mkBed "free" (bdHist ex_bed) (bdObs ex_bed).
Example C27_nonvacuous : let s := smrun (sm_new ex_obj) ex_smops in let acc := accepted (sm_new ex_obj) ex_smops in
  acc = ex_smops /\ regd "pdf" acc = Some ["g"%string] /\ acting (fun g => added g acc) ["g"%string] = [0; 1; 2]%nat /\
  (exists s', sm_construct s = (s', Ok tt) /\
     rmap (fun r => (map (fun b => hCont (bdHist b)) (fst r), snd r)) (sm_distort s' [ex_bed; ex_bed'] [ex_bed; bed0] (Some [0; 0]))
     = Ok ([[qz 21; qz 31]; []], Some [qz 52; 0])) /\
  List.length (hCont (bdHist ex_bed)) = hNBins (bdHist ex_bed) /\
  Forall (fun p => sized (hNBins (bdHist ex_bed)) (fst (syBuild (smObj s p)))) [0; 1; 2]%nat.
Proof.
  cbv zeta. split; [reflexivity|]. split; [reflexivity|]. split; [reflexivity|]. split; [|split; [reflexivity|repeat constructor]].
  eexists. split; [vm_compute; reflexivity|]. vm_compute. repeat f_equal; apply Qc_is_canon; reflexivity.
Qed.

(** C68 *)
Theorem C68_unique_at_registration : forall obj l n gs s', let s := smrun (sm_new obj) l in let acc := accepted (sm_new obj) l in
  sm_addDist s n gs = (s', Ok tt) -> NoDup (map (fun p => syName (obj p)) (acting (fun g => added g acc) gs)).
Proof. exact at_registration_pkg. Qed.
Print Assumptions C68_unique_at_registration.
(** holds for histories in which no named group grows after the first registration; global systematics
    may be added at any time *)
Theorem C68_unique_partial : forall obj l1 l2, let acc := accepted (sm_new obj) (l1 ++ l2) in
  Forall no_dist l1 -> Forall late_ok l2 ->
  forall n gs, regd n acc = Some gs -> NoDup (map (fun p => syName (obj p)) (acting (fun g => added g acc) gs)).
Proof. exact uniq_pkg. Qed.
Print Assumptions C68_unique_partial.
Theorem C68_global_already_used : forall obj l p q g, let s := smrun (sm_new obj) l in let acc := accepted (sm_new obj) l in
  In q (added g acc) -> syName (obj q) = syName (obj p) -> sm_addGlobal s p = (s, Throw NotFoundError).
Proof. exact global_refused_pkg. Qed.
Print Assumptions C68_global_already_used.
(** a systematic added to a group after the registration acts twice; a global systematic in no group is
    refused because another one sits in two groups *)
Theorem C68_unique_refuted :
  (exists obj l n gs, let acc := accepted (sm_new obj) l in
     acc = l /\ regd n acc = Some gs /\ ~ NoDup (map (fun p => syName (obj p)) (acting (fun g => added g acc) gs))) /\
  (exists obj l p, let s := smrun (sm_new obj) l in let acc := accepted (sm_new obj) l in
     (forall g q, In q (added g acc) -> syName (obj q) <> syName (obj p)) /\ sm_addGlobal s p = (s, Throw NotFoundError)).
Proof.
  split.
  - exists ex_obj, [Add 1 "g"; Add 0 ""; AddDist "pdf" ["g"]; Add 0 "g"]%nat%string, "pdf"%string, ["g"%string].
    cbv zeta. split; [reflexivity|]. split; [reflexivity|]. vm_compute. intros C. inversion C as [|? ? C1 _]. apply C1. right. left. reflexivity.
  - exists ex_obj, [Add 0 "g1"; Add 0 "g2"]%nat%string, 1%nat. cbv zeta. split.
    + change (accepted (sm_new ex_obj) [Add 0 "g1"; Add 0 "g2"]%nat%string) with [Add 0 "g1"; Add 0 "g2"]%nat%string.
      intros g q Hq. unfold added in Hq. apply in_flat_map in Hq as (o & [<-|[<-|[]]] & Hq).
      * destruct (String.eqb g "g1"); [destruct Hq as [<-|[]]; discriminate|destruct Hq].
      * destruct (String.eqb g "g2"); [destruct Hq as [<-|[]]; discriminate|destruct Hq].
    + reflexivity.
Qed.
Print Assumptions C68_unique_refuted.
Example C68_nonvacuous :
  (exists s', sm_addDist (smrun (sm_new ex_obj) [Add 1 "g"; Add 0 ""]%nat%string) "pdf" ["g"%string] = (s', Ok tt)) /\
  Forall no_dist [Add 1 "g"; Build]%nat%string /\ Forall late_ok [AddDist "pdf" ["g"]; Add 0 ""; AddDist "q" ["g"]; Build]%nat%string /\
  regd "pdf" (accepted (sm_new ex_obj) ([Add 1 "g"; Build]%nat%string ++ [AddDist "pdf" ["g"]; Add 0 ""; AddDist "q" ["g"]; Build]%nat%string)%list) = Some ["g"%string] /\
  In 0%nat (added "" (accepted (sm_new ex_obj) [Add 1 "g"; Add 0 ""]%nat%string)) /\
  sm_addDist (smrun (sm_new ex_obj) [Add 1 "g"; Add 1 "h"]%nat%string) "pdf" ["g"; "h"]%string
  = (smrun (sm_new ex_obj) [Add 1 "g"; Add 1 "h"]%nat%string, Throw std_out_of_range).
Proof.
  split; [eexists; reflexivity|]. split; [repeat constructor|]. split; [repeat constructor; unfold once_global; cbn; lia|].
  split; [reflexivity|]. split; [now left|]. reflexivity.
Qed.

(** C114.  Two getters are undefined where they should report something: see C114_reports_refuted *)
Theorem C114_reports_partial : forall obj l,
  let s := smrun (sm_new obj) l in let acc := accepted (sm_new obj) l in
  sm_count s = List.length (adds acc) /\
  sm_nGroups s = match adds acc with
                 | [] => UB
                 | a => Ok (List.length (nodup string_dec (EmptyString :: map snd a)))
                 end /\
  (forall g, g = EmptyString \/ In g (map snd (adds acc)) ->
     sm_nInGroup s g = Ok (List.length (added g acc)) /\
     sm_namesIn s g = Ok (map (fun p => syName (obj p)) (added g acc))) /\
  (forall g, g <> EmptyString -> ~ In g (map snd (adds acc)) ->
     sm_nInGroup s g = UB /\ sm_namesIn s g = Throw NotFoundError).
Proof. exact reports_pkg. Qed.
Print Assumptions C114_reports_partial.
(** no group count before the first systematic; counting an unknown group reads past the end of the map *)
Theorem C114_reports_refuted :
  (exists obj, sm_nGroups (sm_new obj) = UB) /\
  (exists obj l g, adds (accepted (sm_new obj) l) <> [] /\ sm_nInGroup (smrun (sm_new obj) l) g = UB).
Proof.
  split; [now exists ex_obj|]. exists ex_obj, [Add 1 "g"]%nat%string, "h"%string. split; [discriminate|reflexivity].
Qed.
Print Assumptions C114_reports_refuted.
Example C114_nonvacuous : let s := smrun (sm_new ex_obj) ex_smops in
  sm_count s = 3%nat /\ sm_nGroups s = Ok 2%nat /\ sm_nInGroup s "g" = Ok 2%nat /\
  sm_namesIn s "g" = Ok ["swap"; "mix"]%string /\ sm_namesIn s "h" = Throw NotFoundError.
Proof. repeat split; reflexivity. Qed.
