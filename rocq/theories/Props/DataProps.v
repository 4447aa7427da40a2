(** Data sets: C40, C60, C66, C67. *)
From Verif Require Import Base.Res Base.Num Base.SMap Model.Event Model.Data Spec.DataSpec Proofs.DataP.
Import ListNotations.

(** C40: concatenating two different data sets *)
Theorem C40_concatenation_partial : forall ops a b r A B fuel, let h := drun ops in
  a <> b -> r <> a -> h a = Some A -> h b = Some B -> (ds_n B < fuel)%nat ->
  ((dNObs A = 0%nat \/ dNObs A = dNObs B \/ ds_n B = 0%nat) ->
     exists h' R, ds_plus fuel a b r h = (h', Ok tt) /\ h' r = Some R /\ h' a = Some R /\
       values R = values A ++ values B /\ dNames R = dNames A /\ (forall c, c <> a -> c <> r -> h' c = h c)) /\
  (dNObs A <> 0%nat -> dNObs A <> dNObs B -> ds_n B <> 0%nat ->
     exists h', ds_plus fuel a b r h = (h', Throw DimensionError) /\ same_heap h' h).
Proof. exact concat_pkg. Qed.
Print Assumptions C40_concatenation_partial.
(** a + a never ends, for every non-empty data set: no bound on the rounds suffices *)
Theorem C40_self_concatenation_refuted : forall ops a r A, let h := drun ops in h a = Some A -> ds_n A <> 0%nat ->
  forall fuel, snd (ds_plus fuel a a r h) = Diverge.
Proof. exact self_plus_pkg. Qed.
Print Assumptions C40_self_concatenation_refuted.
Definition ex_ops := [DNew 0; DNames 0 ["x"; "y"]%string; DAdd 0 [qz 1; qz 2]; DNew 1; DAdd 1 [qz 3; qz 4]; DAdd 1 [qz 5; qz 6]].
Example C40_nonvacuous : exists h' R, ds_plus 3 0 1 2 (drun ex_ops) = (h', Ok tt) /\ h' 2%nat = Some R /\
  values R = [[qz 1; qz 2]; [qz 3; qz 4]; [qz 5; qz 6]].
Proof. eexists _, _. split; [reflexivity|]. split; reflexivity. Qed.

(** C60: without copies of the lazy objects, at most one is in memory and nothing leaks *)
Theorem C60_one_in_memory_partial : forall E (fs : string -> option (list E)) ops, Forall no_copy_op ops ->
  one_resident (lrun E fs ops).
Proof. exact lazy_one_pkg. Qed.
Print Assumptions C60_one_in_memory_partial.
(** with copies: among the constructed (registered) ones *)
Theorem C60_registered_one : forall E (fs : string -> option (list E)) ops a b, let s := lrun E fs ops in
  In a (lzReg s) -> In b (lzReg s) -> in_memory s a -> in_memory s b -> a = b.
Proof. exact lazy_registered_pkg. Qed.
Print Assumptions C60_registered_one.
(** every access, copies included, is answered from the accessed set's own file, and leaves the objects as they were *)
Theorem C60_access_own_data : forall E (fs : string -> option (list E)) ops a f d, let s := lrun E fs ops in
  alive s a f -> fs f = Some d ->
  snd (lz_access E fs s a) = Ok d /\ in_memory (fst (lz_access E fs s a)) a /\
  (forall b g, alive (fst (lz_access E fs s a)) b g <-> alive s b g) /\
  (forall i e, nth_error d i = Some e -> snd (lz_entry E fs s a i) = Ok e) /\
  (forall i, (List.length d <= i)%nat -> snd (lz_entry E fs s a i) = Throw NotFoundError).
Proof. exact lazy_access_pkg. Qed.
Print Assumptions C60_access_own_data.
Theorem C60_missing_file : forall E (fs : string -> option (list E)) ops a f, let s := lrun E fs ops in
  alive s a f -> fs f = None ->
  snd (lz_access E fs s a) = Throw std_logic_error /\
  forall b, In b (lzReg s) -> ~ in_memory (fst (lz_access E fs s a)) b.
Proof. exact lazy_missing_pkg. Qed.
Print Assumptions C60_missing_file.
(** copies are not registered; assignment forgets loaded data *)
Theorem C60_copies_refuted :
  (exists ops a b, let s := lrun nat (fun _ => Some [7%nat]) ops in a <> b /\ in_memory s a /\ in_memory s b) /\
  (exists ops, lzLeak (lrun nat (fun _ => Some [7%nat]) ops) = 1%nat /\
     Forall (fun o => match o with LCopy _ _ => False | _ => True end) ops).
Proof. exact (conj lazy_copy_witness lazy_assign_witness). Qed.
Print Assumptions C60_copies_refuted.
Definition ex_fs (f : string) : option (list nat) :=
  if String.eqb f "f" then Some [1; 2]%nat else if String.eqb f "g" then Some [3]%nat else None.
Definition ex_lops := [LNew 0 "f"; LNew 1 "g"; LAccess 0; LAccess 1; LNew 2 "none"]%string.
Example C60_nonvacuous : Forall no_copy_op ex_lops /\ in_memory (lrun nat ex_fs ex_lops) 1 /\ ~ in_memory (lrun nat ex_fs ex_lops) 0 /\
  alive (lrun nat ex_fs ex_lops) 0 "f" /\ snd (lz_entry nat ex_fs (lrun nat ex_fs ex_lops) 0 1) = Ok 2%nat /\
  alive (lrun nat ex_fs ex_lops) 2 "none" /\ ex_fs "none" = None.
Proof.
  split; [repeat constructor|]. split; [eexists _, _; split; reflexivity|]. split; [intros [o [d [[= <-] H]]]; discriminate|].
  split; [eexists; split; reflexivity|]. split; [reflexivity|]. split; [eexists; split; reflexivity|reflexivity].
Qed.

(** C66: the names an event is read under *)
Theorem C66_own_names_partial : forall ops a d e n, (forall o, In o ops -> ~ copies_into a o) ->
  drun ops a = Some d -> In e (dData d) ->
  dv_datum (drun ops) e n = getDatum (mkEvent (dvObs e) (Some (dNames d))) n.
Proof. exact names_pkg. Qed.
Print Assumptions C66_own_names_partial.
(** a copy's events dangle when the original is destroyed, and a sum's do not follow the sum's names *)
Theorem C66_copied_names_refuted :
  (exists ops a d e n v, drun ops a = Some d /\ nth_error (dData d) 0 = Some e /\
     getDatum (mkEvent (dvObs e) (Some (dNames d))) n = Ok v /\ dv_datum (drun ops) e n = UB) /\
  (exists ops a d e n v, drun ops a = Some d /\ nth_error (dData d) 0 = Some e /\
     getDatum (mkEvent (dvObs e) (Some (dNames d))) n = Ok v /\ dv_datum (drun ops) e n = Throw NotFoundError).
Proof. exact (conj dangling_witness stale_names_witness). Qed.
Print Assumptions C66_copied_names_refuted.
Example C66_nonvacuous : (forall o, In o ex_ops -> ~ copies_into 0 o) /\ exists d e, drun ex_ops 0%nat = Some d /\ In e (dData d) /\
  dv_datum (drun ex_ops) e "y" = Ok (qz 2).
Proof.
  split; [intros o H; cbn in H; intuition (subst; cbn in *; tauto)|]. eexists _, _. split; [reflexivity|]. split; [left; reflexivity|reflexivity].
Qed.

(** C67 *)
Theorem C67_add_entry : forall ops a d obs, drun ops a = Some d -> let (d', r) := ds_add a d obs in
  (obs <> [] -> (dNObs d = 0%nat \/ dNObs d = List.length obs) ->
     r = Ok tt /\ values d' = values d ++ [obs] /\ dNames d' = dNames d /\ dNObs d' = List.length obs) /\
  (obs = [] \/ (dNObs d <> 0%nat /\ dNObs d <> List.length obs) -> r = Throw DimensionError /\ d' = d).
Proof. exact add_pkg. Qed.
Print Assumptions C67_add_entry.
Theorem C67_get_entry : forall ops a d i, drun ops a = Some d ->
  ((i < ds_n d)%nat -> exists e, ds_get d i = Ok e /\ nth_error (values d) i = Some (dvObs e) /\ List.length (dvObs e) = dNObs d) /\
  ((ds_n d <= i)%nat -> ds_get d i = Throw NotFoundError).
Proof. exact get_pkg. Qed.
Print Assumptions C67_get_entry.
Example C67_nonvacuous : exists d, drun ex_ops 1%nat = Some d /\ ds_n d = 2%nat /\ dNObs d = 2%nat.
Proof. eexists. repeat split. Qed.
