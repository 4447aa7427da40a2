(** C13, C14, C21: events, cuts and cut logs. *)
From Coq Require Import ZArith.
From Verif Require Import Base.Res Base.Num Base.SMap Model.Axis Model.Event Model.Cut Spec.CutSpec Proofs.CutP Proofs.CutP2.
Local Open Scope Qc_scope.

Definition ex_ev (x y : Z) : event := ev_setNames (mk_event [qz x; qz y]) ["energy"; "radius"]%string.
Definition ex_cuts : list cut :=
  [BoxCut "box" "energy" (qz 1) (qz 5); LineCut "line" "radius" (qz 3) "upper"; BoolCut "bool" "energy" (qz 2)]%string.
Lemma ex_cuts_built : Forall cut_built ex_cuts.
Proof. repeat constructor. Qed.
Lemma ex_ev_has x y : has_value (ex_ev x y) "energy" (qz x) /\ has_value (ex_ev x y) "radius" (qz y).
Proof.
  split; [exists ["energy"; "radius"]%string, 0%nat|exists ["energy"; "radius"]%string, 1%nat]; repeat split;
    intros j Hj; [lia|]. destruct j; [discriminate|lia].
Qed.

(** C13 *)
Theorem C13_cut_region : forall c e, cut_built c ->
  (forall v, has_value e (cut_obs c) v -> exists b, passesCut c e = Ok b /\ (b = true <-> region c v)) /\
  (lacks e (cut_obs c) -> passesCut c e = Throw NotFoundError).
Proof. exact cuts_pkg. Qed.
Print Assumptions C13_cut_region.

Theorem C13_line_sidedness : forall n o v s,
  (mk_line n o v s = Ok (LineCut n o v s) <-> (s = "upper" \/ s = "lower")%string) /\
  (s <> "upper"%string -> s <> "lower"%string -> mk_line n o v s = Throw ValueError).
Proof. exact mk_line_pkg. Qed.
Print Assumptions C13_line_sidedness.

Theorem C13_collection : forall cs e, Forall cut_built cs ->
  (passesCuts cs e = Ok true <-> passes_all cs e) /\
  (passesCuts cs e = Ok false <-> exists i, charged_to cs e i).
Proof. exact passesCuts_pkg. Qed.
Print Assumptions C13_collection.

Example C13_nonvacuous :
  Forall cut_built ex_cuts /\ passesCuts ex_cuts (ex_ev 2 0) = Ok true /\ passesCuts ex_cuts (ex_ev 5 0) = Ok false /\
  passesCuts ex_cuts (ex_ev 2 3) = Ok false /\ passesCuts ex_cuts (ex_ev 3 0) = Ok false /\
  passesCuts [BoolCut "b" "mass" 0]%string (ex_ev 2 0) = Throw NotFoundError /\
  lacks (ex_ev 2 0) "mass".
Proof.
  split; [exact ex_cuts_built|]. repeat split; try (vm_compute; reflexivity).
  eexists. split; [reflexivity|]. intros [H|[H|[]]]; discriminate.
Qed.

(** C14 *)
Theorem C14_log_accounts : forall cs evs, Forall cut_built cs ->
  (forall e, In e evs -> forall c, In c cs -> exists v, has_value e (cut_obs c) v) ->
  exists cls : event -> option nat,
    (forall e, In e evs -> match cls e with Some i => charged_to cs e i | None => passes_all cs e end) /\
    let passed := zcount (fun e => match cls e with None => true | Some _ => false end) evs in
    let (l, rs) := run_cuts cs evs (mk_log (map cutName cs)) in
    rs = map (fun e => Ok (match cls e with None => true | Some _ => false end)) evs /\
    lNames l = map cutName cs /\ List.length (lCounts l) = List.length cs /\
    lN l = Z.of_nat (List.length evs) /\
    (forall i, (i < List.length cs)%nat ->
       nth i (lCounts l) 0%Z = zcount (fun e => match cls e with Some k => Nat.eqb k i | None => false end) evs) /\
    (passed + zsum (lCounts l) = Z.of_nat (List.length evs))%Z /\
    (evs <> [] -> exists m, calculateMeta l = Ok m /\ lCounts m = lCounts l /\ lN m = lN l /\
       List.length (lRem m) = List.length cs /\
       (forall i, (i < List.length cs)%nat ->
          nth i (lRem m) 0%Z = (Z.of_nat (List.length evs) - zsum (firstn (S i) (lCounts l)))%Z /\
          nth i (lCutPct m) 0 = qz (nth i (lCounts l) 0%Z) * qz 100 / qz (Z.of_nat (List.length evs)) /\
          nth i (lRemPct m) 0 = qz (nth i (lRem m) 0%Z) * qz 100 / qz (Z.of_nat (List.length evs))) /\
       (forall i, (S i < List.length cs)%nat -> (nth (S i) (lRem m) 0 <= nth i (lRem m) 0)%Z) /\
       (forall i, S i = List.length cs -> nth i (lRem m) 0%Z = passed)).
Proof. exact cutlog_pkg. Qed.
Print Assumptions C14_log_accounts.

Theorem C14_failed_call_not_logged : forall cs e l, (forall b, snd (passesCutsLog cs e l) <> Ok b) ->
  fst (passesCutsLog cs e l) = l.
Proof. exact log_unchanged_pkg. Qed.
Print Assumptions C14_failed_call_not_logged.

Example C14_nonvacuous :
  let evs := [ex_ev 2 0; ex_ev 7 0; ex_ev 2 9; ex_ev 3 1; ex_ev 2 (-5); ex_ev 0 0] in
  Forall cut_built ex_cuts /\
  (forall e, In e evs -> forall c, In c ex_cuts -> exists v, has_value e (cut_obs c) v) /\
  lCounts (fst (run_cuts ex_cuts evs (mk_log (map cutName ex_cuts)))) = [2; 1; 1]%Z /\
  (exists m, calculateMeta (fst (run_cuts ex_cuts evs (mk_log (map cutName ex_cuts)))) = Ok m /\ lRem m = [4; 3; 2]%Z) /\
  snd (passesCutsLog [BoolCut "b" "mass" 0]%string (ex_ev 2 0) (mk_log ["b"%string])) = Throw NotFoundError.
Proof.
  split; [exact ex_cuts_built|]. split.
  { intros e He c Hc. assert (exists x y, e = ex_ev x y) as [x [y ->]].
    { repeat destruct He as [<-|He]; try contradiction; eauto. }
    destruct (ex_ev_has x y) as [H1 H2]. repeat destruct Hc as [<-|Hc]; try contradiction; cbn [cut_obs]; eauto. }
  split; [vm_compute; reflexivity|]. split; [|vm_compute; reflexivity].
  eexists. split; vm_compute; reflexivity.
Qed.

(** C21 *)
Theorem C21_toObsSet : forall e names,
  (forall vals, toObsSet e (mk_obsset names) = Ok vals <-> Forall2 (has_value e) names vals) /\
  (forall ns, evNames e = Some ns -> List.length ns = List.length (evObs e) ->
     (exists n, In n names /\ ~ In n ns) -> toObsSet e (mk_obsset names) = Throw NotFoundError) /\
  (forall i, (List.length (evObs e) <= i)%nat -> getDatumIdx e i = Throw NotFoundError) /\
  (forall i v, nth_error (evObs e) i = Some v -> getDatumIdx e i = Ok v).
Proof. exact toObsSet_pkg. Qed.
Print Assumptions C21_toObsSet.

Theorem C21_relative_indices : forall names big, NoDup names -> NoDup big ->
  (incl names big -> exists idx, relativeIndices (mk_obsset names) (mk_obsset big) = Ok idx /\
     Forall2 (fun n i => nth_error big i = Some n) names idx /\
     forall e vals, evNames e = Some big -> List.length (evObs e) = List.length big ->
       (toObsSet e (mk_obsset names) = Ok vals <-> Forall2 (fun i v => nth_error (evObs e) i = Some v) idx vals)) /\
  (~ incl names big -> relativeIndices (mk_obsset names) (mk_obsset big) = Throw RepresentationError \/
     relativeIndices (mk_obsset names) (mk_obsset big) = Throw std_out_of_range).
Proof. exact relidx_pkg. Qed.
Print Assumptions C21_relative_indices.

Example C21_nonvacuous :
  let big := ["energy"; "radius"; "time"]%string in let names := ["time"; "energy"]%string in
  NoDup names /\ NoDup big /\ incl names big /\
  relativeIndices (mk_obsset names) (mk_obsset big) = Ok [2; 0]%nat /\
  toObsSet (ev_setNames (mk_event [qz 4; qz 5; qz 6]) big) (mk_obsset names) = Ok [qz 6; qz 4] /\
  toObsSet (ev_setNames (mk_event [qz 4; qz 5; qz 6]) big) (mk_obsset ["mass"; "time"]%string) = Throw NotFoundError.
Proof.
  assert (N : forall a b : string, a <> b -> NoDup [a; b]) by (intros; repeat constructor; cbn; intuition congruence).
  split; [apply N; discriminate|]. split.
  { repeat constructor; cbn; intuition discriminate. }
  split. { intros x [<-|[<-|[]]]; cbn; tauto. }
  repeat split; vm_compute; reflexivity.
Qed.

(** C21, writing: SetDatum(name) changes the value of that observable only, SetDatum(index) that slot only *)
Theorem C21_set_datum : forall e,
  (forall n v w, has_value e n v -> exists e', setDatum e n w = Ok e' /\ has_value e' n w /\ evNames e' = evNames e /\
     (forall m x, m <> n -> (has_value e' m x <-> has_value e m x))) /\
  (forall n w, lacks e n -> setDatum e n w = Throw NotFoundError) /\
  (forall i v w, nth_error (evObs e) i = Some v -> exists e', setDatumIdx e i w = Ok e' /\ evNames e' = evNames e /\
     List.length (evObs e') = List.length (evObs e) /\
     forall j, nth_error (evObs e') j = if Nat.eqb j i then Some w else nth_error (evObs e) j).
Proof. exact setDatum_pkg. Qed.
Print Assumptions C21_set_datum.

(** C21, GetDataMap: the map from every observable name to its value; NULLPointerAccessError without names *)
Theorem C21_data_map : forall e,
  (forall ns, evNames e = Some ns -> NoDup ns -> List.length ns = List.length (evObs e) ->
     exists m, getDataMap e = Ok m /\ forall n v, sfind n m = Some v <-> has_value e n v) /\
  (evNames e = None -> getDataMap e = Throw NULLPointerAccessError).
Proof. exact dataMap_pkg. Qed.
Print Assumptions C21_data_map.

(** C21: the NotFoundError that SetDatum(index) announces for an index out of range never comes: the
    write goes through operator[], so it is outside the vector (undefined behaviour) *)
Theorem C21_set_datum_out_of_range_refuted : forall e i w, (List.length (evObs e) <= i)%nat -> setDatumIdx e i w = UB.
Proof. exact setDatum_out_pkg. Qed.
Print Assumptions C21_set_datum_out_of_range_refuted.

Example C21_set_nonvacuous :
  let e := ev_setNames (mk_event [qz 4; qz 5; qz 6]) ["energy"; "radius"; "time"]%string in
  has_value e "radius"%string (qz 5) /\ lacks e "mass"%string /\
  setDatum e "radius"%string (qz 9) = Ok (ev_setNames (mk_event [qz 4; qz 9; qz 6]) ["energy"; "radius"; "time"]%string) /\
  getDataMap e = Ok [("energy", qz 4); ("radius", qz 5); ("time", qz 6)]%string /\
  getDataMap (mk_event [qz 4]) = Throw NULLPointerAccessError.
Proof.
  cbv zeta. split; [apply getDatum_ok; reflexivity|]. split.
  { exists ["energy"; "radius"; "time"]%string. split; [reflexivity|]. cbn. intuition discriminate. }
  repeat split; vm_compute; reflexivity.
Qed.
