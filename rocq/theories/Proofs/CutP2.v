(** Proofs about Event::SetDatum and Event::GetDataMap (C21). *)
From Coq Require Import ZArith Lia.
From Verif Require Import Base.Res Base.Num Base.SMap Model.Axis Model.Event Model.Cut Spec.AxisSpec Spec.CutSpec Proofs.AxisP Proofs.HistP Proofs.CutP Proofs.FillP.
Local Open Scope Qc_scope.
Local Open Scope res_scope.

Lemma sof_find : forall (ns : list string) (vs : list Qc) (m : smap Qc) n, NoDup ns -> List.length ns = List.length vs ->
  sfind n (fold_left (fun m kv => sset (fst kv) (snd kv) m) (combine ns vs) m) =
  match index_of n ns with Some i => nth_error vs i | None => sfind n m end.
Proof.
  induction ns as [|x ns IH]; intros vs m n Hnd Hl; destruct vs as [|v vs]; cbn [combine fold_left index_of fst snd List.length] in *; try lia; [reflexivity|].
  inversion Hnd as [|? ? Hx Hn]; subst. rewrite IH by (auto; lia).
  destruct (String.eqb_spec x n) as [->|Hne].
  - pose proof (index_of_spec n ns) as S. destruct (index_of n ns) as [i|].
    + exfalso. apply Hx. destruct S as [S _]. eapply nth_error_In; exact S.
    + rewrite sfind_sset_eq. reflexivity.
  - destruct (index_of n ns) as [i|]; cbn [option_map]; [reflexivity|]. now rewrite sfind_sset_neq by congruence.
Qed.

Lemma dataMap_pkg e :
  (forall ns, evNames e = Some ns -> NoDup ns -> List.length ns = List.length (evObs e) ->
     exists m, getDataMap e = Ok m /\ forall n v, sfind n m = Some v <-> has_value e n v) /\
  (evNames e = None -> getDataMap e = Throw NULLPointerAccessError).
Proof.
  split.
  - intros ns E Hn Hl. unfold getDataMap, ev_getNames. rewrite E. cbn [bind]. rewrite Hl, Nat.eqb_refl.
    eexists. split; [reflexivity|]. intros n v. unfold sof. rewrite sof_find by assumption.
    split.
    + intros H. apply getDatum_ok. unfold getDatum, getDatumIdx. rewrite E.
      destruct (index_of n ns); [now rewrite H|discriminate].
    + intros H. apply getDatum_value in H. unfold getDatum, getDatumIdx in H. rewrite E in H.
      destruct (index_of n ns) as [i|]; [|discriminate]. destruct (nth_error (evObs e) i); congruence.
  - intros E. unfold getDataMap, ev_getNames. now rewrite E.
Qed.

Lemma setDatum_pkg e :
  (forall n v w, has_value e n v -> exists e', setDatum e n w = Ok e' /\ has_value e' n w /\ evNames e' = evNames e /\
     (forall m x, m <> n -> (has_value e' m x <-> has_value e m x))) /\
  (forall n w, lacks e n -> setDatum e n w = Throw NotFoundError) /\
  (forall i v w, nth_error (evObs e) i = Some v -> exists e', setDatumIdx e i w = Ok e' /\ evNames e' = evNames e /\
     List.length (evObs e') = List.length (evObs e) /\
     forall j, nth_error (evObs e') j = if Nat.eqb j i then Some w else nth_error (evObs e) j).
Proof.
  split; [|split].
  - intros n v w H. exact (set_value e n v w H).
  - intros n w [ns [E H]]. unfold setDatum. rewrite E. pose proof (index_of_spec n ns) as S.
    destruct (index_of n ns) as [i|]; [|reflexivity]. exfalso. apply H. destruct S as [S _]. eapply nth_error_In; exact S.
  - intros i v w H. assert (Hi : (i < List.length (evObs e))%nat) by (apply nth_error_Some; congruence).
    unfold setDatumIdx. destruct (Nat.ltb_spec i (List.length (evObs e))); [|lia].
    eexists. split; [reflexivity|]. split; [reflexivity|]. split; [apply upd_length|].
    intros j. cbn [evObs]. now rewrite nth_error_upd by exact Hi.
Qed.
Lemma setDatum_out_pkg e i w : (List.length (evObs e) <= i)%nat -> setDatumIdx e i w = UB.
Proof. intros H. unfold setDatumIdx. destruct (Nat.ltb_spec i (List.length (evObs e))); [lia|reflexivity]. Qed.
