(** Proofs about the counts and names the systematic manager reports (C114). *)
From Verif Require Import Base.Res Base.Num Base.SMap Model.Axis Model.Event Model.Hist Model.Matrix Model.ED Model.SystMan
  Spec.SystManSpec.
From Verif Require Import Proofs.AxisP Proofs.HistP Proofs.InterpP Proofs.SystManP Proofs.SystManP2 Proofs.SystManP3.
From Coq Require Import Lia.
Local Open Scope nat_scope.

(** ** fNGroups is the number of groups, once there was an accepted Add *)
Lemma construct_ng s : smNGroups (fst (sm_construct s)) = smNGroups s.
Proof.
  assert (forall A (f : sman -> A -> sman * res unit) l s, (forall s x, smNGroups (fst (f s x)) = smNGroups s) ->
            smNGroups (fst (iterS f l s)) = smNGroups s) as IT.
  { intros A f l. induction l as [|x t IH]; intros s0 Hf; cbn [iterS]; [reflexivity|].
    pose proof (Hf s0 x) as Hx. destruct (f s0 x) as [s1 [u|e| | |]]; cbn [fst] in *; try exact Hx.
    now rewrite IH. }
  unfold sm_construct. destruct (Nat.eqb (sm_count s) 0); [reflexivity|].
  pose proof (IT _ (fun s1 (kv : string * list nat) => iterS sm_construct1 (snd kv) s1) (smGroups s) s
                (fun s x => IT _ sm_construct1 (snd x) s (fun _ _ => eq_refl))) as H1.
  destruct (iterS _ (smGroups s) s) as [s1 [u|e| | |]]; cbn [fst] in *; try exact H1.
  rewrite <- H1. apply IT. clear. intros s [g l]. cbn [fst snd].
  destruct (String.eqb g EmptyString && Nat.eqb (List.length l) 0); [reflexivity|].
  unfold obind. destruct (sm_groupResp s l); reflexivity.
Qed.
Lemma adds_app a b : adds (a ++ b) = (adds a ++ adds b)%list.
Proof. unfold adds. apply flat_map_app. Qed.
Lemma call_ng s o : smNGroups s = None \/ smNGroups s = Some (List.length (smGroups s)) ->
  let s' := fst (smcall s o) in
  smNGroups s' = (match adds (match snd (smcall s o) with Ok _ => [o] | _ => [] end) with
                  | [] => smNGroups s | _ => Some (List.length (smGroups s')) end) /\
  (smNGroups s' = None \/ smNGroups s' = Some (List.length (smGroups s'))).
Proof.
  intros H. destruct o as [p g|n gs|p b|]; cbn [smcall].
  - unfold sm_add, sm_addGlobal. destruct (String.eqb g EmptyString).
    + unfold obind. destruct (sm_checkOthers s p); cbn; auto.
    + cbn. auto.
  - unfold sm_addDist, obind. destruct (sm_unique s gs); cbn; auto.
  - cbn. auto.
  - pose proof (construct_ng s) as N. pose proof (construct_same s) as (G & _).
    cbv zeta. rewrite N, G. destruct (snd (sm_construct s)); cbn; auto.
Qed.
Lemma run_ng l : forall s, smNGroups s = None \/ smNGroups s = Some (List.length (smGroups s)) ->
  (smNGroups (smrun s l) = match adds (accepted s l) with [] => smNGroups s | _ => Some (List.length (smGroups (smrun s l))) end) /\
  (smNGroups (smrun s l) = None \/ smNGroups (smrun s l) = Some (List.length (smGroups (smrun s l)))).
Proof.
  induction l as [|o t IH]; intros s H; cbn [smrun accepted]; [split; [reflexivity|exact H]|].
  destruct (call_ng s o H) as (C1 & C2). cbv zeta in C1, C2.
  destruct (IH _ C2) as (I1 & I2). split; [|exact I2]. rewrite adds_app.
  destruct (adds (match snd (smcall s o) with Ok _ => [o] | _ => [] end)) as [|x r] eqn:Ea.
  - cbn [app]. rewrite I1, C1. reflexivity.
  - cbn [app]. destruct (adds (accepted (fst (smcall s o)) t)) eqn:Eb; [|exact I1].
    rewrite C1 in I1. rewrite I1 in I2. destruct I2 as [I2|I2]; [discriminate|]. rewrite I1. exact I2.
Qed.

(** ** keys of the group map *)
Lemma added_in g l : added g l <> [] <-> In g (map snd (adds l)).
Proof.
  induction l as [|o t IH]; [cbn; intuition congruence|].
  rewrite (added_app g [o] t : added g (o :: t) = _).
  rewrite (adds_app [o] t : adds (o :: t) = _). rewrite map_app, in_app_iff, <- IH.
  destruct o as [p g'|n gs|p b|]; cbn; try tauto.
  destruct (String.eqb_spec g g') as [->|N]; cbn; [split; [auto|discriminate]|]. intuition congruence.
Qed.
Lemma run_keys obj l g : In g (skeys (smGroups (smrun (sm_new obj) l))) <->
  g = EmptyString \/ In g (map snd (adds (accepted (sm_new obj) l))).
Proof.
  pose proof (run_inv l _ (sm_new_inv obj)) as (W & E & NE & _).
  pose proof (history_pkg obj l) as (HG & _). cbv zeta in HG.
  rewrite <- added_in, <- HG, sfind_in. unfold sm_grp.
  split.
  - intros (v & F). destruct (string_dec g EmptyString) as [->|N]; [now left|]. right. rewrite F. intros ->. now apply (NE g N).
  - intros [->|H].
    + unfold shas in E. destruct (sfind EmptyString _) as [v|]; [now exists v|discriminate E].
    + destruct (sfind g _) as [v|]; [now exists v|congruence].
Qed.
Lemma run_find obj l g : sfind g (smGroups (smrun (sm_new obj) l)) =
  let acc := accepted (sm_new obj) l in if in_dec string_dec g (EmptyString :: map snd (adds acc)) then Some (added g acc) else None.
Proof.
  pose proof (history_pkg obj l) as (HG & _). cbv zeta in HG |- *. rewrite <- (HG g). unfold sm_grp.
  destruct (in_dec string_dec g _) as [i|n].
  - assert (In g (skeys (smGroups (smrun (sm_new obj) l)))) as K by (apply run_keys; destruct i; auto).
    apply sfind_in in K as (v & ->). reflexivity.
  - apply sfind_not_in. rewrite run_keys. intros [->|C]; apply n; [now left|now right].
Qed.

(** ** the total *)
Lemma sum_added ks : forall l, NoDup ks -> incl (map snd (adds l)) ks ->
  list_sum (map (fun g => List.length (added g l)) ks) = List.length (adds l).
Proof.
  intros l ND. induction l as [|o t IH]; intros I.
  - cbn. clear. induction ks; cbn; auto.
  - pose proof (adds_app [o] t : adds (o :: t) = _) as AA. rewrite AA in I |- *. rewrite map_app in I.
    rewrite app_length, <- IH by (intros x Hx; apply I, in_app_iff; now right). clear IH.
    assert (forall g, List.length (added g (o :: t)) = List.length (added g [o]) + List.length (added g t)) as A.
    { intros g. rewrite (added_app g [o] t : added g (o :: t) = _). now rewrite app_length. }
    assert (list_sum (map (fun g => List.length (added g [o])) ks) = List.length (adds [o])) as B.
    { assert (incl (map snd (adds [o])) ks) as I1 by (intros x Hx; apply I, in_app_iff; now left). clear I A.
      destruct o as [p g'|n gs|p b|]; cbn in I1 |- *; try (clear; induction ks; cbn; auto; fail).
      assert (In g' ks) as Hin by (apply I1; now left). clear I1.
      induction ks as [|k ks IH]; [destruct Hin|]. inversion ND as [|? ? N1 N2]; subst. cbn [map].
      change (list_sum (?a :: ?b)) with (a + list_sum b). destruct (String.eqb_spec k g') as [->|N].
      - assert (list_sum (map (fun g => List.length ((if String.eqb g g' then [p] else []) ++ [])%list) ks) = 0) as ->; [|reflexivity].
        clear IH N2 ND Hin. induction ks as [|k ks IH]; [reflexivity|]. cbn [map]. change (list_sum (?a :: ?b)) with (a + list_sum b).
        rewrite IH by (intros C; apply N1; now right). destruct (String.eqb_spec k g') as [->|]; [exfalso; apply N1; now left|reflexivity].
      - destruct Hin as [->|Hin]; [congruence|]. rewrite IH by assumption. reflexivity. }
    rewrite (map_ext _ _ A). rewrite <- B. clear. induction ks as [|k ks IH]; [reflexivity|]. cbn [map].
    change (list_sum (?a :: ?b)) with (a + list_sum b). rewrite IH. unfold list_sum. cbn [fold_right]. lia.
Qed.

Lemma reports_pkg : forall obj l,
  let s := smrun (sm_new obj) l in let acc := accepted (sm_new obj) l in
  sm_count s = List.length (adds acc) /\
  sm_nGroups s = match adds acc with
                 | [] => UB
                 | a => Ok (List.length (nodup string_dec (EmptyString :: map snd a)))
                 end /\
  (forall g, g = EmptyString \/ In g (map snd (adds acc)) ->
     sm_nInGroup s g = Ok (List.length (added g acc)) /\
     sm_namesIn s g = Ok (map (fun p => syName (obj p)) (added g acc))) /\
  (forall g, g <> EmptyString -> ~ In g (map snd (adds acc)) ->
     sm_nInGroup s g = UB /\ sm_namesIn s g = Throw NotFoundError).
Proof.
  intros obj l s acc. pose proof (run_inv l _ (sm_new_inv obj)) as (W & _). fold s in W.
  pose proof (swf_nodup _ W) as ND. pose proof (history_pkg obj l) as (HG & _). cbv zeta in HG. fold s acc in HG.
  assert (forall kv, In kv (smGroups s) -> snd kv = added (fst kv) acc) as V.
  { intros [g ps] Hin. apply sfind_In in Hin; [|exact W]. cbn [fst snd]. rewrite <- HG. unfold sm_grp. now rewrite Hin. }
  split; [|split; [|split]].
  - unfold sm_count. rewrite <- (sum_added (skeys (smGroups s)) acc ND).
    + unfold skeys. rewrite map_map. f_equal. apply map_ext_in. intros kv Hin. now rewrite V.
    + intros g Hg. apply run_keys. now right.
  - unfold sm_nGroups. destruct (run_ng l (sm_new obj) (or_introl eq_refl)) as (R & _). fold s acc in R. rewrite R.
    destruct (adds acc) as [|x r] eqn:E; [reflexivity|]. f_equal. rewrite <- E.
    rewrite <- (map_length fst (smGroups s)). apply Nat.le_antisymm.
    + apply NoDup_incl_length; [exact ND|]. intros g Hg. apply nodup_In. apply run_keys in Hg. destruct Hg as [->|Hg]; [now left|now right].
    + apply NoDup_incl_length; [apply NoDup_nodup|]. intros g Hg. apply nodup_In in Hg. apply run_keys. destruct Hg as [<-|Hg]; [now left|now right].
  - intros g Hg. pose proof (run_find obj l g) as F. cbv zeta in F. fold s acc in F.
    destruct (in_dec string_dec g _) as [i|n]; [|exfalso; apply n; destruct Hg as [->|Hg]; [now left|now right]].
    unfold sm_nInGroup, sm_namesIn, sm_names. rewrite F. split; [reflexivity|]. f_equal. apply map_ext. intros p. unfold s. now rewrite run_names.
  - intros g N1 N2. pose proof (run_find obj l g) as F. cbv zeta in F. fold s acc in F.
    destruct (in_dec string_dec g _) as [[<-|i]|n]; [congruence|contradiction|].
    unfold sm_nInGroup, sm_namesIn. rewrite F. split; reflexivity.
Qed.
