(** Proofs about the systematic manager (C27, C68). *)
From Verif Require Import Base.Res Base.Num Base.SMap Model.Axis Model.Event Model.Hist Model.Matrix Model.ED Model.SystMan
  Spec.SystManSpec.
From Verif Require Import Proofs.AxisP Proofs.HistP Proofs.InterpP.
Local Open Scope Qc_scope.

Lemma inb_In n l : inb n l = true <-> In n l.
Proof.
  unfold inb. rewrite existsb_exists. split.
  - intros (x & Hx & E). apply String.eqb_eq in E. now subst.
  - intros H. exists n. split; [exact H|apply String.eqb_refl].
Qed.

(** ** invariant over histories *)
Definition sm_inv (s : sman) : Prop :=
  swf (smGroups s) /\ shas EmptyString (smGroups s) = true /\
  (forall g, g <> EmptyString -> sfind g (smGroups s) <> Some []) /\
  (forall n gs g, sfind n (smDists s) = Some gs -> In g gs -> shas g (smGroups s) = true).

Lemma sm_new_inv obj : sm_inv (sm_new obj).
Proof.
  unfold sm_inv, sm_new. cbn [smGroups smDists]. split; [repeat constructor|]. split; [reflexivity|]. split.
  - intros g Hg. cbn [sfind]. destruct (String.eqb_spec g EmptyString); [contradiction|discriminate].
  - intros n gs g H. discriminate H.
Qed.

Lemma addGroup_inv s g p : sm_inv s -> sm_inv (sm_setGroups s (sset g (sm_grp s g ++ [p]) (smGroups s))).
Proof.
  intros (W & E & NE & D). unfold sm_inv, sm_setGroups. cbn [smGroups smDists].
  split; [now apply sset_wf|]. split; [|split].
  - unfold shas. rewrite sfind_sset. destruct (String.eqb EmptyString g); [reflexivity|]. exact E.
  - intros g' Hg'. rewrite sfind_sset. destruct (String.eqb_spec g' g) as [->|]; [|now apply NE].
    intros C. inversion C as [C1]. destruct (sm_grp s g); discriminate C1.
  - intros n gs g' Hf Hin. specialize (D n gs g' Hf Hin). unfold shas in *. rewrite sfind_sset.
    destruct (String.eqb g' g); [reflexivity|exact D].
Qed.

Lemma construct1_groups s p s' o : sm_construct1 s p = (s', o) ->
  smGroups s' = smGroups s /\ smDists s' = smDists s /\ smTotal s' = smTotal s /\ smNGroups s' = smNGroups s.
Proof. unfold sm_construct1, sm_setObj. intros H. inversion H; subst. cbn. auto. Qed.

Definition same_shape (s s' : sman) : Prop :=
  smGroups s' = smGroups s /\ smDists s' = smDists s /\ (forall q, syName (smObj s' q) = syName (smObj s q)) /\
  (forall q, syBuild (smObj s' q) = syBuild (smObj s q)).
Lemma same_refl s : same_shape s s.
Proof. repeat split. Qed.
Lemma same_trans a b c : same_shape a b -> same_shape b c -> same_shape a c.
Proof.
  intros (A1 & A2 & A3 & A4) (B1 & B2 & B3 & B4).
  split; [congruence|]. split; [congruence|]. split; intros q; [rewrite B3; apply A3|rewrite B4; apply A4].
Qed.
Lemma iterS_same {A} (f : sman -> A -> sman * res unit) (l : list A) : forall s,
  (forall s x, same_shape s (fst (f s x))) -> same_shape s (fst (iterS f l s)).
Proof.
  induction l as [|x t IH]; intros s Hf; cbn [iterS]; [apply same_refl|].
  pose proof (Hf s x) as Hx. destruct (f s x) as [s1 [u|e| | |]]; cbn [fst] in *; try exact Hx.
  eapply same_trans; [exact Hx|apply IH; exact Hf].
Qed.
Lemma construct1_same s p : same_shape s (fst (sm_construct1 s p)).
Proof.
  unfold sm_construct1, same_shape, sm_setObj. cbn. repeat split; intros q; destruct (Nat.eqb_spec q p) as [->|]; reflexivity.
Qed.
Lemma construct_same s : same_shape s (fst (sm_construct s)).
Proof.
  unfold sm_construct. destruct (Nat.eqb (sm_count s) 0); [apply same_refl|].
  pose proof (iterS_same (fun s1 (kv : string * list nat) => iterS sm_construct1 (snd kv) s1) (smGroups s) s
                (fun s x => iterS_same sm_construct1 (snd x) s construct1_same)) as H1.
  destruct (iterS _ (smGroups s) s) as [s1 [u|e| | |]]; cbn [fst] in *; try exact H1.
  eapply same_trans; [exact H1|]. apply iterS_same. clear. intros s [g l]. cbn [fst snd].
  destruct (String.eqb g EmptyString && Nat.eqb (List.length l) 0); [apply same_refl|].
  unfold obind. destruct (sm_groupResp s l); cbn [fst]; try apply same_refl. repeat split.
Qed.
Lemma same_inv s s' : same_shape s s' -> sm_inv s -> sm_inv s'.
Proof. intros (A & B & _) H. unfold sm_inv. rewrite A, B. exact H. Qed.

Lemma mono_has s g g' l : shas g (smGroups s) = true -> shas g (sset g' l (smGroups s)) = true.
Proof. unfold shas. rewrite sfind_sset. destruct (String.eqb g g'); auto. Qed.

Lemma unique_known s gs : sm_unique s gs = Ok tt -> forall g, In g gs -> shas g (smGroups s) = true.
Proof.
  unfold sm_unique. intros H.
  match type of H with bind ?X _ = _ => destruct X as [seen|e| | |] eqn:E; try discriminate H end. clear H.
  assert (forall il sn sn', foldM (fun sn (ig : nat * string) =>
             match sfind (snd ig) (smGroups s) with None => Throw NotFoundError | Some g => sm_seeGroup s g (fst ig) sn end) il sn = Ok sn' ->
           forall g, In g (map snd il) -> shas g (smGroups s) = true) as K.
  { induction il as [|[i g] t IH]; intros sn sn' Hf g0 Hin; [destruct Hin|]. cbn [foldM map snd fst] in Hf, Hin.
    destruct (sfind g (smGroups s)) as [l|] eqn:Eg; [|discriminate Hf].
    destruct (sm_seeGroup s l i sn) as [sn1|e| | |] eqn:E1; try discriminate Hf.
    destruct Hin as [<-|Hin]; [unfold shas; now rewrite Eg|]. eapply IH; [exact Hf|exact Hin]. }
  intros g Hg. eapply K; [exact E|].
  replace (map snd (combine (seq 0 (List.length gs)) gs)) with gs; [exact Hg|].
  clear. generalize 0%nat. induction gs as [|x t IH]; intros k; cbn; [reflexivity|]. f_equal. apply IH.
Qed.

Lemma call_inv s o : sm_inv s -> sm_inv (fst (smcall s o)).
Proof.
  intros H. destruct o as [p g|n gs|p b|]; cbn [smcall].
  - unfold sm_add, sm_addGlobal. destruct (String.eqb_spec g EmptyString) as [->|].
    + unfold obind. destruct (sm_checkOthers s p); cbn [fst]; try exact H. now apply addGroup_inv.
    + cbn [fst]. now apply addGroup_inv.
  - unfold sm_addDist, obind. destruct (sm_unique s gs) as [[]|e| | |] eqn:E; cbn [fst]; try exact H.
    destruct H as (W & A & NE & D). unfold sm_inv; cbn [smGroups smDists]. split; [exact W|]. split; [exact A|]. split; [exact NE|].
    intros n' gs' g. rewrite sfind_sset. destruct (String.eqb n' n); [|apply D].
    intros E1 Hin. injection E1 as E1. subst gs'. eapply unique_known; eassumption.
  - cbn [fst]. exact H.
  - eapply same_inv; [apply construct_same|exact H].
Qed.
Lemma run_inv l : forall s, sm_inv s -> sm_inv (smrun s l).
Proof. induction l as [|o t IH]; intros s H; cbn [smrun]; [exact H|]. apply IH, call_inv, H. Qed.

(** ** the groups and registrations are those of the accepted calls *)
Definition regd_from (a : option (list string)) n (l : list smop) :=
  fold_left (fun a o => match o with AddDist n' gs => if String.eqb n n' then Some gs else a | _ => a end) l a.

Lemma call_grp s o g : sm_grp (fst (smcall s o)) g =
  sm_grp s g ++ added g (match snd (smcall s o) with Ok _ => [o] | _ => [] end).
Proof.
  destruct o as [p g'|n gs|p b|]; cbn [smcall].
  - assert (sm_grp (sm_setGroups s (sset g' (sm_grp s g' ++ [p]) (smGroups s))) g = sm_grp s g ++ (if String.eqb g g' then [p] else [])) as K.
    { unfold sm_grp at 1. cbn [smGroups sm_setGroups]. rewrite sfind_sset. destruct (String.eqb_spec g g') as [->|]; [reflexivity|].
      rewrite app_nil_r. reflexivity. }
    unfold sm_add, sm_addGlobal. destruct (String.eqb_spec g' EmptyString) as [->|].
    + unfold obind. destruct (sm_checkOthers s p); cbn [fst snd added flat_map]; rewrite ?app_nil_r; try reflexivity. exact K.
    + cbn [fst snd added flat_map]. rewrite app_nil_r. exact K.
  - unfold sm_addDist, obind. destruct (sm_unique s gs); cbn [fst snd added flat_map]; rewrite app_nil_r; reflexivity.
  - cbn. rewrite app_nil_r. reflexivity.
  - pose proof (construct_same s) as (A & _). unfold sm_grp at 1. rewrite A.
    destruct (snd (sm_construct s)); cbn; rewrite app_nil_r; reflexivity.
Qed.
Lemma added_app g a b : added g (a ++ b) = added g a ++ added g b.
Proof. unfold added. apply flat_map_app. Qed.
Lemma run_grp l : forall s g, sm_grp (smrun s l) g = sm_grp s g ++ added g (accepted s l).
Proof.
  induction l as [|o t IH]; intros s g; cbn [smrun accepted]; [now rewrite app_nil_r|].
  rewrite IH, call_grp, added_app, app_assoc. reflexivity.
Qed.
Lemma call_dists s o n : sfind n (smDists (fst (smcall s o))) =
  regd_from (sfind n (smDists s)) n (match snd (smcall s o) with Ok _ => [o] | _ => [] end).
Proof.
  destruct o as [p g'|m gs|p b|]; cbn [smcall].
  - unfold sm_add, sm_addGlobal. destruct (String.eqb g' EmptyString).
    + unfold obind. destruct (sm_checkOthers s p); reflexivity.
    + reflexivity.
  - unfold sm_addDist, obind. destruct (sm_unique s gs); cbn [fst snd smDists regd_from fold_left]; try reflexivity. apply sfind_sset.
  - reflexivity.
  - pose proof (construct_same s) as (_ & B & _). rewrite B. destruct (snd (sm_construct s)); reflexivity.
Qed.
Lemma regd_from_app a n x y : regd_from a n (x ++ y) = regd_from (regd_from a n x) n y.
Proof. unfold regd_from. apply fold_left_app. Qed.
Lemma run_dists l : forall s n, sfind n (smDists (smrun s l)) = regd_from (sfind n (smDists s)) n (accepted s l).
Proof.
  induction l as [|o t IH]; intros s n; cbn [smrun accepted]; [reflexivity|].
  rewrite IH, call_dists, regd_from_app. reflexivity.
Qed.

Lemma history_pkg : forall obj l,
  let s := smrun (sm_new obj) l in let acc := accepted (sm_new obj) l in
  (forall g, sm_grp s g = added g acc) /\ (forall n, sfind n (smDists s) = regd n acc).
Proof.
  intros obj l s acc. split.
  - intros g. unfold s, acc. rewrite run_grp. unfold sm_grp at 1, sm_new at 1. cbn [smGroups sfind].
    destruct (String.eqb g EmptyString); reflexivity.
  - intros n. unfold s, acc. rewrite run_dists. reflexivity.
Qed.

(** ** Construct *)
Lemma iter_construct1 l : forall s s', iterS sm_construct1 l s = (s', Ok tt) ->
  smTotal s' = smTotal s /\
  (forall q, In q l -> smObj s' q = mkSyst (syName (smObj s q)) (fst (syBuild (smObj s q))) (syBuild (smObj s q))) /\
  (forall q, ~ In q l -> smObj s' q = smObj s q).
Proof.
  induction l as [|p t IH]; intros s s' H; cbn [iterS] in H.
  - inversion H; subst. split; [reflexivity|]. split; [intros q []|reflexivity].
  - destruct (sm_construct1 s p) as [s1 o] eqn:E. destruct o as [u|e| | |]; try discriminate H.
    destruct (IH _ _ H) as (T & I1 & I2). clear IH H.
    unfold sm_construct1 in E. inversion E; subst s1; clear E. cbn [smTotal sm_setObj smObj] in *.
    split; [exact T|]. split.
    + intros q [<-|Hq].
      * destruct (in_dec Nat.eq_dec p t) as [Hin|Hn].
        -- rewrite (I1 _ Hin), Nat.eqb_refl. reflexivity.
        -- rewrite (I2 _ Hn), Nat.eqb_refl. reflexivity.
      * rewrite (I1 _ Hq). destruct (Nat.eqb_spec q p) as [->|]; reflexivity.
    + intros q Hq. rewrite I2; [|intros C; apply Hq; now right].
      destruct (Nat.eqb_spec q p) as [->|]; [exfalso; apply Hq; now left|reflexivity].
Qed.
Lemma iterS_app {A S} (f : S -> A -> S * res unit) (l1 l2 : list A) : forall s,
  iterS f (l1 ++ l2) s = match iterS f l1 s with (s', Ok _) => iterS f l2 s' | r => r end.
Proof.
  induction l1 as [|x t IH]; intros s; cbn [iterS app]; [reflexivity|].
  destruct (f s x) as [s1 [u|e| | |]]; auto.
Qed.
Lemma iterS_ok_tt {A S} (f : S -> A -> S * res unit) (l : list A) : forall s s' u, iterS f l s = (s', Ok u) -> u = tt.
Proof. intros s s' []; reflexivity. Qed.
Lemma iter_nested gs : forall s,
  iterS (fun s1 (kv : string * list nat) => iterS sm_construct1 (snd kv) s1) gs s = iterS sm_construct1 (flat_map snd gs) s.
Proof.
  induction gs as [|[g l] t IH]; intros s; cbn [iterS flat_map snd]; [reflexivity|].
  rewrite iterS_app. destruct (iterS sm_construct1 l s) as [s1 [u|e| | |]]; auto.
Qed.

Definition stepT (s2 : sman) (kv : string * list nat) : sman * res unit :=
  if String.eqb (fst kv) EmptyString && Nat.eqb (List.length (snd kv)) 0 then (s2, Ok tt)
  else obind s2 (sm_groupResp s2 (snd kv)) (fun m => (sm_setTotal s2 (fst kv) m, Ok tt)).
Lemma groupResp_obj s s' l : smObj s' = smObj s -> sm_groupResp s' l = sm_groupResp s l.
Proof. intros E. unfold sm_groupResp. now rewrite E. Qed.
Lemma iter_totals l : forall s s', NoDup (map fst l) -> iterS stepT l s = (s', Ok tt) ->
  smObj s' = smObj s /\
  (forall g ps, In (g, ps) l -> ps <> [] -> exists m, sfind g (smTotal s') = Some m /\ sm_groupResp s ps = Ok m) /\
  (forall g, ~ In g (map fst l) -> sfind g (smTotal s') = sfind g (smTotal s)).
Proof.
  induction l as [|[g ps] t IH]; intros s s' ND H; cbn [iterS] in H.
  - inversion H; subst. split; [reflexivity|]. split; [intros ? ? []|reflexivity].
  - cbn [map fst] in ND. inversion ND as [|? ? Hn ND']; subst.
    destruct (stepT s (g, ps)) as [s1 o] eqn:E. destruct o as [u|e| | |]; try discriminate H.
    destruct (IH _ _ ND' H) as (O & I1 & I2). clear IH H. unfold stepT in E. cbn [fst snd] in E.
    destruct (String.eqb g EmptyString && Nat.eqb (List.length ps) 0) eqn:Eb.
    + inversion E; subst s1; clear E. split; [exact O|]. split.
      * intros g' ps' [Hin|Hin] Hne; [|now apply I1].
        injection Hin as <- <-. apply andb_true_iff in Eb as [_ Eb]. apply Nat.eqb_eq in Eb. destruct ps; [congruence|discriminate].
      * intros g' Hg'. apply I2. intros C. apply Hg'. now right.
    + destruct (sm_groupResp s ps) as [m|e| | |] eqn:Er; cbn [obind] in E; inversion E; subst s1; clear E.
      cbn [smObj sm_setTotal smTotal] in *. split; [exact O|]. split.
      * intros g' ps' [Hin|Hin] Hne.
        -- injection Hin as <- <-. exists m. split; [|exact Er]. rewrite I2 by exact Hn. apply sfind_sset_eq.
        -- destruct (I1 _ _ Hin Hne) as (m' & F & R). exists m'. split; [exact F|].
           etransitivity; [|exact R]. apply groupResp_obj. reflexivity.
      * intros g' Hg'. rewrite I2 by (intros C; apply Hg'; now right). apply sfind_sset_neq.
        intros ->. apply Hg'. now left.
Qed.

Lemma construct_spec s s' : sm_inv s -> sm_construct s = (s', Ok tt) ->
  (forall q, syBuild (smObj s' q) = syBuild (smObj s q)) /\ smGroups s' = smGroups s /\ smDists s' = smDists s /\
  (forall g q, In q (sm_grp s g) -> syResp (smObj s' q) = fst (syBuild (smObj s q))) /\
  (forall g, sm_grp s g <> [] -> exists m, sfind g (smTotal s') = Some m /\ sm_groupResp s' (sm_grp s g) = Ok m).
Proof.
  intros Inv H. pose proof (construct_same s) as (S1 & S2 & S3 & S4). rewrite H in S1, S2, S3, S4. cbn [fst] in *.
  split; [exact S4|]. split; [exact S1|]. split; [exact S2|].
  destruct Inv as (W & Ein & NE & D).
  assert (forall g q, In q (sm_grp s g) -> In q (flat_map snd (smGroups s))) as K.
  { intros g q Hq. unfold sm_grp in Hq. destruct (sfind g (smGroups s)) as [l|] eqn:Eg; [|destruct Hq].
    apply in_flat_map. exists (g, l). split; [apply sfind_In; assumption|exact Hq]. }
  unfold sm_construct in H. destruct (Nat.eqb_spec (sm_count s) 0) as [E0|E0].
  - assert (forall g, sm_grp s g = []) as Z.
    { intros g. destruct (sm_grp s g) as [|q t] eqn:Eg; [reflexivity|]. exfalso.
      assert (In q (flat_map snd (smGroups s))) as Hin by (apply (K g); rewrite Eg; now left).
      apply in_flat_map in Hin as (kv & Hkv & Hq). unfold sm_count in E0.
      assert (forall l, list_sum l = 0%nat -> forall x, In x l -> x = 0%nat) as LS.
      { induction l as [|y l IHl]; intros HE x Hx; [destruct Hx|]. change (y + list_sum l = 0)%nat in HE. destruct Hx as [->|Hx]; [lia|apply IHl; [lia|exact Hx]]. }
      assert (List.length (snd kv) = 0%nat) as L.
      { eapply LS; [exact E0|]. apply in_map_iff. exists kv. auto. }
      destruct (snd kv); [destruct Hq|discriminate L]. }
    split; [intros g q Hq; rewrite Z in Hq; destruct Hq|intros g Hg; rewrite Z in Hg; congruence].
  - rewrite iter_nested in H.
    destruct (iterS sm_construct1 (flat_map snd (smGroups s)) s) as [s1 o] eqn:E1.
    destruct o as [[]|e| | |]; try discriminate H.
    destruct (iter_construct1 _ _ _ E1) as (T1 & O1 & O2).
    fold stepT in H. change (iterS stepT (smGroups s) s1 = (s', Ok tt)) in H.
    destruct (iter_totals _ _ _ (swf_nodup _ W) H) as (O3 & I1 & _).
    split.
    + intros g q Hq. rewrite O3, (O1 _ (K _ _ Hq)). reflexivity.
    + intros g Hg. unfold sm_grp in Hg |- *. destruct (sfind g (smGroups s)) as [l|] eqn:Eg; [|congruence].
      apply sfind_In in Eg; [|exact W]. destruct (I1 _ _ Eg Hg) as (m & F & R). exists m. split; [exact F|].
      etransitivity; [|exact R]. apply groupResp_obj. exact O3.
Qed.
