From Coq Require Import ZArith Sorted.
From Verif Require Import Base.Res Base.Num Base.SMap Model.Axis Model.Hist Model.Rand Model.Grid Spec.GridSpec Proofs.GenP Proofs.GenP8 Proofs.GridP.
From Coq Require Import Lia.
Local Open Scope nat_scope.

Definition mp (h : gax -> Qc) (A : list gax) : smap Qc := map (fun a => (gk a, h a)) A.
Lemma mp_keys h A : skeys (mp h A) = map gk A.
Proof. unfold mp, skeys. rewrite map_map. reflexivity. Qed.
(** dictionaries with the same keys, seen as axes *)
Fixpoint axes_of (mn mx st : smap Qc) : list gax :=
  match mn, mx, st with (k, a) :: mn', (_, b) :: mx', (_, s) :: st' => mkGax k a b s :: axes_of mn' mx' st' | _, _, _ => [] end.
Lemma axes_of_spec mn : forall mx st, skeys mx = skeys mn -> skeys st = skeys mn -> mn = mp gmn (axes_of mn mx st) /\ mx = mp gmx (axes_of mn mx st) /\ st = mp gst (axes_of mn mx st).
Proof.
  induction mn as [|[k a] mn IH]; intros [|[k1 b] mx] [|[k2 s] st] E1 E2; cbn in *; try discriminate; [auto|].
  injection E1 as -> E1. injection E2 as -> E2. destruct (IH mx st E1 E2) as [A [B C]]. cbn. unfold mp in *. cbn. rewrite <- A, <- B, <- C. auto.
Qed.
(** a sorted map split at a key *)
Lemma sset_mid {V} (pre post : smap V) k x v : swf (pre ++ (k, x) :: post) -> sset k v (pre ++ (k, x) :: post) = pre ++ (k, v) :: post.
Proof.
  unfold swf. induction pre as [|[k' y] pre IH]; cbn [app sset skeys map fst]; intros H.
  - destruct (String.compare k k) eqn:E; [reflexivity|exfalso; exact (slt_irrefl _ E)|exfalso; apply compare_gt in E; exact (slt_irrefl _ E)].
  - inversion H as [|? ? Hs Hf]; subst. rewrite Forall_forall in Hf. assert (L : slt k' k) by (apply Hf; unfold skeys; rewrite map_app; apply in_app_iff; right; left; reflexivity).
    apply compare_gt in L. rewrite L. rewrite IH by exact Hs. reflexivity.
Qed.
Lemma sfind_mid {V} (pre post : smap V) k x : NoDup (skeys (pre ++ (k, x) :: post)) -> sfind k (pre ++ (k, x) :: post) = Some x.
Proof.
  induction pre as [|[k' y] pre IH]; cbn [app sfind skeys map fst]; intros H; [rewrite String.eqb_refl; reflexivity|].
  inversion H as [|? ? Hn Hd]; subst. destruct (String.eqb_spec k k') as [->|]; [|apply IH; exact Hd]. exfalso. apply Hn. rewrite map_app. apply in_app_iff. right. left. reflexivity.
Qed.
Lemma sfind_mp h A a : NoDup (map gk A) -> In a A -> sfind (gk a) (mp h A) = Some (h a).
Proof.
  intros N H. apply in_split in H. destruct H as [l1 [l2 ->]]. unfold mp. rewrite map_app. cbn [map]. apply sfind_mid.
  rewrite <- (mp_keys h) in N. unfold mp in N. rewrite map_app in N. exact N.
Qed.
Definition zipd (A : list gax) (xs : list Qc) : smap Qc := combine (map gk A) xs.
Lemma zipd_keys A xs : List.length xs = List.length A -> skeys (zipd A xs) = map gk A.
Proof. revert xs. induction A as [|a A IH]; intros [|x xs] H; cbn in *; try discriminate; [reflexivity|]. f_equal. apply IH. lia. Qed.
Lemma zipd_mp h A : zipd A (map h A) = mp h A.
Proof. unfold zipd, mp. induction A; cbn; congruence. Qed.
Lemma zipd_inj A xs ys : List.length xs = List.length A -> List.length ys = List.length A -> zipd A xs = zipd A ys -> xs = ys.
Proof. revert xs ys. induction A as [|a A IH]; intros [|x xs] [|y ys] H1 H2 E; cbn in *; try discriminate; [reflexivity|]. injection E as -> E. f_equal. apply IH; (lia || exact E). Qed.
Lemma zipd_all A p : skeys p = map gk A -> exists xs, List.length xs = List.length A /\ p = zipd A xs.
Proof.
  intros H. exists (map snd p). split; [rewrite map_length; rewrite <- (map_length fst p); unfold skeys in H; rewrite H, map_length; reflexivity|].
  unfold zipd. rewrite <- H. unfold skeys. clear H. induction p as [|[k x] p IH]; cbn; congruence.
Qed.

Lemma inc_len : forall A1 xs ys, List.length xs = List.length A1 -> inc A1 xs = Some ys -> List.length ys = List.length A1.
Proof.
  induction A1 as [|a A1 IH]; intros [|x xs] ys L E; cbn in *; try discriminate. destruct (qltb _ _).
  - destruct (inc A1 xs) as [zs|] eqn:Ei; [|discriminate]. cbn in E. injection E as <-. cbn. f_equal. eapply IH; [|exact Ei]. lia.
  - injection E as <-. cbn. lia.
Qed.

Section LINK.
Context (A : list gax) (b : bool).
Definition gr : grid := mkGrid (mp gmn A) (mp gmx A) (mp gst A) b.
Context (Hs : StronglySorted slt (map gk A)) (Hne : dict_eqb (mp gmn A) (mp gmx A) = false).
Lemma keys_nodup : NoDup (map gk A).
Proof. rewrite <- (mp_keys gmn). apply swf_nodup. unfold swf. rewrite mp_keys. exact Hs. Qed.
(** [done] axes already wrapped; [A1] the axes still to be tried, [A2] the rest; [stop]: the last axis of A1 is the last level *)
Lemma gInc_inc (stop : bool) A2 : (stop = false -> A2 = []) -> forall A1 done xs0 xs1 xs2 it last, A = done ++ A1 ++ A2 -> A1 <> [] \/ stop = false ->
  List.length xs0 = List.length done -> List.length xs1 = List.length A1 -> List.length xs2 = List.length A2 ->
  (forall i, i < List.length A1 -> ((it + Z.of_nat i = last - Z.of_nat i)%Z <-> S i = List.length A1 /\ stop = true)) ->
  match inc A1 xs1 with
  | Some ys => gInc gr (map gk (A1 ++ A2)) it last (zipd done xs0 ++ zipd A1 xs1 ++ zipd A2 xs2) = Ok (true, zipd done xs0 ++ zipd A1 ys ++ zipd A2 xs2)
  | None => if stop then exists m, gInc gr (map gk (A1 ++ A2)) it last (zipd done xs0 ++ zipd A1 xs1 ++ zipd A2 xs2) = Ok (false, m)
            else gInc gr (map gk (A1 ++ A2)) it last (zipd done xs0 ++ zipd A1 xs1 ++ zipd A2 xs2) = UB
  end.
Proof.
  intros Hst. induction A1 as [|a A1 IH]; intros done xs0 xs1 xs2 it last EA Hn L0 L1 L2 HI.
  - destruct xs1; [|discriminate]. cbn [inc]. destruct Hn as [Hn|Hn]; [congruence|]. rewrite Hn. rewrite (Hst Hn). reflexivity.
  - destruct xs1 as [|x xs1]; [discriminate|]. cbn [inc]. cbn [List.length] in L1. injection L1 as L1.
    assert (Ha : In a A) by (rewrite EA; apply in_app_iff; right; left; reflexivity).
    cbn [app map gInc grMin grMax gr]. rewrite Hne. unfold sat. rewrite !(sfind_mp _ A a keys_nodup Ha). cbn [bind grStep grMax grMin gr]. rewrite !(sfind_mp _ A a keys_nodup Ha). cbn [bind].
    assert (K : skeys (zipd done xs0 ++ (gk a, x) :: zipd A1 xs1 ++ zipd A2 xs2) = map gk A).
    { unfold skeys. rewrite map_app. cbn [map]. rewrite map_app. fold (skeys (zipd done xs0)) (skeys (zipd A1 xs1)) (skeys (zipd A2 xs2)). rewrite !zipd_keys by assumption. rewrite EA, map_app. cbn [map app]. rewrite map_app. reflexivity. }
    assert (W : swf (zipd done xs0 ++ (gk a, x) :: zipd A1 xs1 ++ zipd A2 xs2)) by (unfold swf; rewrite K; exact Hs).
    replace (zipd (a :: A1) (x :: xs1) ++ zipd A2 xs2) with ((gk a, x) :: zipd A1 xs1 ++ zipd A2 xs2) by reflexivity.
    rewrite sfind_mid by (rewrite K; exact keys_nodup). rewrite !sset_mid by exact W.
    destruct (qltb (gmx a) (x + gst a)) eqn:E.
    + destruct (Z.eqb_spec it last) as [Ei|Ei].
      * assert (S 0 = List.length (a :: A1) /\ stop = true) as [E1 E2] by (apply HI; cbn; lia). destruct A1; [|discriminate]. destruct xs1; [|discriminate]. cbn [inc option_map]. rewrite E2. eauto.
      * assert (Hn1 : A1 <> [] \/ stop = false).
        { destruct stop; [|right; reflexivity]. left. intros ->. apply Ei. specialize (HI 0). cbn in HI. rewrite Z.add_0_r, Z.sub_0_r in HI. apply HI; [lia|auto]. }
        specialize (IH (done ++ [a]) (xs0 ++ [gmn a]) xs1 xs2 (it + 1)%Z (last - 1)%Z).
        assert (Z1 : zipd (done ++ [a]) (xs0 ++ [gmn a]) = zipd done xs0 ++ [(gk a, gmn a)]).
        { clear -L0. revert xs0 L0. induction done as [|d done IHd]; intros [|y xs0] L; cbn in *; try discriminate; [reflexivity|]. f_equal. apply IHd. lia. }
        rewrite Z1 in IH. rewrite <- app_assoc in IH. cbn [app] in IH. rewrite <- app_assoc in IH.
        assert (HI2 : forall i, i < List.length A1 -> ((it + 1 + Z.of_nat i = last - 1 - Z.of_nat i)%Z <-> S i = List.length A1 /\ stop = true)).
        { intros i Hi. specialize (HI (S i)). cbn [List.length] in HI. rewrite <- Nat.succ_lt_mono in HI. specialize (HI Hi). split.
          - intros Hx. destruct (proj1 HI ltac:(lia)) as [U V]. split; [lia|exact V].
          - intros [U V]. assert (T : (it + Z.of_nat (S i) = last - Z.of_nat (S i))%Z) by (apply HI; split; [lia|exact V]). lia. }
        specialize (IH EA Hn1 ltac:(rewrite !app_length, L0; reflexivity) L1 L2 HI2). destruct (inc A1 xs1) as [ys|]; cbn [option_map].
        -- rewrite <- app_assoc in IH. cbn [app] in IH. exact IH.
        -- exact IH.
    + reflexivity.
Qed.

(** runs of the odometer become runs of the loop *)
Context (stop : bool) (A1 A2 : list gax) (EA : A = A1 ++ A2) (Hst : stop = false -> A2 = []) (Hn : A1 <> [] \/ stop = false).
Context (HI : forall i, i < List.length A1 -> ((Z.of_nat i = Z.of_nat (List.length A) - Z.of_nat i)%Z <-> S i = List.length A1 /\ stop = true)).
Context (f : smap Qc -> res Qc) (fe : smap Qc -> Qc).
Definition point (xs : list Qc) : smap Qc := zipd A1 xs ++ mp gmn A2.
Lemma inc_step xs : List.length xs = List.length A1 -> match inc A1 xs with
  | Some ys => gInc gr (map gk A) 0 (Z.of_nat (List.length A)) (point xs) = Ok (true, point ys)
  | None => if stop then exists m, gInc gr (map gk A) 0 (Z.of_nat (List.length A)) (point xs) = Ok (false, m) else gInc gr (map gk A) 0 (Z.of_nat (List.length A)) (point xs) = UB
  end.
Proof.
  intros L. pose proof (gInc_inc stop A2 Hst A1 [] [] xs (map gmn A2) 0 (Z.of_nat (List.length A)) EA Hn eq_refl L (map_length _ _) HI) as H. cbn [zipd map combine app] in H.
  rewrite zipd_mp in H. unfold point. rewrite EA in *. exact H.
Qed.
Definition better (r : gres) (p : smap Qc) : gres :=
  let v := if b then (fe p * - (1))%Qc else fe p in
  if qltb v (grVal r) || qeqb (grVal r) 0 then mkGres p v (grSeen r ++ [p]) else mkGres (grBest r) (grVal r) (grSeen r ++ [p]).
Lemma loop_runs xs l : runs (inc A1) xs l -> List.length xs = List.length A1 -> (forall ys, In ys l -> f (point ys) = Ok (fe (point ys))) ->
  forall r fuel, List.length l < fuel -> gLoop gr f fuel (point xs) r = if stop then Ok (fold_left better (map point l) r) else UB.
Proof.
  assert (G : skeys (grStep gr) = map gk A) by apply mp_keys. assert (GL : List.length (grStep gr) = List.length A) by apply map_length.
  induction 1 as [xs E|xs y l E R IH]; intros L F r fuel Hf; (destruct fuel as [|fuel]; [cbn in Hf; lia|]); cbn [gLoop]; rewrite G, GL; pose proof (inc_step xs L) as S1; rewrite E in S1.
  - destruct stop; [destruct S1 as [m ->]; reflexivity|rewrite S1; reflexivity].
  - rewrite S1. cbn [bind fst snd]. rewrite (F y (or_introl eq_refl)). cbn [bind]. cbn [List.length] in Hf. rewrite IH; [reflexivity|eapply inc_len; eassumption|intros ys Hy; apply F; right; exact Hy|lia].
Qed.
End LINK.

