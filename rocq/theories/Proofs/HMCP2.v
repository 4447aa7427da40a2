(** C48: the first wall reached. *)
From Coq Require Import ZArith.
From Verif Require Import Base.Res Base.Num Base.SMap Model.Hist Model.MCMC Model.HMC Spec.HMCSpec Proofs.MCMCP3 Proofs.HMCP.
From Coq Require Import Lia.
Local Open Scope Qc_scope.
Local Open Scope res_scope.

Lemma sat_val k (m : smap Qc) : In k (skeys m) -> sat k m = Ok (val k m).
Proof. intros H. apply sfind_in in H. destruct H as [v Hv]. unfold sat, val. rewrite Hv. reflexivity. Qed.

Definition good (M mi ma q p : smap Qc) (k : string) : Prop :=
  In k (skeys p) /\ (exists m, sfind k M = Some m /\ m <> 0) /\ In k (skeys mi) /\ In k (skeys ma) /\
  val k mi <= val k q /\ val k q <= val k ma /\
  (0 < vel M p k -> val k q < val k ma) /\ (vel M p k < 0 -> val k mi < val k q).

(** time to reach a wall *)
Lemma hit_pos a v : 0 < a -> 0 < v -> 0 < a / v /\ a / v * v = a.
Proof.
  intros Ha Hv. assert (E : a / v * v = a) by (field; intros C; subst; exact (Qclt_not_eq _ _ Hv eq_refl)). split; [|exact E].
  set (t := a / v) in *. clearbody t. destruct (Qclt_le_dec 0 t) as [H|H]; [exact H|]. exfalso. subst a. qnra.
Qed.
Lemma hit_neg a v : a <= 0 -> 0 < v -> a / v <= 0.
Proof.
  intros Ha Hv. assert (E : a / v * v = a) by (field; intros C; subst; exact (Qclt_not_eq _ _ Hv eq_refl)).
  set (t := a / v) in *. clearbody t. destruct (Qclt_le_dec 0 t) as [H|H]; [|exact H]. exfalso. subst a. qnra.
Qed.
Lemma div_opp a v : v <> 0 -> a / v = (- a) / (- v).
Proof. intros H. assert (- v <> 0) by (intros C; apply H; rewrite <- (Qcopp_involutive v), C; ring). field. auto. Qed.

Lemma hit1_ok M mi ma q p rem best k q0 : 0 <= rem -> good M mi ma q p k -> val k q = q0 ->
  let v := vel M p k in let lo := val k mi in let hi := val k ma in
  (lo <= q0 + rem * v /\ q0 + rem * v <= hi /\ hit1 p M mi ma rem best (k, q0) = Ok best) \/
  (v <> 0 /\ exists t, 0 < t /\ t < rem /\ (0 < v -> q0 + t * v = hi) /\ (v < 0 -> q0 + t * v = lo) /\
    hit1 p M mi ma rem best (k, q0) = Ok (if qeqb (snd best) (- (1)) || qltb t (snd best) then (k, t) else best)).
Proof.
  intros Hr [Gp [[m [Gm Gz]] [Gi [Ga [B1 [B2 [B3 B4]]]]]]] Eq v lo hi. fold lo in B1, B4. fold hi in B2, B3. fold v in B3, B4. rewrite Eq in *.
  assert (H1 : hit1 p M mi ma rem best (k, q0) =
    match (if crossed (hitTime lo q0 v) rem (qltb lo q0) then hitTime lo q0 v else if crossed (hitTime hi q0 v) rem (qltb q0 hi) then hitTime hi q0 v else None) with
    | None => Ok best
    | Some time => if qeqb (snd best) (- (1)) || qltb time (snd best) then Ok (k, time) else Ok best end).
  { unfold hit1. rewrite (sat_val k p Gp). unfold sat at 1. rewrite Gm. cbn [bind]. unfold qdiv.
    destruct (qeqb m 0) eqn:Ez; [apply qeqb_eq in Ez; contradiction|]. cbn [bind]. rewrite (sat_val k mi Gi), (sat_val k ma Ga). cbn [bind].
    unfold v, vel. rewrite (val_find _ _ _ Gm). reflexivity. }
  rewrite H1. clear H1. clearbody v lo hi. clear Gp Gm Gz Gi Ga Eq.
  destruct (Qc_dec v 0) as [[Hv|Hv]|Hv].
  - (* v < 0 *)
    assert (Nv : v <> 0) by (intros C; subst; exact (Qclt_not_eq _ _ Hv eq_refl)).
    assert (Pv : 0 < - v) by qlra. specialize (B4 Hv).
    assert (Ez : qeqb v 0 = false) by (destruct (qeqb v 0) eqn:E; [apply qeqb_eq in E; contradiction|reflexivity]).
    unfold hitTime. rewrite Ez. cbn [crossed]. rewrite (div_opp (lo - q0) v Nv), (div_opp (hi - q0) v Nv).
    destruct (hit_pos (- (lo - q0)) (- v)) as [T1 T2]; [qlra|exact Pv|].
    assert (T3 : - (hi - q0) / - v <= 0) by (apply hit_neg; [qlra|exact Pv]).
    set (t := - (lo - q0) / - v) in *. set (t' := - (hi - q0) / - v) in *. clearbody t t'.
    assert (T4 : t * v = lo - q0) by (transitivity (- (t * - v)); [ring|rewrite T2; ring]).
    rewrite (proj2 (qltb_lt 0 t) T1), (proj2 (qltb_lt lo q0) B4), (proj2 (qltb_ge 0 t') T3). cbn [andb].
    destruct (qltb t rem) eqn:Et; cbn [andb].
    + right. split; [exact Nv|]. exists t. apply qltb_lt in Et. split; [exact T1|]. split; [exact Et|]. split; [intros; exfalso; qlra|].
      split; [intros _; rewrite T4; ring|]. destruct (_ || _); reflexivity.
    + left. apply qltb_ge in Et. split; [|split; [|reflexivity]].
      * assert (t * v <= rem * v) by qnra. rewrite T4 in *. set (rv := rem * v) in *. clearbody rv. qlra.
      * assert (rem * v <= 0) by qnra. set (rv := rem * v) in *. clearbody rv. qlra.
  - (* 0 < v *)
    assert (Nv : v <> 0) by (intros C; subst; exact (Qclt_not_eq _ _ Hv eq_refl)). specialize (B3 Hv).
    assert (Ez : qeqb v 0 = false) by (destruct (qeqb v 0) eqn:E; [apply qeqb_eq in E; contradiction|reflexivity]).
    unfold hitTime. rewrite Ez. cbn [crossed].
    destruct (hit_pos (hi - q0) v) as [T1 T2]; [qlra|exact Hv|].
    assert (T3 : (lo - q0) / v <= 0) by (apply hit_neg; [qlra|exact Hv]).
    set (t := (hi - q0) / v) in *. set (t' := (lo - q0) / v) in *. clearbody t t'.
    rewrite (proj2 (qltb_lt 0 t) T1), (proj2 (qltb_lt q0 hi) B3), (proj2 (qltb_ge 0 t') T3). cbn [andb].
    destruct (qltb t rem) eqn:Et; cbn [andb].
    + right. split; [exact Nv|]. exists t. apply qltb_lt in Et. split; [exact T1|]. split; [exact Et|]. split; [intros _; rewrite T2; ring|].
      split; [intros; exfalso; qlra|]. destruct (_ || _); reflexivity.
    + left. apply qltb_ge in Et. split; [|split; [|reflexivity]].
      * assert (0 <= rem * v) by qnra. set (rv := rem * v) in *. clearbody rv. qlra.
      * assert (rem * v <= t * v) by qnra. rewrite T2 in *. set (rv := rem * v) in *. clearbody rv. qlra.
  - subst v. left. replace (q0 + rem * 0) with q0 by ring. split; [exact B1|]. split; [exact B2|]. reflexivity.
Qed.

Lemma seg lo hi q v s t : lo <= q -> q <= hi -> 0 <= s -> s <= t -> lo <= q + t * v -> q + t * v <= hi -> lo <= q + s * v /\ q + s * v <= hi.
Proof.
  intros H1 H2 H3 H4 H5 H6. destruct (Qclt_le_dec v 0) as [Hv|Hv].
  - assert (t * v <= s * v) by qnra. assert (s * v <= 0) by qnra. split; qlra.
  - assert (s * v <= t * v) by qnra. assert (0 <= s * v) by qnra. split; qlra.
Qed.

Definition stays (M mi ma q p : smap Qc) (t : Qc) (k : string) : Prop :=
  val k mi <= val k q + t * vel M p k /\ val k q + t * vel M p k <= val k ma.
Lemma firstHit_list M mi ma q p rem l : 0 <= rem ->
  (forall k q0, In (k, q0) l -> good M mi ma q p k /\ val k q = q0 /\ k <> ""%string) ->
  exists d t, foldM (hit1 p M mi ma rem) l (""%string, - (1)) = Ok (d, t) /\
   ((d = ""%string /\ t = - (1) /\ forall k, In k (skeys l) -> stays M mi ma q p rem k) \/
    (In d (skeys l) /\ 0 < t /\ t < rem /\ vel M p d <> 0 /\ (0 < vel M p d -> val d q + t * vel M p d = val d ma) /\
     (vel M p d < 0 -> val d q + t * vel M p d = val d mi) /\ forall k, In k (skeys l) -> stays M mi ma q p t k)).
Proof.
  intros Hr. induction l as [|[k q0] l IH] using rev_ind; intros Hl.
  - exists ""%string, (- (1)). split; [reflexivity|]. left. split; [reflexivity|]. split; [reflexivity|]. intros k [].
  - destruct IH as [d [t [E D]]]; [intros; apply Hl; apply in_or_app; now left|].
    destruct (Hl k q0) as [Hg [Hq Hk]]; [apply in_or_app; right; now left|].
    rewrite foldM_app', E. cbn [bind foldM].
    assert (Keys : forall x, In x (skeys (l ++ [(k, q0)])) <-> In x (skeys l) \/ x = k).
    { intros x. unfold skeys. rewrite map_app, in_app_iff. cbn [map fst In]. intuition. }
    destruct (hit1_ok M mi ma q p rem (d, t) k q0 Hr Hg Hq) as [[S1 [S2 ->]]|[Nv [s [P1 [P2 [P3 [P4 ->]]]]]]]; cbn [bind].
    + exists d, t. split; [reflexivity|]. destruct D as [[-> [-> D]]|[D1 [D2 [D3 [D4 [D5 [D6 D7]]]]]]].
      * left. split; [reflexivity|]. split; [reflexivity|]. intros x Hx. apply Keys in Hx. destruct Hx as [Hx| ->]; [auto|].
        unfold stays. rewrite Hq. auto.
      * right. split; [apply Keys; now left|]. do 5 (split; [assumption|]). intros x Hx. apply Keys in Hx. destruct Hx as [Hx| ->]; [auto|].
        destruct Hg as [_ [_ [_ [_ [B1 [B2 _]]]]]]. unfold stays. rewrite Hq in *.
        apply (seg _ _ _ _ t rem); auto; now apply Qclt_le_weak.
    + cbn [snd]. assert (Wall : val k mi <= val k q + s * vel M p k /\ val k q + s * vel M p k <= val k ma).
      { rewrite Hq. destruct Hg as [_ [_ [_ [_ [B1 [B2 _]]]]]]. destruct (Qc_dec (vel M p k) 0) as [[Hv|Hv]|Hv]; [|..|contradiction].
        - rewrite (P4 Hv). split; [apply Qcle_refl|]. eapply Qcle_trans; eauto.
        - rewrite (P3 Hv). split; [|apply Qcle_refl]. eapply Qcle_trans; eauto. }
      destruct D as [[-> [-> D]]|[D1 [D2 [D3 [D4 [D5 [D6 D7]]]]]]].
      * replace (qeqb (- (1)) (- (1))) with true by reflexivity. cbn [orb]. exists k, s. split; [reflexivity|]. right.
        split; [apply Keys; now right|]. rewrite Hq. do 5 (split; [assumption|]). intros x Hx. apply Keys in Hx. destruct Hx as [Hx| ->]; [|exact Wall].
        destruct (Hl x (val x q)) as [[_ [_ [_ [_ [B1 [B2 _]]]]]] _].
        { apply in_or_app. left. unfold skeys in Hx. apply in_map_iff in Hx. destruct Hx as [[x' y] [<- Hx]]. cbn [fst].
          destruct (Hl x' y) as [_ [-> _]]; [apply in_or_app; now left|]. exact Hx. }
        destruct (D x Hx) as [D1 D2]. apply (seg _ _ _ _ s rem); auto; now apply Qclt_le_weak.
      * assert (Hm1 : qeqb t (- (1)) = false).
        { destruct (qeqb t (- (1))) eqn:C; [|reflexivity]. apply qeqb_eq in C. subst t. exfalso. vm_compute in D2. discriminate. }
        rewrite Hm1. cbn [orb]. destruct (qltb s t) eqn:Est.
        -- apply qltb_lt in Est. exists k, s. split; [reflexivity|]. right. split; [apply Keys; now right|]. rewrite Hq. do 5 (split; [assumption|]).
           intros x Hx. apply Keys in Hx. destruct Hx as [Hx| ->]; [|exact Wall].
           destruct (Hl x (val x q)) as [[_ [_ [_ [_ [B1 [B2 _]]]]]] _].
           { apply in_or_app. left. unfold skeys in Hx. apply in_map_iff in Hx. destruct Hx as [[x' y] [<- Hx]]. cbn [fst].
             destruct (Hl x' y) as [_ [-> _]]; [apply in_or_app; now left|]. exact Hx. }
           destruct (D7 x Hx) as [F1 F2]. apply (seg _ _ _ _ s t); auto; now apply Qclt_le_weak.
        -- apply qltb_ge in Est. exists d, t. split; [reflexivity|]. right. split; [apply Keys; now left|]. do 5 (split; [assumption|]).
           intros x Hx. apply Keys in Hx. destruct Hx as [Hx| ->]; [auto|].
           destruct Hg as [_ [_ [_ [_ [B1 [B2 _]]]]]]. destruct Wall as [W1 W2]. apply (seg _ _ _ _ t s); auto; now apply Qclt_le_weak.
Qed.
Lemma firstHit_ok M mi ma q p rem : 0 <= rem -> swf q -> (forall k, In k (skeys q) -> good M mi ma q p k) -> ~ In ""%string (skeys q) ->
  exists d t, firstHit q p M mi ma rem = Ok (d, t) /\
   ((d = ""%string /\ forall k, In k (skeys q) -> stays M mi ma q p rem k) \/
    (In d (skeys q) /\ d <> ""%string /\ 0 < t /\ t < rem /\ vel M p d <> 0 /\ (0 < vel M p d -> val d q + t * vel M p d = val d ma) /\
     (vel M p d < 0 -> val d q + t * vel M p d = val d mi) /\ forall k, In k (skeys q) -> stays M mi ma q p t k)).
Proof.
  intros Hr Hw Hg He. destruct (firstHit_list M mi ma q p rem q Hr) as [d [t [E D]]].
  { intros k q0 Hin. assert (Hk : In k (skeys q)) by (unfold skeys; apply in_map_iff; exists (k, q0); auto).
    split; [auto|]. split; [apply val_find; now apply sfind_In|]. intros ->. contradiction. }
  exists d, t. split; [exact E|]. destruct D as [[-> [_ D]]|[D1 D]]; [left; auto|]. right. split; [exact D1|]. split; [|exact D].
  intros ->. contradiction.
Qed.
