From Coq Require Import ZArith Sorted.
From Verif Require Import Base.Res Base.Num Base.SMap Model.Axis Model.Hist Model.Rand Model.Grid Spec.GridSpec Proofs.GenP Proofs.GenP8 Proofs.GridP Proofs.GridP2 Proofs.GridP3.
From Coq Require Import Lia.
Local Open Scope nat_scope.

Section G.
Context (A1 A2 : list gax) (b : bool).
Let A := A1 ++ A2.
Let g := gr A b.
Context (Hs : StronglySorted slt (map gk A)) (F : Forall gax_ok A) (Hne : dict_eqb (mp gmn A) (mp gmx A) = false)
  (B : Forall (fun a => (gmx a - gmn a < qz (2 ^ 64) * gst a)%Qc) A).
Context (f : smap Qc -> res Qc) (Hf : forall p, on_grid g p -> exists v, f p = Ok v).
Let fe (p : smap Qc) : Qc := match f p with Ok v => v | _ => Q2Qc 0 end.
Lemma F1 : Forall gax_ok A1. Proof. apply Forall_app in F. tauto. Qed.
Lemma F2 : Forall gax_ok A2. Proof. apply Forall_app in F. tauto. Qed.
Lemma ND : NoDup (map gk A). Proof. apply keys_nodup. exact Hs. Qed.
Lemma ND2 : NoDup (map gk A2). Proof. pose proof ND as N. unfold A in N. rewrite map_app in N. clear -N. induction (map gk A1); [exact N|]. inversion N; auto. Qed.
Lemma minpts : In (map gmn A2) (pgrid A2).
Proof. destruct (pgrid_runs A2 F2) as [r [E _]]. rewrite E. left. reflexivity. Qed.
Lemma point_eq xs : List.length xs = List.length A1 -> point A1 A2 xs = zipd A (xs ++ map gmn A2).
Proof. intros L. unfold point, A. rewrite zipd_app by exact L. rewrite zipd_mp. reflexivity. Qed.
Lemma point_grid xs : In xs (pgrid A1) -> on_grid g (point A1 A2 xs).
Proof.
  intros H. pose proof (pgrid_len _ _ H) as L. rewrite point_eq by exact L. apply ongrid_zip; [exact ND|exact F|unfold A; rewrite !app_length, map_length; lia|].
  unfold A. apply pgrid_in. apply Forall2_app; [apply pgrid_in; exact H|apply pgrid_in; exact minpts].
Qed.
Lemma nodup_app_not {X} (l m : list X) x : NoDup (l ++ m) -> In x m -> ~ In x l.
Proof. induction l as [|y l IH]; cbn; intros N H; [tauto|]. inversion N; subst. intros [->|C]; [apply H2, in_app_iff; right; exact H|exact (IH H3 H C)]. Qed.
Lemma seen_char rest p : pgrid A1 = map gmn A1 :: rest ->
  (In p (map (point A1 A2) rest) <-> on_grid g p /\ p <> grMin g /\ forall k, In k (map gk A2) -> val p k = val (grMin g) k).
Proof.
  intros E. pose proof (pgrid_nodup A1 F1) as N1. rewrite E in N1. inversion N1 as [|? ? Nin Nd]; subst.
  assert (M : grMin g = point A1 A2 (map gmn A1)) by (unfold point; rewrite zipd_mp; cbn; unfold mp, A; rewrite map_app; reflexivity).
  assert (LM : List.length (map gmn A1) = List.length A1) by apply map_length.
  assert (Pv : forall xs k, List.length xs = List.length A1 -> In k (map gk A2) -> forall us, List.length us = List.length A2 -> val (zipd A1 xs ++ zipd A2 us) k = val (zipd A2 us) k).
  { intros xs k L Hk us Lu. apply val_app_r. rewrite zipd_keys by exact L. pose proof ND as N. unfold A in N. rewrite map_app in N. exact (nodup_app_not _ _ _ N Hk). }
  rewrite in_map_iff. split.
  - intros [xs [<- Hx]]. assert (Hi : In xs (pgrid A1)) by (rewrite E; right; exact Hx). pose proof (pgrid_len _ _ Hi) as L.
    split; [apply point_grid; exact Hi|]. split.
    + intros C. rewrite M in C. unfold point in C. apply app_inv_tail in C. apply zipd_inj in C; [|assumption..]. subst. contradiction.
    + intros k Hk. rewrite M. unfold point. rewrite <- zipd_mp. rewrite !Pv by (try assumption; apply map_length). reflexivity.
  - intros [Hg [Hm Hk]]. destruct (zipd_all A p) as [zs [Lz ->]]; [destruct Hg as [K _]; rewrite K; cbn [g grMin gr]; apply mp_keys|].
    set (xs := firstn (List.length A1) zs). set (us := skipn (List.length A1) zs). assert (Ez : zs = xs ++ us) by (symmetry; apply firstn_skipn).
    assert (Lx : List.length xs = List.length A1) by (unfold xs; rewrite firstn_length, Lz; unfold A; rewrite app_length; lia).
    assert (Lu : List.length us = List.length A2) by (unfold us; rewrite skipn_length, Lz; unfold A; rewrite app_length; lia). clearbody xs us. subst zs.
    apply ongrid_zip in Hg; [|exact ND|exact F|exact Lz]. apply pgrid_in in Hg. unfold A in Hg. apply Forall2_app_inv_r in Hg. destruct Hg as [l1 [l2 [G1 [G2 E2]]]].
    assert (List.length l1 = List.length A1) by (clear -G1; induction G1; cbn; congruence). apply app_inv_head_iff in E2 || idtac.
    assert (xs = l1 /\ us = l2) as [<- <-].
    { clear -E2 H Lx. revert l1 A1 H Lx E2. induction xs as [|x xs IH]; intros [|y l1] [|a A1'] H L E; cbn in *; try discriminate; [auto|]. injection E as -> E. destruct (IH l1 A1') as [-> ->]; auto. }
    assert (Eu : us = map gmn A2).
    { assert (Q : Forall2 (fun x a => x = gmn a) us A2).
      { apply (zip_forall _ A2 us ND2 Lu). intros a Ha. specialize (Hk (gk a) (in_map gk _ _ Ha)). unfold A in Hk. rewrite zipd_app in Hk by exact Lx. rewrite Pv in Hk; [|exact Lx|apply in_map; exact Ha|exact Lu].
        rewrite Hk. cbn [g grMin gr]. apply val_mp; [exact ND|]. apply in_app_iff. right. exact Ha. }
      clear -Q. induction Q; cbn; congruence. }
    exists xs. split; [rewrite point_eq by exact Lx; rewrite Eu; reflexivity|].
    assert (Hi : In xs (pgrid A1)) by (apply pgrid_in; exact G1). rewrite E in Hi. destruct Hi as [<-|Hi]; [|exact Hi]. exfalso. apply Hm. rewrite M, point_eq by exact LM. rewrite Eu. reflexivity.
Qed.
Context (stop : bool) (Hst : stop = false -> A2 = []) (Hn : A1 <> [] \/ stop = false)
  (HI : forall i, i < List.length A1 -> ((Z.of_nat i = Z.of_nat (List.length A) - Z.of_nat i)%Z <-> S i = List.length A1 /\ stop = true)).
Lemma search_ends : if stop then exists r, ends g f (Ok r) /\ NoDup (grSeen r) /\
     (forall p, In p (grSeen r) <-> on_grid g p /\ p <> grMin g /\ forall k, In k (map gk A2) -> val p k = val (grMin g) k) /\
     (grSeen r <> [] -> (forall p, In p (grSeen r) -> f p <> Ok (Q2Qc 0)) ->
        In (grBest r) (grSeen r) /\ (exists e, f (grBest r) = Ok e /\ grVal r = score g e) /\ forall p e, In p (grSeen r) -> f p = Ok e -> (grVal r <= score g e)%Qc)
  else ends g f UB.
Proof.
  destruct (pgrid_runs A1 F1) as [rest [E R]].
  assert (Fe : forall ys, In ys rest -> f (point A1 A2 ys) = Ok (fe (point A1 A2 ys))).
  { intros ys Hy. destruct (Hf (point A1 A2 ys)) as [v Ev]; [apply point_grid; rewrite E; right; exact Hy|]. unfold fe. rewrite Ev. reflexivity. }
  assert (P0 : mp gmn A = point A1 A2 (map gmn A1)) by (unfold point; rewrite zipd_mp; unfold mp, A; rewrite map_app; reflexivity).
  assert (Ends : ends g f (if stop then Ok (fold_left (better b fe) (map (point A1 A2) rest) (mkGres sempty 0 [])) else UB)).
  { exists (S (List.length rest)). intros fuel Hfl. unfold g. rewrite optimise_eq by assumption. rewrite P0.
    apply (loop_runs A b Hs Hne stop A1 A2 eq_refl Hst Hn HI f fe (map gmn A1) rest R); [apply map_length|exact Fe|lia]. }
  destruct stop; [|exact Ends]. eexists. split; [exact Ends|]. set (r := fold_left _ _ _). assert (Sr : grSeen r = map (point A1 A2) rest) by (unfold r; rewrite better_fold; reflexivity). rewrite Sr.
  pose proof (pgrid_nodup A1 F1) as N1. rewrite E in N1. inversion N1 as [|? ? Nin Nd]; subst.
  split; [|split; [intros p; apply seen_char; exact E|]].
  - assert (Lr : forall xs, In xs rest -> List.length xs = List.length A1) by (intros xs Hx; apply pgrid_len; rewrite E; right; exact Hx).
    clear -Nd Lr. induction Nd as [|x l Hx Nd IH]; cbn; constructor.
    + intros C. apply in_map_iff in C. destruct C as [y [Ey Hy]]. unfold point in Ey. apply app_inv_tail in Ey. apply zipd_inj in Ey; [subst; contradiction|apply Lr; right; exact Hy|apply Lr; left; reflexivity].
    + apply IH. intros xs Hxs. apply Lr. right. exact Hxs.
  - assert (Eok : forall p, In p (map (point A1 A2) rest) -> f p = Ok (fe p)) by (intros p Hp; apply in_map_iff in Hp; destruct Hp as [ys [<- Hy]]; apply Fe; exact Hy).
    assert (Sc : forall p, sc b fe p = score g (fe p)) by (intros p; unfold sc, score; cbn [g grMaximise gr]; destruct b; [ring|reflexivity]).
    intros Ne Hz. unfold r. destruct (map (point A1 A2) rest) as [|p0 ps] eqn:Ep; [congruence|].
    destruct (better_all b fe p0 ps) as [G1 [G2 G3]].
    + intros p Hp. specialize (Hz p Hp). rewrite (Eok p Hp) in Hz. congruence.
    + split; [exact G1|]. split.
      * exists (fe (grBest (fold_left (better b fe) (p0 :: ps) (mkGres sempty 0 [])))). split; [apply Eok; exact G1|rewrite <- Sc; exact G2].
      * intros p e Hp Hfp. specialize (Eok p Hp). rewrite Hfp in Eok. injection Eok as ->. rewrite <- Sc. apply G3. exact Hp.
Qed.
End G.
Lemma even_pkg g f m : well_set g -> List.length (grMin g) = 2 * m -> (forall p, on_grid g p -> exists v, f p = Ok v) ->
  exists r, ends g f (Ok r) /\ NoDup (grSeen r) /\
    (forall p, In p (grSeen r) <-> on_grid g p /\ p <> grMin g /\ forall k, In k (skipn (m + 1) (skeys (grMin g))) -> val p k = val (grMin g) k) /\
    (grSeen r <> [] -> (forall p, In p (grSeen r) -> f p <> Ok (Q2Qc 0)) ->
       In (grBest r) (grSeen r) /\ (exists e, f (grBest r) = Ok e /\ grVal r = score g e) /\ forall p e, In p (grSeen r) -> f p = Ok e -> (grVal r <= score g e)%Qc).
Proof.
  intros W L Hf. destruct (as_axes g W) as [A [Eg [Hs [F [Hne [B LA]]]]]]. rewrite L in LA.
  assert (Hm : m <> 0). { intros ->. destruct A; [|discriminate]. discriminate. }
  pose proof (search_ends (firstn (m + 1) A) (skipn (m + 1) A) (grMaximise g)) as S1. rewrite firstn_skipn in S1. rewrite <- Eg in S1.
  specialize (S1 Hs F Hne B f Hf true (fun C => ltac:(discriminate C))). 
  assert (L1 : List.length (firstn (m + 1) A) = m + 1) by (rewrite firstn_length; lia). rewrite L1 in S1.
  assert (N1 : firstn (m + 1) A <> []) by (intros C; rewrite C in L1; cbn in L1; lia).
  specialize (S1 (or_introl N1)). cbv iota in S1. destruct S1 as [r [E1 [E2 [E3 E4]]]]; [intros i Hi; rewrite <- LA; split; [intros; split; [lia|reflexivity]|intros [? _]; lia]|].
  exists r. split; [exact E1|]. split; [exact E2|]. split; [|exact E4]. intros p. rewrite E3. replace (skipn (m + 1) (skeys (grMin g))) with (map gk (skipn (m + 1) A)); [reflexivity|].
  rewrite Eg. cbn [grMin gr]. rewrite mp_keys. clear. revert A. generalize (m + 1). intros n. induction n; intros [|a A]; cbn; auto.
Qed.
Lemma odd_pkg g f m : well_set g -> List.length (grMin g) = 2 * m + 1 -> (forall p, on_grid g p -> exists v, f p = Ok v) -> ends g f UB.
Proof.
  intros W L Hf. destruct (as_axes g W) as [A [Eg [Hs [F [Hne [B LA]]]]]]. rewrite L in LA.
  pose proof (search_ends A [] (grMaximise g)) as S1. rewrite app_nil_r in S1. rewrite <- Eg in S1.
  apply (S1 Hs F Hne B f Hf false (fun _ => eq_refl) (or_intror eq_refl)). intros i Hi. split; [lia|intros [_ C]; discriminate].
Qed.
Lemma keys_pkg g f fuel : skeys (grStep g) <> skeys (grMax g) \/ skeys (grStep g) <> skeys (grMin g) -> gOptimise g f fuel = Throw LogicError.
Proof.
  intros H. unfold gOptimise, hasSameKeys. destruct (keys_eqb (skeys (grStep g)) (skeys (grMax g))) eqn:E1; [|reflexivity]. destruct (keys_eqb (skeys (grStep g)) (skeys (grMin g))) eqn:E2; [|reflexivity].
  apply keys_eqb_eq in E1. apply keys_eqb_eq in E2. tauto.
Qed.
(** a grid with a single point is not evaluated at all *)
Lemma single_pkg g f : swf (grMin g) -> grMax g = grMin g -> skeys (grStep g) = skeys (grMin g) -> grMin g <> [] -> (forall k, In k (skeys (grMin g)) -> val (grStep g) k <> Q2Qc 0) ->
  ends g f (Ok (mkGres sempty 0 [])).
Proof.
  intros W E K Ne Hz. exists 1. intros fuel Hfl. unfold gOptimise, hasSameKeys. rewrite E, K. assert (Kb : keys_eqb (skeys (grMin g)) (skeys (grMin g)) = true) by (apply keys_eqb_eq; reflexivity). rewrite Kb. cbn [negb orb].
  assert (C : exists l, mapM (gCount g) (grMin g) = Ok l).
  { assert (G : forall kv, In kv (grMin g) -> exists c, gCount g kv = Ok c).
    { intros [k x] Hk. unfold gCount. cbn [fst snd]. rewrite E. assert (Hx : sfind k (grMin g) = Some x) by (apply sfind_In; assumption). rewrite Hx. fold (val (grStep g) k).
      assert (Hi : In k (skeys (grMin g))) by (apply in_map_iff; exists (k, x); auto). specialize (Hz k Hi). destruct (qeqb (val (grStep g) k) 0) eqn:Q; [apply qeqb_eq in Q; contradiction|].
      replace ((x - x) / val (grStep g) k)%Qc with 0%Qc by (unfold Qcdiv; ring). exists 0%Z. reflexivity. }
    clear -G. induction (grMin g) as [|kv l IH]; [exists []; reflexivity|]. destruct (G kv (or_introl eq_refl)) as [c Ec]. destruct IH as [r Er]; [intros; apply G; right; assumption|]. exists (c :: r). unfold mapM in *. cbn [map seqM]. rewrite Ec. cbn [bind]. rewrite Er. reflexivity. }
  destruct C as [l ->]. cbn [bind]. destruct fuel as [|fuel]; [lia|]. cbn [gLoop]. rewrite K. destruct (grMin g) as [|[k x] t] eqn:Em; [congruence|]. cbn [skeys map gInc fst].
  assert (D : dict_eqb (grMin g) (grMax g) = true) by (apply dict_eqb_eq; congruence). rewrite D. reflexivity.
Qed.
Lemma ends_fun g f r s : ends g f r -> ends g f s -> r = s.
Proof. intros [n Hn] [m Hm]. rewrite <- (Hn (n + m)) by lia. apply Hm. lia. Qed.
Lemma later_pkg g f m r p k : well_set g -> List.length (grMin g) = 2 * m -> (forall p, on_grid g p -> exists v, f p = Ok v) -> ends g f (Ok r) ->
  p = grMin g \/ In k (skipn (m + 1) (skeys (grMin g))) /\ val p k <> val (grMin g) k -> ~ In p (grSeen r).
Proof.
  intros W L Hf E H. destruct (even_pkg g f m W L Hf) as [r' [E' [_ [C _]]]]. pose proof (ends_fun _ _ _ _ E E') as X. injection X as ->. rewrite C. intros [_ [A B]]. destruct H as [->|[H1 H2]]; [auto|]. apply H2. apply B. exact H1.
Qed.
(** a negative step: the search does not return *)
Lemma negative_pkg g f k t : swf (grMin g) -> skeys (grMin g) = k :: t -> (val (grStep g) k < 0)%Qc -> (val (grMin g) k <= val (grMax g) k)%Qc -> grMin g <> grMax g ->
  forall fuel r, gOptimise g f fuel <> Ok r.
Proof.
  intros W Km Hs Hm Hne fuel r. unfold gOptimise, hasSameKeys. destruct (keys_eqb (skeys (grStep g)) (skeys (grMax g))) eqn:E1; [|discriminate]. destruct (keys_eqb (skeys (grStep g)) (skeys (grMin g))) eqn:E2; [|discriminate].
  apply keys_eqb_eq in E1. apply keys_eqb_eq in E2. cbn [negb orb]. destruct (mapM (gCount g) (grMin g)) as [l| | | |]; cbn [bind]; try discriminate.
  assert (D : dict_eqb (grMin g) (grMax g) = false) by (destruct (dict_eqb (grMin g) (grMax g)) eqn:D; [apply dict_eqb_eq in D; contradiction|reflexivity]).
  assert (S1 : exists s, sfind k (grStep g) = Some s) by (apply sfind_in; rewrite E2, Km; left; reflexivity). assert (S2 : exists s, sfind k (grMax g) = Some s) by (apply sfind_in; rewrite <- E1, E2, Km; left; reflexivity).
  destruct S1 as [s S1]. destruct S2 as [mx S2]. unfold val in Hs, Hm. rewrite S1 in Hs. rewrite S2 in Hm.
  assert (G : forall vals r0, (val vals k <= mx)%Qc -> gLoop g f fuel vals r0 <> Ok r).
  { induction fuel as [|fuel IH]; intros vals r0 Hv; [discriminate|]. cbn [gLoop]. rewrite E2, Km. cbn [gInc]. rewrite D. unfold sat. rewrite S1, S2. cbn [bind]. fold (val vals k).
    destruct (qltb mx (val vals k + s)) eqn:Q; [apply qltb_lt in Q; exfalso; qlra|]. cbn [bind fst snd]. destruct (f (sset k (val vals k + s)%Qc vals)) as [v| | | |]; cbn [bind]; try discriminate. apply IH.
    unfold val at 1. rewrite sfind_sset_eq. apply qltb_ge in Q. exact Q. }
  apply G. exact Hm.
Qed.
