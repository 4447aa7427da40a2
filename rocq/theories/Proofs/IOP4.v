From Coq Require Import ZArith Ascii.
From Verif Require Import Base.Res Base.Num Base.SMap Model.Axis Model.Event Model.Hist Model.Shrink Model.Data Model.IO Spec.AxisSpec Spec.HistSpec Spec.IOSpec Proofs.AxisP Proofs.HistP Proofs.IOP Proofs.IOP2.
From Coq Require Import Lia.
Local Open Scope nat_scope.

Section EQ.
Context (mn w : Qc) (Hw : (0 < w)%Qc).
Let lo (i : nat) := (mn + qn i * w)%Qc.
Let hi (i : nat) := (mn + (qn i + 1) * w)%Qc.
Lemma lo_hi i : hi i = lo (S i). Proof. unfold lo, hi. rewrite qn_S. ring. Qed.
Lemma lo_lt i : (lo i < lo (S i))%Qc.
Proof.
  unfold lo. rewrite qn_S. replace (mn + (qn i + 1) * w)%Qc with ((mn + qn i * w) + w)%Qc by ring. 
  set (z := (mn + qn i * w)%Qc). clearbody z. clear lo hi. qlra.
Qed.
Lemma edges_equal n : forall i p, (match p with Some x => (x <= lo i)%Qc | None => True end) -> edges_ok p (map lo (seq i n)) (map hi (seq i n)) = true.
Proof.
  induction n as [|n IH]; intros i p Hp; [reflexivity|]. cbn [seq map edges_ok]. rewrite IH by (apply Qclt_le_weak, lo_lt). rewrite andb_true_r. apply andb_true_iff. split.
  - destruct p as [x|]; [|reflexivity]. apply negb_true_iff. apply qltb_ge. exact Hp.
  - apply negb_true_iff. apply qltb_ge. rewrite lo_hi. apply Qclt_le_weak, lo_lt.
Qed.
End EQ.
Lemma combine_map {A B C} (f : A -> B) (g : A -> C) l : combine (map f l) (map g l) = map (fun x => (f x, g x)) l.
Proof. induction l; cbn; congruence. Qed.
Lemma map_const {A B} (y : B) (l : list A) : map (fun _ => y) l = repeat y (List.length l).
Proof. induction l; cbn; congruence. Qed.
Lemma last_map_seq (f : nat -> Qc) n d : last (map f (seq 0 (S n))) d = f n.
Proof. rewrite seq_S, map_app. cbn. apply last_last. Qed.
Lemma ok_inj {A} (x y : A) : Ok x = Ok y -> x = y. Proof. congruence. Qed.
Lemma rebuild a : built a -> mk_var (aName a) (aLow a) (aHigh a) (aLatex a) = Ok a.
Proof.
  intros [name mn mx n latex E|name lo hi latex E].
  - unfold mk_equal in E. destruct (qleb mx mn) eqn:El; [discriminate|]. destruct n as [|n]; [discriminate|]. cbn [orb Nat.eqb] in E.
    apply qleb_gt in El.
    set (w := ((mx - mn) / qn (S n))%Qc) in *.
    assert (Hn : qn (S n) <> Q2Qc 0) by (intros C; assert (0 < S n) as P by lia; apply qn_pos in P; rewrite C in P; apply Qclt_not_eq in P; congruence).
    assert (Hmw : (qn (S n) * w = mx - mn)%Qc) by (unfold w; apply Qcmult_div_r; exact Hn).
    assert (Hw : (0 < w)%Qc) by (apply width_pos; [exact El|lia]).
    apply ok_inj in E. subst a. unfold mk_var. cbn [aName aLow aHigh aLatex]. rewrite !map_length, seq_length. cbn [Nat.eqb negb orb]. rewrite Nat.eqb_refl. cbn [negb orb].
    rewrite (edges_equal mn w Hw (S n) 0 None I). cbn [negb]. rewrite combine_map, !map_map. f_equal. rewrite last_map_seq. f_equal.
    + cbn [seq map hd]. rewrite qn_0. ring.
    + change 1%Qc with (Q2Qc 1). rewrite <- qn_S. rewrite Hmw. ring.
    + destruct (String.eqb latex "") eqn:L; [destruct (String.eqb name "") eqn:N; [apply String.eqb_eq in N; congruence|reflexivity]|rewrite L; reflexivity].
    + apply map_ext. intros i. cbn [fst snd]. assert (qhalf + qhalf = 1)%Qc by (apply Qc_is_canon; vm_compute; reflexivity).
      transitivity ((qhalf + qhalf) * mn + ((qhalf + qhalf) * qn i + qhalf) * w)%Qc; [ring|]. rewrite H. ring.
    + rewrite <- (seq_length (S n) 0) at 2. rewrite <- map_const. apply map_ext. intros i. cbn [fst snd]. ring.
  - pose proof E as E'. unfold mk_var in E. destruct (negb (Nat.eqb (List.length hi) (List.length lo)) || Nat.eqb (List.length lo) 0) eqn:G1; [discriminate|]. destruct (negb (edges_ok None lo hi)) eqn:G2; [discriminate|].
    injection E as <-. cbn [aName aLow aHigh aLatex]. unfold mk_var. rewrite G1, G2. f_equal. f_equal.
    destruct (String.eqb latex "") eqn:L; [destruct (String.eqb name "") eqn:N; [apply String.eqb_eq in N; congruence|reflexivity]|rewrite L; reflexivity].
Qed.
Lemma ac_ok_ext a b : ac_ok a -> ac_ok b -> acAxes a = acAxes b -> a = b.
Proof.
  intros [A1 [A2 [A3 [A4 _]]]] [B1 [B2 [B3 [B4 _]]]] E. rewrite E in *. destruct a as [x1 x2 x3 x4 x5], b as [y1 y2 y3 y4 y5]. cbn in *. congruence.
Qed.
Lemma vat_at {A} (l m : list A) x : vat (l ++ x :: m) (List.length l) = Ok x.
Proof. unfold vat. rewrite nth_error_app2, Nat.sub_diag by lia. reflexivity. Qed.
Lemma mapM_cons {A B} (f : A -> res B) x l : mapM f (x :: l) = bind (f x) (fun y => bind (mapM f l) (fun ys => Ok (y :: ys))).
Proof. reflexivity. Qed.
Lemma getAll ac : mapM (getAxis ac) (seq 0 (List.length (acAxes ac))) = Ok (acAxes ac).
Proof.
  assert (G : forall m l, acAxes ac = l ++ m -> mapM (getAxis ac) (seq (List.length l) (List.length m)) = Ok m).
  { induction m as [|x m IH]; intros l E; [reflexivity|]. assert (X : getAxis ac (List.length l) = Ok x) by (unfold getAxis; rewrite E, nth_error_app2, Nat.sub_diag by lia; reflexivity). cbn [List.length seq]. rewrite mapM_cons, X. cbn [bind].
    specialize (IH (l ++ [x])). rewrite app_length in IH. cbn [List.length] in IH. rewrite Nat.add_1_r in IH. rewrite IH by (rewrite <- app_assoc; exact E). reflexivity. }
  apply (G _ []). reflexivity.
Qed.
Definition stepAxis (edges : list (list Qc * list Qc)) (names latex : list string) (ac : axcol) (i : nat) : res axcol :=
  bind (vat edges i) (fun e => bind (vat names i) (fun n => bind (vat latex i) (fun l => bind (mk_var n (fst e) (snd e) l) (fun x => addAxis ac x)))).
Lemma steps_back ac : ac_ok ac -> forall m l, acAxes ac = l ++ m -> forall cur, ac_ok cur -> acAxes cur = l ->
  foldM (stepAxis (map (fun x => (aLow x, aHigh x)) (acAxes ac)) (map aName (acAxes ac)) (map aLatex (acAxes ac))) (seq (List.length l) (List.length m)) cur = Ok ac.
Proof.
  intros Hok. induction m as [|x m IH]; intros l E cur Hc Hl.
  - cbn. f_equal. apply ac_ok_ext; [assumption..|]. rewrite E, app_nil_r. exact Hl.
  - cbn [List.length seq foldM]. unfold stepAxis at 1. rewrite E, !map_app. cbn [map].
    rewrite <- (map_length (fun x => (aLow x, aHigh x)) l) at 1. rewrite vat_at. cbn [bind].
    rewrite <- (map_length aName l) at 1. rewrite vat_at. cbn [bind]. rewrite <- (map_length aLatex l) at 1. rewrite vat_at. cbn [bind fst snd].
    pose proof Hok as [_ [_ [_ [_ [ND Fb]]]]]. rewrite E in ND, Fb. apply Forall_app in Fb. destruct Fb as [_ Fb]. inversion Fb as [|? ? Hb _]; subst. rewrite rebuild by exact Hb. cbn [bind].
    rewrite map_app in ND. cbn [map] in ND. apply NoDup_remove_2 in ND.
    destruct (addAxis_new cur x) as [ac' Ea]; [intros C; apply ND, in_app_iff; left; exact C|]. rewrite Ea. cbn [bind]. destruct (addAxis_ok _ _ _ Hc Hb Ea) as [Ho [Hx _]].
    specialize (IH (acAxes cur ++ [x])). rewrite app_length in IH. cbn [List.length] in IH. rewrite Nat.add_1_r in IH.
    rewrite E, !map_app in IH. cbn [map] in IH. apply IH; [rewrite <- app_assoc; reflexivity|exact Ho|exact Hx].
Qed.
Lemma hist_roundtrip_pkg h : h_reach h -> Forall plain (names_of h) -> joined (names_of h) <= 64 ->
  Forall plain (map aLatex (acAxes (hAxes h))) -> joined (map aLatex (acAxes (hAxes h))) <= 64 -> exists f, saveHist h = Ok f /\ loadHist f = Ok h.
Proof.
  intros R Pn Jn Pl Jl. apply h_reach_ok in R. destruct R as [Hok [Hne [Hb [Hd Hc]]]]. pose proof Hok as [A1 [A2 [A3 [A4 _]]]].
  eexists. unfold saveHist. rewrite Hd, A3, getAll. cbn [bind]. split; [reflexivity|]. unfold loadHist. cbn [f5Axes f5Latex f5Edges f5NDims f5Cont].
  unfold names_of in *. assert (M : forall B (g : axis -> B), map g (acAxes (hAxes h)) <> []) by (intros B g C; apply map_eq_nil in C; auto).
  rewrite (attr_names (map aName (acAxes (hAxes h)))) by auto. rewrite (attr_names (map aLatex (acAxes (hAxes h)))) by auto. cbn [bind].
  pose proof (steps_back (hAxes h) Hok (acAxes (hAxes h)) [] eq_refl ac_empty ac_empty_ok eq_refl) as F. unfold stepAxis in F. cbn [List.length] in F. rewrite F. cbn [bind].
  unfold setBinContents, mk_hist, setAxes. cbn [hNBins hAxes hNDims]. rewrite Hc, Hb, Nat.eqb_refl. cbn [negb]. destruct h as [x1 x2 x3 x4]. cbn [hAxes hCont hNBins hNDims] in *. congruence.
Qed.
Lemma hist_file_pkg h f : h_reach h -> saveHist h = Ok f ->
  f5Cont f = hCont h /\ f5NDims f = List.length (acAxes (hAxes h)) /\ f5NBins f = List.length (hCont h) /\ f5Edges f = map (fun x => (aLow x, aHigh x)) (acAxes (hAxes h)).
Proof.
  intros R E. apply h_reach_ok in R. destruct R as [Hok [Hne [Hb [Hd Hc]]]]. pose proof Hok as [A1 [A2 [A3 [A4 _]]]]. unfold saveHist in E. rewrite Hd, A3, getAll in E. cbn [bind] in E. injection E as <-.
  cbn. repeat split; congruence.
Qed.
Lemma hist_long_pkg h : h_reach h -> 64 < joined (names_of h) -> exists f, saveHist h = Ok f /\ loadHist f <> Ok h.
Proof.
  intros R J. apply h_reach_ok in R. destruct R as [Hok [Hne [Hb [Hd Hc]]]]. pose proof Hok as [A1 [A2 [A3 [A4 _]]]].
  eexists. unfold saveHist. rewrite Hd, A3, getAll. cbn [bind]. split; [reflexivity|]. unfold loadHist. cbn [f5Axes f5Latex f5Edges f5NDims f5Cont].
  destruct (attr_too_long _ J) as [l' [E [Jl D]]]. unfold names_of in *. rewrite E. cbn [bind]. clear E. destruct (unpackString _) as [lat| | | |]; cbn [bind]; try discriminate.
  set (edges := map (fun x => (aLow x, aHigh x)) _). fold (stepAxis edges l' lat).
  assert (G : forall n k cur ac, n <= List.length l' \/ True -> foldM (stepAxis edges l' lat) (seq k n) cur = Ok ac -> map aName (acAxes ac) = map aName (acAxes cur) ++ firstn n (skipn k l')).
  { clear. induction n as [|n IH]; intros k cur ac _ F; [injection F as <-; cbn; rewrite app_nil_r; reflexivity|]. cbn [seq foldM] in F. unfold stepAxis at 1 in F.
    unfold vat in F. destruct (nth_error edges k) as [e|]; [|discriminate]. destruct (nth_error l' k) as [nm|] eqn:En; [|discriminate]. destruct (nth_error lat k) as [lt|]; [|discriminate]. cbn [bind] in F.
    destruct (mk_var nm (fst e) (snd e) lt) as [x| | | |] eqn:Ev; try discriminate. cbn [bind] in F. destruct (addAxis cur x) as [c2| | | |] eqn:Ea; try discriminate. cbn [bind] in F.
    apply IH in F; [|right; exact I]. rewrite F. unfold addAxis in Ea. destruct (hasAxis cur (aName x)); [discriminate|]. injection Ea as <-. cbn [acAxes]. rewrite map_app, <- app_assoc. f_equal. cbn [map app].
    assert (aName x = nm). { unfold mk_var in Ev. destruct (_ || _); [discriminate|]. destruct (negb _); [discriminate|]. injection Ev as <-. reflexivity. }
    subst. clear -En. revert k En. induction l' as [|y l' IH]; intros [|k] En; cbn in En; try discriminate; [injection En as ->; reflexivity|]. cbn [skipn]. apply IH. exact En. }
  destruct (foldM _ _ _) as [ac| | | |] eqn:F; cbn [bind]; try discriminate. apply G in F; [|right; exact I]. cbn [acAxes ac_empty map app skipn] in F.
  destruct (setBinContents (mk_hist ac) (hCont h)) as [h' [u| | | |]] eqn:Sb; try discriminate. intros C. injection C as ->.
  unfold setBinContents in Sb. destruct (negb _); [discriminate|]. injection Sb as Sb _. apply (f_equal hAxes) in Sb. cbn in Sb. subst ac. 
  assert (firstn (List.length (acAxes (hAxes h))) l' = map aName (acAxes (hAxes h))) by congruence. 
  assert (K : joined (firstn (List.length (acAxes (hAxes h))) l') <= joined l').
  { clear. generalize (List.length (acAxes (hAxes h))). intros n. revert n. induction l' as [|x l' IH]; intros [|n]; cbn [firstn]; try (cbn; lia). specialize (IH n). destruct l' as [|y l'']; [rewrite firstn_nil; cbn; lia|]. 
    destruct n; [cbn; lia|]. cbn [firstn] in *. cbn [joined] in *. lia. }
  rewrite H in K. lia.
Qed.
