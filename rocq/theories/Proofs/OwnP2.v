(** C93: programs. *)
From Coq Require Import Lia Arith.
From Verif Require Import Base.Res Base.Num Model.Own Spec.OwnSpec Proofs.HistP Proofs.OwnP.
Local Open Scope res_scope.
Local Open Scope nat_scope.

Definition Inv (b : bool) (m : machine) (vs : list (option val)) (F : nat -> list nat) : Prop :=
  fresh (mcStore m) /\ List.length (mcVars m) = List.length vs /\
  (forall i, match val_at vs i with
             | Some v => exists l, var m i = Some l /\ rep (stHeap (mcStore m)) v l (F i) /\ NoDup (F i) /\ wfv v
             | None => var m i = None /\ F i = []
             end) /\
  (forall i j k, i <> j -> In k (F i) -> ~ In k (F j)) /\
  (b = true -> forall k, stHeap (mcStore m) k <> None -> exists i, In k (F i)).
Definition fset (F : nat -> list nat) (i : nat) (G : list nat) : nat -> list nat := fun j => if Nat.eqb j i then G else F j.
Definition at_ {A} (l : list (option A)) (i : nat) : option A := match nth_error l i with Some o => o | None => None end.
Lemma at_app {A} (l : list (option A)) x i : at_ (l ++ [x]) i = if Nat.eqb i (List.length l) then x else at_ l i.
Proof.
  unfold at_. destruct (Nat.eqb_spec i (List.length l)) as [->|N].
  - rewrite nth_error_app2 by lia. now rewrite Nat.sub_diag.
  - destruct (Nat.lt_ge_cases i (List.length l)) as [L|L]; [now rewrite nth_error_app1 by lia|].
    replace (nth_error (l ++ [x]) i) with (@None (option A)); [now rewrite (proj2 (nth_error_None l i)) by lia|]. symmetry. apply nth_error_None. rewrite app_length. cbn. lia.
Qed.
Lemma at_upd {A} (l : list (option A)) i x j : i < List.length l -> at_ (upd l i x) j = if Nat.eqb j i then x else at_ l j.
Proof.
  intros H. unfold at_. rewrite nth_error_upd by exact H. rewrite (Nat.eqb_sym i j) || idtac. destruct (Nat.eqb j i); reflexivity.
Qed.
Lemma at_lt {A} (l : list (option A)) i x : at_ l i = Some x -> i < List.length l.
Proof. unfold at_. intros H. apply nth_error_Some. intros C. rewrite C in H. discriminate. Qed.
Lemma at_ge {A} (l : list (option A)) i : List.length l <= i -> at_ l i = None.
Proof. intros H. unfold at_. now rewrite (proj2 (nth_error_None l i)). Qed.
Lemma val_at_at vs i : val_at vs i = at_ vs i. Proof. reflexivity. Qed.
Lemma var_at m i : var m i = at_ (mcVars m) i. Proof. reflexivity. Qed.

Lemma bounded_len (F : list nat) n : NoDup F -> (forall k, In k F -> k < n) -> List.length F <= n.
Proof. intros N B. rewrite <- (seq_length n 0). apply NoDup_incl_length; [exact N|]. intros k Hk. apply in_seq. specialize (B k Hk). lia. Qed.
Lemma fuel_ok s v l F : fresh s -> rep (stHeap s) v l F -> NoDup F -> size v <= fuel s.
Proof.
  intros Fr R N. rewrite <- (rep_len _ _ _ _ R). enough (List.length F <= stNext s) by (unfold fuel; lia). apply bounded_len; [exact N|]. intros k Hk. apply live_below; [exact Fr|]. exact (rep_live _ _ _ _ R k Hk).
Qed.
Lemma F_below b m vs F i k : Inv b m vs F -> In k (F i) -> k < stNext (mcStore m).
Proof.
  intros [I1 [_ [I3 _]]] H. specialize (I3 i). destruct (val_at vs i) as [v|]; [|destruct I3 as [_ E]; rewrite E in H; destruct H]. destruct I3 as [l [_ [R _]]].
  apply live_below; [exact I1|]. exact (rep_live _ _ _ _ R k H).
Qed.
Lemma class_inv b m vs F i : Inv b m vs F -> class_at m i = match val_at vs i with Some v => Some (vcls v) | None => None end.
Proof.
  intros [_ [_ [I3 _]]]. specialize (I3 i). unfold class_at. destruct (val_at vs i) as [v|]; [|destruct I3 as [E _]; now rewrite E]. destruct I3 as [l [E [R _]]]. rewrite E.
  destruct (rep_head _ _ _ _ R) as [_ [c [Ec Hc]]]. now rewrite Ec, Hc.
Qed.

Lemma inv_add b m vs F s' l' v F' : Inv b m vs F -> grown (mcStore m) s' F' -> rep (stHeap s') v l' F' -> NoDup F' -> wfv v ->
  Inv b (with_new m (s', l')) (vs ++ [Some v]) (fset F (List.length vs) F').
Proof.
  intros I [G1 [G2 [G3 G4]]] R N W. pose proof I as [I1 [I2 [I3 [I4 I5]]]]. unfold Inv, with_new. cbn [mcStore mcVars fst snd]. split; [exact G3|]. split; [rewrite !app_length; cbn; lia|].
  assert (Z : forall i, List.length vs <= i -> F i = []) by (intros i Hi; specialize (I3 i); rewrite val_at_at, at_ge in I3 by exact Hi; apply I3).
  split; [|split].
  - intros i. rewrite val_at_at, at_app. rewrite var_at. cbn [mcVars]. rewrite at_app, I2. unfold fset. destruct (Nat.eqb_spec i (List.length vs)) as [->|Ni]; [eauto|].
    specialize (I3 i). rewrite <- val_at_at, <- var_at. destruct (val_at vs i) as [w|] eqn:E; [|exact I3]. destruct I3 as [l [Hl [Rl Q]]]. exists l. split; [exact Hl|]. split; [|exact Q].
    eapply frame; [exact Rl|]. intros k Hk. apply G2. exact (F_below _ _ _ _ i k I Hk).
  - intros i j k Nij. unfold fset. destruct (Nat.eqb_spec i (List.length vs)) as [->|Ni], (Nat.eqb_spec j (List.length vs)) as [->|Nj]; try congruence.
    + intros H C. apply G4 in H. apply (F_below _ _ _ _ j k I) in C. lia.
    + intros H C. apply G4 in C. apply (F_below _ _ _ _ i k I) in H. lia.
    + now apply I4.
  - intros Hb k Hk. destruct (Nat.lt_ge_cases k (stNext (mcStore m))) as [L|L].
    + rewrite G2 in Hk by exact L. destruct (I5 Hb k Hk) as [i Hi]. exists i. unfold fset. destruct (Nat.eqb_spec i (List.length vs)) as [->|]; [rewrite Z in Hi by lia; destruct Hi|exact Hi].
    + exists (List.length vs). unfold fset. rewrite Nat.eqb_refl. apply G4. split; [exact L|]. apply live_below; auto.
Qed.
Lemma inv_set b m vs F i v l s' v' F' : Inv b m vs F -> val_at vs i = Some v -> var m i = Some l -> fresh s' ->
  (forall k, k < stNext (mcStore m) -> ~ In k (F i) -> stHeap s' k = stHeap (mcStore m) k) -> rep (stHeap s') v' l F' -> NoDup F' -> wfv v' ->
  (forall k, In k F' -> In k (F i) \/ stNext (mcStore m) <= k) ->
  (b = true -> forall k, stHeap s' k <> None -> In k F' \/ (~ In k (F i) /\ k < stNext (mcStore m))) ->
  Inv b (mkMach s' (mcVars m)) (upd vs i (Some v')) (fset F i F').
Proof.
  intros I Hv Hl Fr Same R N W New Tight. pose proof I as [I1 [I2 [I3 [I4 I5]]]]. assert (Li : i < List.length vs) by (eapply at_lt; exact Hv).
  unfold Inv. cbn [mcStore mcVars]. split; [exact Fr|]. split; [now rewrite upd_length|]. split; [|split].
  - intros j. rewrite val_at_at, at_upd by exact Li. change (var (mkMach s' (mcVars m)) j) with (var m j). unfold fset. destruct (Nat.eqb_spec j i) as [->|Nj]; [eauto|].
    specialize (I3 j). rewrite <- val_at_at. destruct (val_at vs j) as [w|]; [|exact I3]. destruct I3 as [a [Ha [Ra Q]]]. exists a. split; [exact Ha|]. split; [|exact Q].
    eapply frame; [exact Ra|]. intros k Hk. apply Same; [exact (F_below _ _ _ _ j k I Hk)|]. exact (I4 j i k Nj Hk).
  - intros j j' k Nj. unfold fset. destruct (Nat.eqb_spec j i) as [->|N1], (Nat.eqb_spec j' i) as [->|N2]; try congruence.
    + intros H C. destruct (New k H) as [K|K]; [exact (I4 i j' k Nj K C)|]. apply (F_below _ _ _ _ j' k I) in C. lia.
    + intros H C. destruct (New k C) as [K|K]; [exact (I4 j i k Nj H K)|]. apply (F_below _ _ _ _ j k I) in H. lia.
    + now apply I4.
  - intros Hb k Hk. destruct (Tight Hb k Hk) as [K|[K1 K2]].
    + exists i. unfold fset. now rewrite Nat.eqb_refl.
    + rewrite Same in Hk by auto. destruct (I5 Hb k Hk) as [j Hj]. exists j. unfold fset. destruct (Nat.eqb_spec j i) as [->|]; [contradiction|exact Hj].
Qed.
Lemma inv_del b m vs F i v l s' : Inv b m vs F -> val_at vs i = Some v -> var m i = Some l -> cleared (mcStore m) s' (F i) ->
  Inv b (mkMach s' (upd (mcVars m) i None)) (upd vs i None) (fset F i []).
Proof.
  intros I Hv Hl [C1 [C2 C3]]. pose proof I as [I1 [I2 [I3 [I4 I5]]]]. assert (Li : i < List.length vs) by (eapply at_lt; exact Hv).
  unfold Inv. cbn [mcStore mcVars]. split; [intros k Hk; rewrite C1 in Hk; destruct (in_dec Nat.eq_dec k (F i)) as [K|K]; [now apply C2|rewrite C3 by exact K; now apply I1]|]. split; [now rewrite !upd_length|]. split; [|split].
  - intros j. rewrite val_at_at, at_upd by exact Li. rewrite var_at. cbn [mcVars]. rewrite at_upd by lia. unfold fset. destruct (Nat.eqb_spec j i) as [->|Nj]; [auto|].
    specialize (I3 j). rewrite <- val_at_at, <- var_at. destruct (val_at vs j) as [w|]; [|exact I3]. destruct I3 as [a [Ha [Ra Q]]]. exists a. split; [exact Ha|]. split; [|exact Q].
    eapply frame; [exact Ra|]. intros k Hk. apply C3. exact (I4 j i k Nj Hk).
  - intros j j' k Nj. unfold fset. destruct (Nat.eqb j i), (Nat.eqb j' i); try (now intros []); try (intros _ []). now apply I4.
  - intros Hb k Hk. destruct (in_dec Nat.eq_dec k (F i)) as [K|K]; [exfalso; apply Hk; now apply C2|]. rewrite C3 in Hk by exact K. destruct (I5 Hb k Hk) as [j Hj]. exists j. unfold fset.
    destruct (Nat.eqb_spec j i) as [->|]; [contradiction|exact Hj].
Qed.
Lemma fresh_put s l c : fresh s -> l < stNext s -> fresh (put s l c).
Proof. intros H L k Hk. cbn [put stNext] in Hk. rewrite put_same by lia. now apply H. Qed.
Lemma rep_kids_nonempty h ks ls F : reps h ks ls F -> ks = [] <-> ls = [].
Proof. destruct ks, ls; cbn; try tauto; intros _; split; discriminate. Qed.
Lemma wf_leaf c x : bare c = true -> wfv (V c x [] []).
Proof. intros H. apply wfv_V. repeat split; try constructor; auto; try (now intros C); cbn; try lia. intros ->. discriminate. Qed.
Lemma wfv_nofuns c x ks fs : wfv (V c x ks fs) -> c <> KVary -> fs = [].
Proof. intros W N. apply wfv_V in W as [_ [_ [W _]]]. destruct fs; [reflexivity|]. exfalso. apply N, W. discriminate. Qed.

(** JumpPDF and EventConvolution: clone the other's part, keep the old one, return by value *)
Lemma assign_jump b m vs F i j vi vj t o : Inv b m vs F -> val_at vs i = Some vi -> val_at vs j = Some vj -> var m i = Some t -> var m j = Some o ->
  vcls vi = vcls vj -> vcls vi = KJump \/ vcls vi = KEvConv -> (b = true -> vkids vi = []) ->
  exists s', assign (mcStore m) t o = Ok s' /\ exists F', Inv b (mkMach s' (mcVars m)) (upd vs i (Some vj)) F'.
Proof.
  intros I Hi Hj Ht Ho Hc Hk Tidy. pose proof I as [I1 [I2 [I3 [I4 I5]]]].
  pose proof (I3 i) as Ii. rewrite Hi in Ii. destruct Ii as [t' [E [Ri [Ni Wi]]]]. rewrite Ht in E. injection E as <-.
  pose proof (I3 j) as Ij. rewrite Hj in Ij. destruct Ij as [o' [E [Rj [Nj Wj]]]]. rewrite Ho in E. injection E as <-.
  destruct vi as [c xi ki fi], vj as [c' xj kj fj]. cbn [vcls vkids] in *. subst c'.
  assert (Nv : c <> KVary) by (destruct Hk; subst; discriminate).
  assert (fi = []) by (eapply wfv_nofuns; eauto). assert (fj = []) by (eapply wfv_nofuns; eauto). subst fi fj.
  pose proof (fuel_ok _ _ _ _ I1 Rj Nj) as Hf. rewrite size_V in Hf.
  pose proof Ri as Ri0. apply rep_inv in Ri as [lk [lf [Fk [Ff [A1 [A2 [A3 A4]]]]]]]. apply reps_nil in A3 as [-> ->].
  apply rep_inv in Rj as [mk [mf [Gk [Gf [B1 [B2 [B3 B4]]]]]]]. apply reps_nil in B3 as [-> ->]. rewrite app_nil_r in *.
  pose proof Wj as Wj0. apply wfv_V in Wj as [W1 [W2 _]].
  destruct (each_ok (fuel (mcStore m)) kj (kids_clonable _ W1 W2) ltac:(apply sizes_each; lia) (mcStore m) mk Gk B2 I1) as [s1 [ls' [Fn [E1 [[G1 [G2 [G3 G4]]] [R1 N1]]]]]].
  set (c0 := mkCell c xj ls' []). set (s2 := put s1 t c0).
  assert (Lt : t < stNext (mcStore m)) by (apply live_below; [exact I1|]; rewrite A1; discriminate).
  assert (Fr2 : fresh s2) by (apply fresh_put; [exact G3|lia]).
  assert (Nt : ~ In t Fn) by (intros C; apply G4 in C; lia).
  assert (R2 : rep (stHeap s2) (V c xj kj []) t (t :: Fn)).
  { apply rep_mk. exists ls', [], Fn, []. split; [apply put_at|]. split; [|split; [reflexivity|now rewrite app_nil_r]]. eapply frames; [exact R1|]. intros k Hk0. apply put_same. intros ->. contradiction. }
  assert (N2 : NoDup (t :: Fn)) by (now constructor).
  pose proof (fuel_ok _ _ _ _ Fr2 R2 N2) as Hf2.
  destruct (clone_ok (V c xj kj []) Wj0 Nv (fuel s2) s2 t (t :: Fn) R2 Fr2 Hf2) as [s3 [l3 [F3 [E3 [[P1 [P2 [P3 P4]]] [R3 N3]]]]]].
  destruct (release_ok (V c xj kj []) Wj0 ltac:(intros C; cbn in C; contradiction) (fuel s2) s3 l3 F3 R3 N3 Hf2) as [s4 [E4 [D1 [D2 D3]]]].
  exists s4. assert (Ea : assign (mcStore m) t o = Ok s4).
  { unfold assign, look. rewrite A1, B1. cbn [bind cCls cKids cVal cFuns]. 
    assert (Eb : by_value (fuel s2) s2 t = Ok s4).
    { unfold by_value, copy, look. replace (stHeap s2 t) with (Some c0) by (symmetry; apply put_at). cbn [bind]. unfold c0 at 1. cbn [cCls].
      destruct Hk as [-> | ->]; rewrite E3; cbn [bind fst snd]; exact E4. }
    destruct Hk as [-> | ->]; rewrite E1; cbn [bind fst snd]; exact Eb. }
  split; [exact Ea|]. eexists. apply (inv_set b m vs F i (V c xi ki []) t s4 (V c xj kj []) (t :: Fn) I Hi Ht).
  - intros k Hk0. rewrite D1 in Hk0. destruct (in_dec Nat.eq_dec k F3) as [K|K]; [now apply D2|]. rewrite D3 by exact K. now apply P3.
  - intros k Kl Kn. rewrite D3 by (intros C; apply P4 in C; cbn [stNext s2 put] in C; lia). rewrite P2 by (cbn [stNext s2 put]; lia).
    unfold s2. rewrite put_same; [now apply G2|]. intros ->. apply Kn. rewrite A4. now left.
  - eapply frame; [exact R2|]. intros k Hk0. pose proof (rep_live _ _ _ _ R2 k Hk0) as Lv. apply (live_below _ _ Fr2) in Lv. rewrite D3 by (intros C; apply P4 in C; lia). now apply P2.
  - exact N2.
  - exact Wj0.
  - intros k [<-|Hk0]; [left; rewrite A4; now left|]. right. apply G4 in Hk0. lia.
  - intros Hb k Hk0. destruct (Nat.lt_ge_cases k (stNext s2)) as [L|L].
    + rewrite D3 in Hk0 by (intros C; apply P4 in C; lia). rewrite P2 in Hk0 by exact L. destruct (Nat.eq_dec k t) as [->|Nkt]; [left; now left|].
      destruct (Nat.lt_ge_cases k (stNext (mcStore m))) as [L2|L2]; [|left; right; apply G4; cbn [stNext s2 put] in L; lia].
      right. split; [|exact L2]. rewrite A4. specialize (Tidy Hb). subst ki. apply reps_nil in A2 as [_ ->]. cbn. intros [C|[]]. congruence.
    + exfalso. apply Hk0. destruct (in_dec Nat.eq_dec k F3) as [K|K]; [now apply D2|]. rewrite D3 by exact K. apply P3. destruct (Nat.lt_ge_cases k (stNext s3)) as [L3|L3]; [|exact L3]. exfalso. apply K, P4. lia.
Qed.
(** CutCollection *)
Lemma assign_cuts b m vs F i j vi vj t o : Inv b m vs F -> val_at vs i = Some vi -> val_at vs j = Some vj -> var m i = Some t -> var m j = Some o ->
  vcls vi = KCuts -> vcls vj = KCuts -> i <> j ->
  exists s', assign (mcStore m) t o = Ok s' /\ exists F', Inv b (mkMach s' (mcVars m)) (upd vs i (Some vj)) F'.
Proof.
  intros I Hi Hj Ht Ho Hci Hcj Nij. pose proof I as [I1 [I2 [I3 [I4 I5]]]].
  pose proof (I3 i) as Ii. rewrite Hi in Ii. destruct Ii as [t' [E [Ri [Ni Wi]]]]. rewrite Ht in E. injection E as <-.
  pose proof (I3 j) as Ij. rewrite Hj in Ij. destruct Ij as [o' [E [Rj [Nj Wj]]]]. rewrite Ho in E. injection E as <-.
  destruct vi as [c xi ki fi], vj as [c' xj kj fj]. cbn [vcls vkids] in *. subst c c'.
  assert (fi = []) by (eapply wfv_nofuns; [eauto|discriminate]). assert (fj = []) by (eapply wfv_nofuns; [eauto|discriminate]). subst fi fj.
  pose proof (fuel_ok _ _ _ _ I1 Ri Ni) as Hfi. pose proof (fuel_ok _ _ _ _ I1 Rj Nj) as Hfj. rewrite size_V in Hfi, Hfj.
  pose proof Wj as Wj0. apply wfv_V in Wj as [W1 [W2 _]]. apply wfv_V in Wi as [V1 [V2 _]].
  pose proof Rj as Rj0. apply rep_inv in Ri as [lk [lf [Fk [Ff [A1 [A2 [A3 A4]]]]]]]. apply reps_nil in A3 as [-> ->]. rewrite app_nil_r in A4.
  rewrite A4 in Ni. inversion Ni as [|? ? Nt NFk]; subst.
  destruct (releases_ok (fuel (mcStore m)) ki (kids_releasable _ V1 V2) ltac:(lia) (mcStore m) lk Fk A2 NFk) as [s1 [E1 [C1 [C2 C3]]]].
  set (s2 := put s1 t (mkCell KCuts xi [] [])).
  assert (Dis : forall k, In k (F j) -> k <> t /\ ~ In k Fk).
  { intros k Hk. split; intros C; [subst k; exact (I4 i j t Nij ltac:(rewrite A4; now left) Hk)|exact (I4 i j k Nij ltac:(rewrite A4; now right) Hk)]. }
  assert (Rj2 : rep (stHeap s2) (V KCuts xj kj []) o (F j)).
  { eapply frame; [exact Rj0|]. intros k Hk. destruct (Dis k Hk). unfold s2. rewrite put_same by assumption. now apply C3. }
  assert (Lt : t < stNext (mcStore m)) by (apply live_below; [exact I1|]; rewrite A1; discriminate).
  assert (Fr2 : fresh s2).
  { apply fresh_put; [|lia]. intros k Hk. rewrite C1 in Hk. destruct (in_dec Nat.eq_dec k Fk) as [K|K]; [now apply C2|]. rewrite C3 by exact K. now apply I1. }
  apply rep_inv in Rj as [mk [mf [Gk [Gf [B1 [B2 [B3 B4]]]]]]]. apply reps_nil in B3 as [-> ->].
  apply rep_inv in Rj2 as [mk2 [mf2 [Gk2 [Gf2 [Q1 [Q2 [Q3 Q4]]]]]]]. apply reps_nil in Q3 as [-> ->].
  destruct (each_ok (fuel s2) kj (kids_clonable _ W1 W2) ltac:(apply sizes_each; unfold fuel in *; cbn [stNext s2 put]; lia) s2 mk2 Gk2 Q2 Fr2) as [s3 [ls' [Fn [E3 [[G1 [G2 [G3 G4]]] [R3 N3]]]]]].
  exists (put s3 t (mkCell KCuts xj ls' [])). split.
  { unfold assign. unfold look at 1 2. rewrite A1, B1. cbn [bind cCls cKids cVal cFuns]. rewrite E1. cbn [bind]. fold s2. unfold look. rewrite Q1. cbn [bind cKids cVal]. rewrite E3. reflexivity. }
  assert (NFn : forall k, In k Fn -> stNext (mcStore m) <= k) by (intros k Hk; apply G4 in Hk; cbn [stNext s2 put] in Hk; lia).
  assert (Below : forall k, k < stNext s2 -> k <> t -> stHeap (put s3 t (mkCell KCuts xj ls' [])) k = stHeap s1 k).
  { intros k Hk Hn. rewrite put_same by exact Hn. rewrite G2 by exact Hk. unfold s2. now rewrite put_same. }
  eexists. apply (inv_set b m vs F i (V KCuts xi ki []) t _ (V KCuts xj kj []) (t :: Fn) I Hi Ht).
  - apply fresh_put; [exact G3|]. cbn [stNext s2 put] in G1. lia.
  - intros k Kl Kn. rewrite A4 in Kn. rewrite Below; [|cbn [stNext s2 put]; lia|intros ->; apply Kn; now left]. apply C3. intros C. apply Kn. now right.
  - apply rep_mk. exists ls', [], Fn, []. split; [apply put_at|]. split; [|split; [reflexivity|now rewrite app_nil_r]]. eapply frames; [exact R3|]. intros k Hk. apply put_same. intros ->. apply NFn in Hk. lia.
  - constructor; [|exact N3]. intros C. apply NFn in C. lia.
  - exact Wj0.
  - intros k [<-|Hk]; [left; rewrite A4; now left|right; now apply NFn].
  - intros Hb k Hk. destruct (Nat.eq_dec k t) as [->|Nkt]; [left; now left|]. destruct (Nat.lt_ge_cases k (stNext s2)) as [L|L].
    + rewrite Below in Hk by auto. right. cbn [stNext s2 put] in L. split; [|lia]. rewrite A4. intros [C|C]; [congruence|]. apply Hk. now apply C2.
    + left. right. apply G4. split; [exact L|]. rewrite put_same in Hk by exact Nkt. apply live_below; auto.
Qed.
(** plain values *)
Lemma assign_leaf b m vs F i j vi vj t o : Inv b m vs F -> val_at vs i = Some vi -> val_at vs j = Some vj -> var m i = Some t -> var m j = Some o ->
  vcls vi = vcls vj -> In (vcls vi) [KPdf; KFun; KCut; KHist; KBed] ->
  exists s', assign (mcStore m) t o = Ok s' /\ exists F', Inv b (mkMach s' (mcVars m)) (upd vs i (Some vj)) F'.
Proof.
  intros I Hi Hj Ht Ho Hc Hl. pose proof I as [I1 [I2 [I3 [I4 I5]]]].
  pose proof (I3 i) as Ii. rewrite Hi in Ii. destruct Ii as [t' [E [Ri [Ni Wi]]]]. rewrite Ht in E. injection E as <-.
  pose proof (I3 j) as Ij. rewrite Hj in Ij. destruct Ij as [o' [E [Rj [Nj Wj]]]]. rewrite Ho in E. injection E as <-.
  destruct vi as [c xi ki fi], vj as [c' xj kj fj]. cbn [vcls vkids] in *. subst c'.
  assert (Nv : c <> KVary) by (intros ->; cbn in Hl; intuition discriminate).
  assert (fi = []) by (eapply wfv_nofuns; eauto). assert (fj = []) by (eapply wfv_nofuns; eauto). subst fi fj.
  assert (ki = []) by (apply wfv_V in Wi as [_ [_ [_ [_ [_ [_ W]]]]]]; now apply W). assert (kj = []) by (apply wfv_V in Wj as [_ [_ [_ [_ [_ [_ W]]]]]]; now apply W). subst ki kj.
  apply rep_inv in Ri as [lk [lf [Fk [Ff [A1 [A2 [A3 A4]]]]]]]. apply reps_nil in A3 as [-> ->]. apply reps_nil in A2 as [-> ->].
  apply rep_inv in Rj as [mk [mf [Gk [Gf [B1 [B2 [B3 B4]]]]]]]. apply reps_nil in B3 as [-> ->]. apply reps_nil in B2 as [-> ->]. cbn [app] in *.
  exists (put (mcStore m) t (mkCell c xj [] [])). split.
  { unfold assign, look. rewrite A1, B1. cbn [bind cCls cKids cVal cFuns]. destruct c; cbn in Hl; try reflexivity; intuition discriminate. }
  assert (Lt : t < stNext (mcStore m)) by (apply live_below; [exact I1|]; rewrite A1; discriminate).
  eexists. apply (inv_set b m vs F i (V c xi [] []) t _ (V c xj [] []) [t] I Hi Ht).
  - now apply fresh_put.
  - intros k _ Kn. apply put_same. intros ->. apply Kn. rewrite A4. now left.
  - apply rep_mk. exists [], [], [], []. split; [apply put_at|]. repeat split; reflexivity.
  - repeat constructor. intros [].
  - exact Wj.
  - intros k [<-|[]]. left. rewrite A4. now left.
  - intros Hb k Hk. destruct (Nat.eq_dec k t) as [->|N]; [left; now left|]. right. rewrite put_same in Hk by exact N. split; [rewrite A4; intros [C|[]]; congruence|]. now apply live_below.
Qed.
