(** C93: giving parts, setting parameters, whole programs. *)
From Coq Require Import Lia Arith.
From Verif Require Import Base.Res Base.Num Model.Own Spec.OwnSpec Proofs.HistP Proofs.OwnP Proofs.OwnP2.
Local Open Scope res_scope.
Local Open Scope nat_scope.

Lemma grown_alloc s s1 F c : grown s s1 F -> grown s (fst (alloc s1 c)) (stNext s1 :: F).
Proof.
  intros [G1 [G2 [G3 G4]]]. unfold alloc. cbn [fst]. split; [cbn; lia|]. cbn [stHeap stNext]. unfold fresh, hset. cbn [stHeap stNext]. split; [intros k Hk; destruct (Nat.eqb_spec k (stNext s1)); [lia|now apply G2]|].
  split; [intros k Hk; destruct (Nat.eqb_spec k (stNext s1)); [lia|apply G3; lia]|]. intros k. cbn [In]. rewrite G4. lia.
Qed.
Lemma wf_jump v : wfv v -> vcls v = KPdf -> wfv (V KJump 0 [v] []).
Proof.
  intros W E. apply wfv_V. split; [repeat constructor; exact W|]. split; [repeat constructor; rewrite E; [reflexivity|discriminate]|]. split; [tauto|]. split; [constructor|].
  split; [cbn; lia|]. split; [discriminate|]. cbn. intuition discriminate.
Qed.
Lemma part_ok n s c v l F : wfv v -> vcls v <> KVary -> rep (stHeap s) v l F -> fresh s -> size v <= n ->
  exists s' l' F', part n s c l = Ok (s', l') /\ grown s s' F' /\ rep (stHeap s') (packed c v) l' F' /\ NoDup F' /\ wfv (packed c v).
Proof.
  intros W Nv R Fr Hn. destruct (clone_ok v W Nv n s l F R Fr Hn) as [s1 [l1 [F1 [E [G [R1 N1]]]]]]. destruct (rep_head _ _ _ _ R) as [_ [cl [Ec Hc]]].
  unfold part, look, packed. rewrite Ec. cbn [bind]. rewrite E. cbn [bind fst snd]. rewrite Hc.
  assert (Plain : exists s' l' F', Ok (s1, l1) = Ok (s', l') /\ grown s s' F' /\ rep (stHeap s') v l' F' /\ NoDup F' /\ wfv v) by (exists s1, l1, F1; auto).
  destruct (vcls v) eqn:Hk.
  2-14: (destruct c; exact Plain).
  assert (Wrap : exists s' l' F', Ok (alloc s1 (mkCell KJump 0 [l1] [])) = Ok (s', l') /\ grown s s' F' /\ rep (stHeap s') (V KJump 0 [v] []) l' F' /\ NoDup F' /\ wfv (V KJump 0 [v] [])).
  { pose proof G as [G1 [G2 [G3 G4]]]. eexists _, (stNext s1), (stNext s1 :: F1). split; [reflexivity|]. split; [exact (grown_alloc _ _ _ (mkCell KJump 0 [l1] []) G)|]. split; [|split].
    - apply rep_mk. exists [l1], [], F1, []. cbn [stHeap alloc fst]. split; [unfold hset; now rewrite Nat.eqb_refl|]. split; [|split; [reflexivity|now rewrite app_nil_r]].
      cbn. exists F1, []. rewrite app_nil_r. split; [|auto]. eapply frame; [exact R1|]. intros k Hk0. apply G4 in Hk0. unfold hset. destruct (Nat.eqb_spec k (stNext s1)); [lia|reflexivity].
    - constructor; [|exact N1]. intros C. apply G4 in C. lia.
    - now apply wf_jump. }
  destruct c; try exact Plain; exact Wrap.
Qed.
(** what giving does to a holder *)
Lemma wf_given t v : wfv t -> wfv v -> vcls v <> KVary -> takes (vcls t) (vcls v) = true -> wfv (given t v).
Proof.
  intros Wt Wv Nv T. destruct t as [c x ks fs]. cbn [vcls] in T. pose proof Wt as Wt0. apply wfv_V in Wt as [W1 [W2 [W3 [W4 [W5 [W6 W7]]]]]].
  assert (Cl : clonable (vcls v) = true) by (destruct c, (vcls v); try discriminate; reflexivity).
  assert (Leaf : vcls v = KFun -> exists y, v = V KFun y [] []).
  { destruct v as [c' y ks' fs']. cbn. intros ->. exists y. apply wfv_V in Wv as [_ [_ [U3 [_ [_ [_ U7]]]]]]. rewrite (U7 ltac:(cbn; tauto)). destruct fs'; [reflexivity|]. exfalso. discriminate (U3 ltac:(discriminate)). }
  assert (Grow : forall c', c' = KCuts \/ c' = KEdm -> wfv (V c' x ks []) -> wfv (V c' x (ks ++ [v]) [])).
  { intros c' Hc' W. apply wfv_V in W as [X1 [X2 _]]. apply wfv_V. split; [apply Forall_app; split; [exact X1|repeat constructor; exact Wv]|]. split; [apply Forall_app; split; [exact X2|repeat constructor; auto]|].
    split; [tauto|]. split; [constructor|]. split; [destruct Hc' as [-> | ->]; cbn; intuition discriminate|]. split; [destruct Hc' as [-> | ->]; discriminate|]. destruct Hc' as [-> | ->]; cbn; intuition discriminate. }
  assert (Hold : forall w, wfv w -> clonable (vcls w) = true -> vcls w <> KVary -> c <> KAna -> ~ In c [KPdf; KFun; KCut; KHist; KBed] -> wfv (V c x [w] fs)).
  { intros w Ww Cw Nw Na Nl. apply wfv_V. split; [repeat constructor; exact Ww|]. split; [repeat constructor; auto|]. split; [exact W3|]. split; [exact W4|]. split; [cbn; lia|]. split; [intros; contradiction|intros; contradiction]. }
  destruct c; cbn [takes] in T; try discriminate; cbn [given].
  - destruct (vcls v) eqn:Ev; try discriminate; try contradiction.
    + unfold packed. rewrite Ev. apply Hold; [now apply wf_jump|reflexivity|discriminate|discriminate|cbn; intuition discriminate].
    + destruct (Leaf eq_refl) as [y ->]. apply wfv_V. split; [exact W1|]. split; [exact W2|]. split; [reflexivity|]. split; [apply Forall_app; split; [exact W4|repeat constructor; eauto]|]. auto.
    + unfold packed. rewrite Ev. apply Hold; try (cbn; intuition discriminate); try discriminate; auto; rewrite Ev; [reflexivity|discriminate].
  - unfold packed. destruct (vcls v) eqn:Ev; try discriminate; try contradiction; apply Hold; try (cbn; intuition discriminate); try discriminate; auto; try (now apply wf_jump); rewrite ?Ev; try reflexivity; discriminate.
  - unfold packed. destruct (vcls v) eqn:Ev; try discriminate; try contradiction; apply Hold; try (cbn; intuition discriminate); try discriminate; auto; try (now apply wf_jump); rewrite ?Ev; try reflexivity; discriminate.
  - assert (fs = []) by (eapply wfv_nofuns; [exact Wt0|discriminate]). subst fs. apply Grow; auto.
  - assert (fs = []) by (eapply wfv_nofuns; [exact Wt0|discriminate]). subst fs. apply Grow; auto.
  - unfold packed. destruct (vcls v) eqn:Ev; try discriminate; try contradiction; apply Hold; try (cbn; intuition discriminate); try discriminate; auto; try (now apply wf_jump); rewrite ?Ev; try reflexivity; discriminate.
Qed.
Lemma give_step b m vs F i j vi vj t o : Inv b m vs F -> val_at vs i = Some vi -> val_at vs j = Some vj -> var m i = Some t -> var m j = Some o ->
  takes (vcls vi) (vcls vj) = true -> vcls vj <> KVary ->
  (b = true -> vcls vi = KEvConv \/ vcls vi = KRes \/ (vcls vi = KVary /\ vcls vj <> KFun) -> vkids vi = []) ->
  exists s', give (mcStore m) t o = Ok s' /\ exists F', Inv b (mkMach s' (mcVars m)) (upd vs i (Some (given vi vj))) F'.
Proof.
  intros I Hi Hj Ht Ho Tk Nv Tidy. pose proof I as [I1 [I2 [I3 [I4 I5]]]].
  assert (Nij : i <> j) by (intros <-; rewrite Hi in Hj; injection Hj as <-; destruct (vcls vi); try discriminate; contradiction).
  pose proof (I3 i) as Ii. rewrite Hi in Ii. destruct Ii as [t' [E [Ri [Ni Wi]]]]. rewrite Ht in E. injection E as <-.
  pose proof (I3 j) as Ij. rewrite Hj in Ij. destruct Ij as [o' [E [Rj [Nj Wj]]]]. rewrite Ho in E. injection E as <-.
  pose proof (wf_given vi vj Wi Wj Nv Tk) as Wg.
  pose proof (fuel_ok _ _ _ _ I1 Ri Ni) as Hfi. pose proof (fuel_ok _ _ _ _ I1 Rj Nj) as Hfj.
  destruct vi as [c xi ki fi]. cbn [vcls vkids] in *. rewrite size_V in Hfi.
  pose proof (rep_head _ _ _ _ Rj) as [Lo [co [Eo Hco]]].
  apply rep_inv in Ri as [lk [lf [Fk [Ff [A1 [A2 [A3 A4]]]]]]].
  assert (Lt : t < stNext (mcStore m)) by (apply live_below; [exact I1|]; rewrite A1; discriminate).
  rewrite A4 in Ni. pose proof Ni as Ni0. inversion Ni as [|? ? Nt Ni']; subst. apply nodup_app in Ni' as [NFk [NFf Dkf]].
  assert (Dis : forall k, In k (F j) -> k <> t /\ ~ In k Fk /\ ~ In k Ff).
  { intros k Hk. split; [|split]; intros C; apply (I4 i j k Nij); auto; rewrite A4; [subst; now left|right; apply in_or_app; now left|right; apply in_or_app; now right]. }
  (* the store before the part is made: a Convolution has freed its kernel *)
  assert (S0 : exists s0, match c with KConv => foldM (release (fuel (mcStore m))) lk (mcStore m) | _ => Ok (mcStore m) end = Ok s0 /\ stNext s0 = stNext (mcStore m) /\ fresh s0 /\
     (forall k, ~ In k Fk -> stHeap s0 k = stHeap (mcStore m) k) /\ (c = KConv -> forall k, In k Fk -> stHeap s0 k = None) /\ (c <> KConv -> forall k, stHeap s0 k = stHeap (mcStore m) k)).
  { destruct (match c with KConv => true | _ => false end) eqn:Bc.
    - destruct c; try discriminate. pose proof Wi as Wi0. apply wfv_V in Wi0 as [V1 [V2 _]].
      destruct (releases_ok (fuel (mcStore m)) ki (kids_releasable _ V1 V2) ltac:(lia) (mcStore m) lk Fk A2 NFk) as [s1 [E1 [C1 [C2 C3]]]].
      exists s1. split; [exact E1|]. split; [exact C1|]. split; [intros k Hk; rewrite C1 in Hk; destruct (in_dec Nat.eq_dec k Fk) as [K|K]; [now apply C2|rewrite C3 by exact K; now apply I1]|]. split; [exact C3|]. split; [intros _; exact C2|intros C; contradiction].
    - exists (mcStore m). split; [destruct c; try discriminate; reflexivity|]. split; [reflexivity|]. split; [exact I1|]. split; [auto|]. split; [intros ->; discriminate|auto]. }
  destruct S0 as [s0 [E0 [Nx0 [Fr0 [K0 [K1 K2]]]]]].
  assert (Rj0 : rep (stHeap s0) vj o (F j)) by (eapply frame; [exact Rj|]; intros k Hk; apply K0; now apply Dis).
  destruct (part_ok (fuel s0) s0 c vj o (F j) Wj Nv Rj0 Fr0 ltac:(unfold fuel in *; rewrite Nx0; exact Hfj)) as [s1 [l1 [Fn [E1 [[G1 [G2 [G3 G4]]] [R1 [N1 _]]]]]]].
  assert (NFn : forall k, In k Fn -> stNext (mcStore m) <= k) by (intros k Hk; apply G4 in Hk; lia).
  set (newc := match c, vcls vj with
    | KVary, KFun => mkCell KVary xi lk (lf ++ [l1])
    | (KCuts | KEdm), _ => mkCell c xi (lk ++ [l1]) lf
    | _, _ => mkCell c xi [l1] lf end).
  exists (put s1 t newc). split.
  { unfold give. unfold look at 1 2. rewrite A1, Eo. cbn [bind cCls cKids cVal cFuns]. rewrite E0. cbn [bind]. rewrite E1. cbn [bind fst snd]. rewrite Hco. reflexivity. }
  assert (Keep : forall k, k < stNext (mcStore m) -> k <> t -> stHeap (put s1 t newc) k = stHeap s0 k) by (intros k Hk Hn; rewrite put_same by exact Hn; apply G2; lia).
  assert (BelowF : forall k, In k (Fk ++ Ff) -> k < stNext (mcStore m)) by (intros k Hk; apply (F_below b m vs F i k I); rewrite A4; now right).
  assert (NtF : forall k, In k (Fk ++ Ff) -> k <> t) by (intros k Hk ->; contradiction).
  assert (Rn : rep (stHeap (put s1 t newc)) (packed c vj) l1 Fn) by (eapply frame; [exact R1|]; intros k Hk; apply put_same; intros ->; apply NFn in Hk; lia).
  assert (Rf : reps (stHeap (put s1 t newc)) fi lf Ff).
  { eapply frames; [exact A3|]. intros k Hk. rewrite Keep; [apply K0; intros C; exact (Dkf k C Hk)|apply BelowF, in_or_app; now right|apply NtF, in_or_app; now right]. }
  assert (Rk : c <> KConv -> reps (stHeap (put s1 t newc)) ki lk Fk).
  { intros Nc. eapply frames; [exact A2|]. intros k Hk. rewrite Keep; [now apply K2|apply BelowF, in_or_app; now left|apply NtF, in_or_app; now left]. }
  assert (Fin : exists F', rep (stHeap (put s1 t newc)) (given (V c xi ki fi) vj) t (t :: F') /\ (forall k, In k F' <-> In k Fn \/ In k Ff \/ (In k Fk /\ (c = KCuts \/ c = KEdm \/ (c = KVary /\ vcls vj = KFun)))) /\ NoDup F').
  { assert (Nfn : forall k, In k Fn -> ~ In k Fk /\ ~ In k Ff).
    { intros k Hk. apply NFn in Hk. split; intros C; assert (Q : In k (Fk ++ Ff)) by (apply in_or_app; tauto); apply BelowF in Q; lia. }
    assert (Hold : c <> KCuts -> c <> KEdm -> ~ (c = KVary /\ vcls vj = KFun) -> newc = mkCell c xi [l1] lf -> given (V c xi ki fi) vj = V c xi [packed c vj] fi ->
      exists F', rep (stHeap (put s1 t newc)) (given (V c xi ki fi) vj) t (t :: F') /\ (forall k, In k F' <-> In k Fn \/ In k Ff \/ (In k Fk /\ (c = KCuts \/ c = KEdm \/ (c = KVary /\ vcls vj = KFun)))) /\ NoDup F').
    { intros X1 X2 X3 En Eg. exists (Fn ++ Ff). rewrite Eg. split; [|split].
      - apply rep_mk. exists [l1], lf, Fn, Ff. split; [rewrite put_at, En; reflexivity|]. split; [cbn; exists Fn, []; rewrite app_nil_r; auto|]. auto.
      - intros k. rewrite in_app_iff. tauto.
      - apply app_nodup; auto. intros k Hk. now apply Nfn. }
    assert (Grow : c = KCuts \/ c = KEdm -> newc = mkCell c xi (lk ++ [l1]) lf -> given (V c xi ki fi) vj = V c xi (ki ++ [packed c vj]) fi ->
      exists F', rep (stHeap (put s1 t newc)) (given (V c xi ki fi) vj) t (t :: F') /\ (forall k, In k F' <-> In k Fn \/ In k Ff \/ (In k Fk /\ (c = KCuts \/ c = KEdm \/ (c = KVary /\ vcls vj = KFun)))) /\ NoDup F').
    { intros X1 En Eg. exists ((Fk ++ Fn) ++ Ff). rewrite Eg. split; [|split].
      - apply rep_mk. exists (lk ++ [l1]), lf, (Fk ++ Fn), Ff. split; [rewrite put_at, En; reflexivity|]. split; [apply reps_app; [apply Rk; destruct X1; subst; discriminate|cbn; exists Fn, []; rewrite app_nil_r; auto]|]. auto.
      - intros k. rewrite !in_app_iff. clear - X1; tauto.
      - apply app_nodup; auto; [apply app_nodup; auto; intros k Hk C; exact (proj1 (Nfn k C) Hk)|]. intros k Hk C. apply in_app_or in Hk as [Hk|Hk]; [exact (Dkf k Hk C)|exact (proj2 (Nfn k Hk) C)]. }
    destruct (match c, vcls vj with KVary, KFun => true | _, _ => false end) eqn:Bv.
    - destruct c; try discriminate. destruct (vcls vj) eqn:Ej; try discriminate. exists (Fk ++ (Ff ++ Fn)). cbn [given]. rewrite Ej. split; [|split].
      + apply rep_mk. exists lk, (lf ++ [l1]), Fk, (Ff ++ Fn). split; [rewrite put_at; subst newc; cbn; reflexivity|]. split; [apply Rk; discriminate|]. split; [|reflexivity].
        apply reps_app; [exact Rf|]. assert (Ep : packed KVary vj = vj) by (unfold packed; now rewrite Ej). rewrite Ep in Rn. cbn. exists Fn, []. rewrite app_nil_r. auto.
      + intros k. rewrite !in_app_iff. clear - Ej; tauto.
      + apply app_nodup; auto; [apply app_nodup; auto; intros k Hk C; exact (proj2 (Nfn k C) Hk)|]. intros k Hk C. apply in_app_or in C as [C|C]; [exact (Dkf k Hk C)|exact (proj1 (Nfn k C) Hk)].
    - destruct c; cbn [takes] in Tk; try discriminate; subst newc; cbn [given].
      + apply Hold; try discriminate; [intros [_ C]; rewrite C in Bv; discriminate| |]; unfold given; destruct (vcls vj); try discriminate; reflexivity.
      + apply Hold; try discriminate; [intros [C _]; discriminate C| |]; reflexivity.
      + apply Hold; try discriminate; [intros [C _]; discriminate C| |]; reflexivity.
      + apply Grow; auto.
      + apply Grow; auto.
      + apply Hold; try discriminate; [intros [C _]; discriminate C| |]; reflexivity. }
  destruct Fin as [F' [Rg [InF' NF']]]. 
  eexists. apply (inv_set b m vs F i (V c xi ki fi) t _ _ (t :: F') I Hi Ht).
  - apply fresh_put; [exact G3|]. lia.
  - intros k Kl Kn. rewrite A4 in Kn. rewrite Keep; [|exact Kl|intros ->; apply Kn; now left]. apply K0. intros C. apply Kn. right. apply in_or_app. now left.
  - exact Rg.
  - constructor; [|exact NF']. intros C. apply InF' in C as [C|[C|[C _]]]; [apply NFn in C; lia| |]; apply Nt, in_or_app; tauto.
  - exact Wg.
  - intros k [<-|Hk]; [left; rewrite A4; now left|]. apply InF' in Hk as [Hk|[Hk|[Hk _]]]; [right; now apply NFn| |]; left; rewrite A4; right; apply in_or_app; tauto.
  - intros Hb k Hk. destruct (Nat.eq_dec k t) as [->|Nkt]; [left; now left|]. destruct (Nat.lt_ge_cases k (stNext (mcStore m))) as [L|L].
    + destruct (in_dec Nat.eq_dec k Ff) as [Kf|Kf]; [left; right; apply InF'; tauto|]. destruct (in_dec Nat.eq_dec k Fk) as [Kk|Kk].
      * left. right. apply InF'. right. right. split; [exact Kk|]. rewrite Keep in Hk by auto.
        destruct (match c with KCuts | KEdm => true | KVary => match vcls vj with KFun => true | _ => false end | _ => false end) eqn:B; [destruct c; try discriminate; auto; destruct (vcls vj) eqn:Ej; try discriminate; auto|].
        exfalso. assert (Q : c = KConv \/ ki = []).
        { destruct c; cbn [takes] in Tk; try discriminate; auto; right; apply (Tidy Hb); auto. right. right. split; [reflexivity|]. intros C. rewrite C in B. discriminate. }
        destruct Q as [-> | ->]; [apply Hk; now apply K1|]. apply reps_nil in A2 as [_ ->]. destruct Kk.
      * right. split; [|exact L]. rewrite A4. intros [C|C]; [congruence|]. apply in_app_or in C. tauto.
    + left. right. apply InF'. left. apply G4. rewrite Nx0. split; [exact L|]. rewrite put_same in Hk by exact Nkt. apply live_below; auto.
Qed.

Lemma param_cls x v : vcls (param x v) = vcls v.
Proof. destruct v as [c y ks fs]. destruct c; reflexivity. Qed.
Lemma wf_param x v : wfv v -> wfv (param x v).
Proof.
  induction v as [c y ks fs IHk IHf] using val_ind'. intros W. pose proof W as W0. apply wfv_V in W as [W1 [W2 [W3 [W4 [W5 [W6 W7]]]]]].
  assert (Kids : ~ In c [KPdf; KFun; KCut; KHist; KBed] -> wfv (V c y (map (param x) ks) fs)).
  { intros Nl. apply wfv_V. split; [unfold wfs in *; rewrite Forall_forall in *; intros k Hk; apply in_map_iff in Hk as [k0 [<- Hk0]]; apply IHk; auto|].
    split; [rewrite Forall_forall in *; intros k Hk; apply in_map_iff in Hk as [k0 [<- Hk0]]; rewrite param_cls; auto|]. split; [exact W3|]. split; [exact W4|]. split; [rewrite map_length; exact W5|].
    split; [intros E C; apply (W6 E); destruct ks; [reflexivity|discriminate]|intros; contradiction]. }
  destruct c; cbn [param]; try exact W0; try (apply Kids; cbn; intuition discriminate).
  - apply wfv_V. split; [exact W1|]. split; [exact W2|]. split; [auto|]. split; [|auto]. rewrite Forall_forall in *. intros f Hf. apply in_map_iff in Hf as [f0 [<- Hf0]]. destruct (W4 f0 Hf0) as [z ->]. cbn. eauto.
Qed.
Lemma param_step b m vs F i v l x : Inv b m vs F -> val_at vs i = Some v -> var m i = Some l -> (vcls v = KConv -> vkids v <> []) ->
  exists s', caught (mcStore m) (setParam (fuel (mcStore m)) x (mcStore m) l) = Ok s' /\ exists F', Inv b (mkMach s' (mcVars m)) (upd vs i (Some (param x v))) F'.
Proof.
  intros I Hv Hl Ck. pose proof I as [I1 [I2 [I3 [I4 I5]]]]. pose proof (I3 i) as Ii. rewrite Hv in Ii. destruct Ii as [l' [E [R [N W]]]]. rewrite Hl in E. injection E as <-.
  assert (T : exists s', caught (mcStore m) (setParam (fuel (mcStore m)) x (mcStore m) l) = Ok s' /\ tuned (mcStore m) s' (F i) /\ rep (stHeap s') (param x v) l (F i)).
  { destruct (setParam_ok x v W Ck (fuel (mcStore m)) (mcStore m) l (F i) R N (fuel_ok _ _ _ _ I1 R N)) as [[s' [E [T R']]]|[e [E P]]]; rewrite E; cbn [caught].
    - eauto.
    - exists (mcStore m). split; [reflexivity|]. split; [split; auto|]. now rewrite P. }
  destruct T as [s' [E [[T1 T2] R']]]. exists s'. split; [exact E|]. eexists. apply (inv_set b m vs F i v l s' (param x v) (F i) I Hv Hl).
  - intros k Hk. rewrite T1 in Hk. rewrite T2; [now apply I1|]. intros C. apply (F_below _ _ _ _ i k I) in C. lia.
  - intros k _ Kn. now apply T2.
  - exact R'.
  - exact N.
  - now apply wf_param.
  - auto.
  - intros Hb k Hk. destruct (in_dec Nat.eq_dec k (F i)) as [K|K]; [now left|]. right. split; [exact K|]. rewrite T2 in Hk by exact K. now apply live_below.
Qed.

Lemma built_ok c d : built_from c d = true -> clonable d = true /\ d <> KVary.
Proof. destruct c, d; cbn; intros H; try discriminate H; split; first [reflexivity|discriminate]. Qed.
Lemma from_list b m vs F c is ls ps : Inv b m vs F -> forallb (fun i => typed vs i (built_from c)) is = true -> all_some (map (var m) is) = Some ls -> all_some (map (val_at vs) is) = Some ps ->
  exists G, reps (stHeap (mcStore m)) ps ls G /\ Forall (fun v => wfv v /\ vcls v <> KVary) ps /\ Forall (fun v => size v <= fuel (mcStore m)) ps /\
    Forall (fun v => clonable (vcls v) = true /\ vcls v <> KVary) ps /\ List.length ps = List.length is.
Proof.
  intros I. pose proof I as [I1 [_ [I3 _]]]. revert ls ps. induction is as [|i is IH]; intros ls ps Ht Hl Hp; cbn in *.
  - injection Hl as <-. injection Hp as <-. exists []. cbn. auto.
  - apply andb_prop in Ht as [T1 T2]. specialize (I3 i). unfold typed in T1. destruct (val_at vs i) as [v|]; [|discriminate]. destruct I3 as [l [E [R [N W]]]]. rewrite E in Hl.
    destruct (all_some (map (var m) is)) as [ls'|]; [|discriminate]. destruct (all_some (map (val_at vs) is)) as [ps'|]; [|discriminate]. injection Hl as <-. injection Hp as <-.
    destruct (IH ls' ps' T2 eq_refl eq_refl) as [G [Q1 [Q2 [Q3 [Q4 Q5]]]]]. exists (F i ++ G).
    assert (Cv : clonable (vcls v) = true /\ vcls v <> KVary) by (exact (built_ok c (vcls v) T1)).
    split; [cbn; exists (F i), G; auto|]. split; [constructor; [split; [exact W|apply Cv]|exact Q2]|]. split; [constructor; [eapply fuel_ok; eauto|exact Q3]|]. split; [constructor; auto|]. cbn. now rewrite Q5.
Qed.
Lemma all_some_iff b m vs F is : Inv b m vs F -> (all_some (map (var m) is) = None <-> all_some (map (val_at vs) is) = None).
Proof.
  intros I. pose proof I as [_ [_ [I3 _]]]. induction is as [|i is IH]; cbn; [split; discriminate|]. specialize (I3 i). destruct (val_at vs i) as [v|].
  - destruct I3 as [l [-> _]]. destruct (all_some (map (var m) is)), (all_some (map (val_at vs) is)); split; intros; try discriminate; try reflexivity; exfalso.
    all: first [discriminate (proj2 IH eq_refl)|discriminate (proj1 IH eq_refl)].
  - destruct I3 as [-> _]. tauto.
Qed.
Lemma cls_eqb_eq a b : cls_eqb a b = true -> a = b.
Proof. destruct a, b; cbn; intros; try discriminate; reflexivity. Qed.
Lemma step_ok b m vs F o : Inv b m vs F -> allowed vs o -> (b = true -> tidy vs o) -> exists m', exec m o = Ok m' /\ exists F', Inv b m' (vexec vs o) F'.
Proof.
  intros I Al Td. pose proof I as [I1 [I2 [I3 [I4 I5]]]]. pose proof (fun i => class_inv b m vs F i I) as Cl.
  assert (Same : exists m', Ok m = Ok m' /\ exists F', Inv b m' vs F') by (exists m; eauto).
  destruct o as [c x|c is|i|i|i j|i j|i x|i]; cbn [exec vexec].
  - destruct (bare c) eqn:B; [|exact Same]. eexists. split; [reflexivity|]. eexists. apply (inv_add b m vs F _ _ _ [stNext (mcStore m)] I).
    + replace [stNext (mcStore m)] with (stNext (mcStore m) :: []) by reflexivity. apply (grown_alloc (mcStore m) (mcStore m) [] (mkCell c x [] [])). split; [lia|]. split; [auto|]. split; [exact I1|]. intros k. cbn. lia.
    + apply rep_mk. exists [], [], [], []. cbn. unfold hset. rewrite Nat.eqb_refl. auto.
    + repeat constructor. intros [].
    + now apply wf_leaf.
  - replace (forallb (fun i => class_in (class_at m i) (built_from c)) is) with (forallb (fun i => typed vs i (built_from c)) is).
    2: { clear - Cl. induction is as [|i is IH]; [reflexivity|]. cbn. rewrite IH, Cl. unfold typed. now destruct (val_at vs i). }
    destruct (forallb (fun i => typed vs i (built_from c)) is && _) eqn:T; [|exact Same]. apply andb_prop in T as [T1 T2].
    destruct (all_some (map (var m) is)) as [ls|] eqn:El.
    2: { apply (all_some_iff b m vs F is I) in El. rewrite El. exact Same. }
    destruct (all_some (map (val_at vs) is)) as [ps|] eqn:Ep; [|apply (all_some_iff b m vs F is I) in Ep; congruence].
    destruct (from_list b m vs F c is ls ps I T1 El Ep) as [G [Q1 [Q2 [Q3 [Q4 Q5]]]]].
    destruct (each_ok (fuel (mcStore m)) ps Q2 Q3 (mcStore m) ls G Q1 I1) as [s1 [ls' [Fn [E1 [Gr [R1 N1]]]]]]. rewrite E1. cbn [bind fst snd]. eexists. split; [reflexivity|].
    pose proof Gr as [G1 [G2 [G3 G4]]]. eexists. apply (inv_add b m vs F _ _ _ (stNext s1 :: Fn) I).
    + exact (grown_alloc _ _ _ (mkCell c 0%Qc ls' []) Gr).
    + apply rep_mk. exists ls', [], Fn, []. cbn [stHeap alloc]. split; [unfold hset; now rewrite Nat.eqb_refl|]. split; [|split; [reflexivity|now rewrite app_nil_r]]. eapply frames; [exact R1|].
      intros k Hk. apply G4 in Hk. unfold hset. destruct (Nat.eqb_spec k (stNext s1)); [lia|reflexivity].
    + constructor; [|exact N1]. intros C. apply G4 in C. lia.
    + apply wfv_V. split; [eapply Forall_impl; [|exact Q2]; intros v [Hv _]; exact Hv|]. split; [exact Q4|]. split; [tauto|]. split; [constructor|].
      assert (Bc : is <> [] -> In c [KJump; KAna; KComp]) by (intros Hne; destruct is as [|i0 is0]; [contradiction|]; cbn in T1; apply andb_prop in T1 as [T1 _]; unfold typed in T1; destruct (val_at vs i0) as [w|]; [|discriminate]; destruct c, (vcls w); cbn in T1 |- *; try discriminate; tauto).
      assert (Lp : c <> KComp -> List.length ps = 1) by (intros Nc; rewrite Q5; destruct c; try contradiction; now apply Nat.eqb_eq).
      split; [intros Hc; destruct (Nat.eq_dec (List.length ps) 1) as [->|N]; [lia|]; destruct c; cbn in Hc; try (exfalso; intuition discriminate); rewrite Lp by discriminate; lia|].
      split; [intros -> C; specialize (Lp ltac:(discriminate)); rewrite C in Lp; discriminate|].
      intros Hc. exfalso. assert (Nc : c <> KComp) by (intros ->; cbn in Hc; intuition discriminate). specialize (Lp Nc). destruct is as [|i0 is0]; [cbn in Q5; lia|]. specialize (Bc ltac:(discriminate)). cbn in Hc, Bc. intuition (subst; discriminate).
  - cbn [allowed] in Al. specialize (I3 i). destruct (val_at vs i) as [v|] eqn:Hv; [|destruct I3 as [-> _]; exact Same]. destruct I3 as [l [E [R [N W]]]]. rewrite E.
    assert (Na : forall k, ~ is_a vs i k -> vcls v <> k) by (intros k Hk C; apply Hk; exists v; auto). destruct Al as [L1 [L2 [L3 L4]]].
    destruct (clone_ok v W (Na _ L4) (fuel (mcStore m)) (mcStore m) l (F i) R I1 (fuel_ok _ _ _ _ I1 R N)) as [s' [l' [F' [E1 [G1 [R1 N1]]]]]].
    destruct (rep_head _ _ _ _ R) as [_ [cl [Ec Hc]]]. unfold copy, look. rewrite Ec. cbn [bind]. rewrite Hc. apply Na in L1, L2, L3.
    replace (match vcls v with KConv | KComp | KEdm => Ok (alloc (mcStore m) cl) | _ => clone (fuel (mcStore m)) (mcStore m) l end) with (clone (fuel (mcStore m)) (mcStore m) l) by (destruct (vcls v); try reflexivity; contradiction).
    rewrite E1. cbn [bind]. eexists. split; [reflexivity|]. eexists. eapply inv_add; eauto.
  - cbn [allowed] in Al. rewrite Cl. specialize (I3 i). destruct (val_at vs i) as [v|] eqn:Hv; [|exact Same]. destruct I3 as [l [E [R [N W]]]]. cbn [class_in]. destruct (clonable (vcls v)); [|exact Same]. rewrite E.
    assert (Na : vcls v <> KVary) by (intros C; apply Al; exists v; auto).
    destruct (clone_ok v W Na (fuel (mcStore m)) (mcStore m) l (F i) R I1 (fuel_ok _ _ _ _ I1 R N)) as [s' [l' [F' [E1 [G1 [R1 N1]]]]]]. rewrite E1. cbn [bind]. eexists. split; [reflexivity|]. eexists. eapply inv_add; eauto.
  - cbn [allowed] in Al. pose proof (I3 i) as Ii. pose proof (I3 j) as Ij. rewrite !Cl. destruct (val_at vs i) as [vi|] eqn:Hi; [|destruct Ii as [-> _]; exact Same]. destruct Ii as [t [Et _]]. rewrite Et.
    destruct (val_at vs j) as [vj|] eqn:Hj; [|destruct Ij as [-> _]; exact Same]. destruct Ij as [o [Eo _]]. rewrite Eo. destruct (cls_eqb (vcls vi) (vcls vj)) eqn:Ec; [|exact Same]. apply cls_eqb_eq in Ec.
    assert (Na : forall k, ~ is_a vs i k -> vcls vi <> k) by (intros k Hk C; apply Hk; exists vi; auto). destruct Al as [L1 [L2 [L3 [L4 [L5 [L6 L7]]]]]]. apply Na in L1, L2, L3, L4, L5, L6.
    assert (Go : exists s', assign (mcStore m) t o = Ok s' /\ exists F', Inv b (mkMach s' (mcVars m)) (upd vs i (Some vj)) F').
    { destruct (vcls vi) eqn:Ev; try contradiction.
      1-5: eapply assign_leaf; eauto; rewrite Ev; cbn; tauto || congruence.
      - eapply assign_jump; eauto; [congruence|]. intros Hb. apply (Td Hb vi Hi). auto.
      - eapply assign_jump; eauto; [congruence|]. intros Hb. apply (Td Hb vi Hi). auto.
      - eapply assign_cuts; eauto. apply L7. exists vi. auto. }
    destruct Go as [s' [E Q]]. rewrite E. cbn [bind]. eexists. split; [reflexivity|exact Q].
  - cbn [allowed] in Al. pose proof (I3 i) as Ii. pose proof (I3 j) as Ij. rewrite !Cl. destruct (val_at vs i) as [vi|] eqn:Hi; [|destruct Ii as [-> _]; exact Same]. destruct Ii as [t [Et _]]. rewrite Et.
    destruct (val_at vs j) as [vj|] eqn:Hj; [|destruct Ij as [-> _]; exact Same]. destruct Ij as [o [Eo _]]. rewrite Eo. destruct (takes (vcls vi) (vcls vj)) eqn:Tk; [|exact Same].
    destruct (give_step b m vs F i j vi vj t o I Hi Hj Et Eo Tk) as [s' [E Q]].
    + intros C. apply Al. exists vj. auto.
    + intros Hb Q. apply (Td Hb vi Hi). destruct Q as [Q|[Q|[Q1 Q2]]]; auto. right. right. split; [exact Q1|]. intros [w [Hw Cw]]. congruence.
    + rewrite E. cbn [bind]. eexists. split; [reflexivity|exact Q].
  - cbn [allowed] in Al. pose proof (I3 i) as Ii. destruct (val_at vs i) as [v|] eqn:Hi; [|destruct Ii as [-> _]; exact Same]. destruct Ii as [l [El _]]. rewrite El.
    destruct (param_step b m vs F i v l x I Hi El) as [s' [E Q]]; [intros C1 C2; apply Al; exists v; auto|]. rewrite E. cbn [bind]. eexists. split; [reflexivity|exact Q].
  - cbn [allowed] in Al. pose proof (I3 i) as Ii. destruct (val_at vs i) as [v|] eqn:Hi; [|destruct Ii as [-> _]; exact Same]. destruct Ii as [l [El [R [N W]]]]. rewrite El.
    destruct (release_ok v W ltac:(intros C1 C2; apply Al; exists v; auto) (fuel (mcStore m)) (mcStore m) l (F i) R N (fuel_ok _ _ _ _ I1 R N)) as [s' [E C]]. rewrite E. cbn [bind]. eexists. split; [reflexivity|]. eexists. eapply inv_del; eauto.
Qed.
Lemma run_ok b p : throughout allowed p -> (b = true -> throughout tidy p) -> exists m F, runp p mc_init = Ok m /\ Inv b m (vrun p) F.
Proof.
  intros Al Td. enough (G : forall pre post, p = pre ++ post -> forall m F, Inv b m (vrun pre) F -> exists m' F', runp post m = Ok m' /\ Inv b m' (vrun p) F').
  { destruct (G [] p eq_refl mc_init (fun _ => [])) as [m' [F' H]]; [|eauto]. split; [intros k _; reflexivity|]. split; [reflexivity|]. split; [intros i; destruct i; cbn; auto|]. split; [intros i j k _ []|intros _ k H; now destruct H]. }
  intros pre post. revert pre. induction post as [|o post IH]; intros pre E m F I.
  - rewrite app_nil_r in E. subst pre. exists m, F. auto.
  - destruct (step_ok b m (vrun pre) F o I (Al pre o post E) (fun Hb => Td Hb pre o post E)) as [m1 [E1 [F1 I1]]].
    destruct (IH (pre ++ [o])) with (m := m1) (F := F1) as [m2 [F2 [E2 I2]]]; [now rewrite <- app_assoc| |].
    + unfold vrun in *. rewrite fold_left_app. exact I1.
    + exists m2, F2. split; [|exact I2]. unfold runp in *. cbn [foldM]. rewrite E1. exact E2.
Qed.
Lemma own_pkg p : throughout allowed p -> exists m, runp p mc_init = Ok m /\
  (forall i, observe m i = match val_at (vrun p) i with Some v => Some (Ok v) | None => None end) /\
  (throughout tidy p -> (forall i, val_at (vrun p) i = None) -> forall l, stHeap (mcStore m) l = None).
Proof.
  intros Al. destruct (run_ok false p Al ltac:(discriminate)) as [m [F [E I]]]. exists m. split; [exact E|]. split.
  - intros i. destruct I as [I1 [_ [I3 _]]]. specialize (I3 i). unfold observe. destruct (val_at (vrun p) i) as [v|]; [|destruct I3 as [-> _]; reflexivity]. destruct I3 as [l [-> [R [N W]]]].
    f_equal. eapply view_ok; [exact R|]. eapply fuel_ok; eauto.
  - intros Td Gone l. destruct (run_ok true p Al (fun _ => Td)) as [m' [F' [E' [I1 [_ [I3 [_ I5]]]]]]]. assert (m' = m) by congruence. subst m'.
    destruct (stHeap (mcStore m) l) eqn:H; [|reflexivity]. destruct (I5 eq_refl l ltac:(rewrite H; discriminate)) as [i Hi]. specialize (I3 i). rewrite Gone in I3. destruct I3 as [_ Z]. rewrite Z in Hi. destruct Hi.
Qed.
