(** C93: the store represents values. *)
From Coq Require Import Lia Arith.
From Verif Require Import Base.Res Base.Num Model.Own Spec.OwnSpec.
Local Open Scope res_scope.
Local Open Scope nat_scope.

Lemma val_ind' (P : val -> Prop) : (forall c x ks fs, Forall P ks -> Forall P fs -> P (V c x ks fs)) -> forall v, P v.
Proof.
  intros H. fix go 1. intros [c x ks fs]. apply H; [induction ks as [|k ks IH]|induction fs as [|k fs IH]]; constructor; auto.
Qed.
Fixpoint size (v : val) : nat := match v with V _ _ ks fs => S ((fix go l := match l with [] => 0 | v :: t => size v + go t end) ks + (fix go l := match l with [] => 0 | v :: t => size v + go t end) fs) end.
Fixpoint sizes (l : list val) : nat := match l with [] => 0 | v :: t => size v + sizes t end.
Lemma size_V c x ks fs : size (V c x ks fs) = S (sizes ks + sizes fs).
Proof. reflexivity. Qed.
Fixpoint rep (h : nat -> option cell) (v : val) (l : nat) (F : list nat) {struct v} : Prop :=
  match v with
  | V c x ks fs =>
      exists lk lf Fk Ff, h l = Some (mkCell c x lk lf) /\
        (fix reps vs ls F := match vs, ls with [], [] => F = [] | v :: vs', l :: ls' => exists F1 F2, rep h v l F1 /\ reps vs' ls' F2 /\ F = F1 ++ F2 | _, _ => False end) ks lk Fk /\
        (fix reps vs ls F := match vs, ls with [], [] => F = [] | v :: vs', l :: ls' => exists F1 F2, rep h v l F1 /\ reps vs' ls' F2 /\ F = F1 ++ F2 | _, _ => False end) fs lf Ff /\
        F = l :: Fk ++ Ff
  end.
Definition reps (h : nat -> option cell) := fix reps (vs : list val) (ls : list nat) (F : list nat) {struct vs} : Prop :=
  match vs, ls with [], [] => F = [] | v :: vs', l :: ls' => exists F1 F2, rep h v l F1 /\ reps vs' ls' F2 /\ F = F1 ++ F2 | _, _ => False end.
Lemma rep_inv h c x ks fs l F : rep h (V c x ks fs) l F -> exists lk lf Fk Ff, h l = Some (mkCell c x lk lf) /\ reps h ks lk Fk /\ reps h fs lf Ff /\ F = l :: Fk ++ Ff.
Proof. exact (fun H => H). Qed.
Lemma rep_mk h c x ks fs l F : (exists lk lf Fk Ff, h l = Some (mkCell c x lk lf) /\ reps h ks lk Fk /\ reps h fs lf Ff /\ F = l :: Fk ++ Ff) -> rep h (V c x ks fs) l F.
Proof. exact (fun H => H). Qed.
Lemma reps_of (P : val -> Prop) vs : Forall P vs -> forall v, In v vs -> P v.
Proof. intros H. now apply Forall_forall. Qed.
Lemma frame v : forall h h' l F, rep h v l F -> (forall k, In k F -> h' k = h k) -> rep h' v l F.
Proof.
  induction v as [c x ks fs IHk IHf] using val_ind'. intros h h' l F H E. apply rep_inv in H as [lk [lf [Fk [Ff [H1 [H2 [H3 ->]]]]]]].
  assert (G : forall vs, Forall (fun v => forall h h' l F, rep h v l F -> (forall k, In k F -> h' k = h k) -> rep h' v l F) vs -> forall ls G, reps h vs ls G -> (forall k, In k G -> h' k = h k) -> reps h' vs ls G).
  { induction 1 as [|v vs Hv _ IH]; intros [|a ls] G Hr He; cbn in *; auto. destruct Hr as [F1 [F2 [A [B ->]]]]. exists F1, F2. split; [|split; [|reflexivity]].
    - eapply Hv; eauto. intros k Hk. apply He, in_or_app. now left.
    - apply IH; auto. intros k Hk. apply He, in_or_app. now right. }
  apply rep_mk. exists lk, lf, Fk, Ff. split; [rewrite E; [exact H1|now left]|]. split; [|split; [|reflexivity]].
  - apply G; auto. intros k Hk. apply E. right. apply in_or_app. now left.
  - apply G; auto. intros k Hk. apply E. right. apply in_or_app. now right.
Qed.
Lemma frames vs : forall h h' ls F, reps h vs ls F -> (forall k, In k F -> h' k = h k) -> reps h' vs ls F.
Proof.
  induction vs as [|v vs IH]; intros h h' [|a ls] F H E; cbn in *; auto. destruct H as [F1 [F2 [A [B ->]]]]. exists F1, F2. split; [|split; [|reflexivity]].
  - eapply frame; eauto. intros k Hk. apply E, in_or_app. now left.
  - eapply IH; eauto. intros k Hk. apply E, in_or_app. now right.
Qed.
Lemma rep_head h v l F : rep h v l F -> In l F /\ exists c, h l = Some c /\ cCls c = vcls v.
Proof. destruct v as [c x ks fs]. intros H. apply rep_inv in H as [lk [lf [Fk [Ff [H1 [_ [_ ->]]]]]]]. split; [now left|]. eauto. Qed.
Lemma rep_live v : forall h l F, rep h v l F -> forall k, In k F -> h k <> None.
Proof.
  induction v as [c x ks fs IHk IHf] using val_ind'. intros h l F H k Hk. apply rep_inv in H as [lk [lf [Fk [Ff [H1 [H2 [H3 ->]]]]]]].
  assert (G : forall vs, Forall (fun v => forall h l F, rep h v l F -> forall k, In k F -> h k <> None) vs -> forall ls G, reps h vs ls G -> In k G -> h k <> None).
  { induction 1 as [|v vs Hv _ IH]; intros [|a ls] G Hr He; cbn in *; try tauto; [subst; destruct He|]. destruct Hr as [F1 [F2 [A [B ->]]]]. apply in_app_or in He as [He|He]; [eapply Hv; eauto|eapply IH; eauto]. }
  destruct Hk as [<-|Hk]; [rewrite H1; discriminate|]. apply in_app_or in Hk as [Hk|Hk]; [eapply (G ks)|eapply (G fs)]; eauto.
Qed.
Lemma reps_live vs : forall h ls F, reps h vs ls F -> forall k, In k F -> h k <> None.
Proof.
  induction vs as [|v vs IH]; intros h [|a ls] F H k Hk; cbn in *; try tauto; [subst; destruct Hk|]. destruct H as [F1 [F2 [A [B ->]]]]. apply in_app_or in Hk as [Hk|Hk]; [eapply rep_live; eauto|eapply IH; eauto].
Qed.
Lemma rep_len v : forall h l F, rep h v l F -> List.length F = size v.
Proof.
  induction v as [c x ks fs IHk IHf] using val_ind'. intros h l F H. apply rep_inv in H as [lk [lf [Fk [Ff [H1 [H2 [H3 ->]]]]]]].
  assert (G : forall vs, Forall (fun v => forall h l F, rep h v l F -> List.length F = size v) vs -> forall ls G, reps h vs ls G -> List.length G = sizes vs).
  { induction 1 as [|v vs Hv _ IH]; intros [|a ls] G Hr; cbn in *; try tauto; [now subst|]. destruct Hr as [F1 [F2 [A [B ->]]]]. rewrite app_length. rewrite (Hv _ _ _ A), (IH _ _ B). reflexivity. }
  rewrite size_V. cbn. rewrite app_length, (G ks IHk _ _ H2), (G fs IHf _ _ H3). reflexivity.
Qed.
Lemma reps_app h vs ws ls ms F G : reps h vs ls F -> reps h ws ms G -> reps h (vs ++ ws) (ls ++ ms) (F ++ G).
Proof.
  revert ls F. induction vs as [|v vs IH]; intros [|a ls] F H K; cbn in *; try tauto; [now subst|]. destruct H as [F1 [F2 [A [B ->]]]]. exists F1, (F2 ++ G). split; [exact A|]. split; [now apply IH|]. now rewrite app_assoc.
Qed.
Lemma size_pos v : 1 <= size v.
Proof. destruct v. rewrite size_V. lia. Qed.

(** the shape every value of a program has *)
Fixpoint wfv (v : val) : Prop :=
  match v with
  | V c x ks fs =>
      (fix go l := match l with [] => True | v :: t => wfv v /\ go t end) ks /\
      Forall (fun k => clonable (vcls k) = true /\ vcls k <> KVary) ks /\ (fs <> [] -> c = KVary) /\
      Forall (fun f => exists y, f = V KFun y [] []) fs /\ (In c [KJump; KEvConv; KConv; KAna; KVary; KRes] -> List.length ks <= 1) /\ (c = KAna -> ks <> []) /\
      (In c [KPdf; KFun; KCut; KHist; KBed] -> ks = [])
  end.
Definition wfs (l : list val) : Prop := Forall wfv l.
Lemma wfv_V c x ks fs : wfv (V c x ks fs) <-> wfs ks /\ Forall (fun k => clonable (vcls k) = true /\ vcls k <> KVary) ks /\ (fs <> [] -> c = KVary) /\
  Forall (fun f => exists y, f = V KFun y [] []) fs /\ (In c [KJump; KEvConv; KConv; KAna; KVary; KRes] -> List.length ks <= 1) /\ (c = KAna -> ks <> []) /\
  (In c [KPdf; KFun; KCut; KHist; KBed] -> ks = []).
Proof.
  cbn [wfv]. assert (E : (fix go l := match l with [] => True | v :: t => wfv v /\ go t end) ks <-> wfs ks).
  { induction ks as [|k ks IH]; [split; constructor|]. split; [intros [A B]; constructor; [exact A|now apply IH]|intros A; inversion A; subst; split; [assumption|now apply IH]]. }
  now rewrite E.
Qed.

(** releasing *)
Definition cleared (s s' : store) (F : list nat) : Prop :=
  stNext s' = stNext s /\ (forall k, In k F -> stHeap s' k = None) /\ (forall k, ~ In k F -> stHeap s' k = stHeap s k).
Lemma cleared_refl s : cleared s s [].
Proof. split; [reflexivity|]. split; [intros k []|auto]. Qed.
Lemma nodup_app {A} (l m : list A) : NoDup (l ++ m) -> NoDup l /\ NoDup m /\ forall x, In x l -> ~ In x m.
Proof.
  induction l as [|a l IH]; cbn; intros H; [split; [constructor|]; split; [exact H|intros x []]|]. inversion H as [|? ? H1 H2]; subst. destruct (IH H2) as [A1 [A2 A3]].
  split; [constructor; [intros C; apply H1, in_or_app; now left|exact A1]|]. split; [exact A2|]. intros x [<-|Hx]; [intros C; apply H1, in_or_app; now right|now apply A3].
Qed.
Lemma app_nodup {A} (l m : list A) : NoDup l -> NoDup m -> (forall x, In x l -> ~ In x m) -> NoDup (l ++ m).
Proof.
  induction l as [|a l IH]; cbn; intros H1 H2 H3; [exact H2|]. inversion H1; subst. constructor; [intros C; apply in_app_or in C as [C|C]; [auto|exact (H3 a (or_introl eq_refl) C)]|].
  apply IH; auto.
Qed.
Definition can_release (v : val) : Prop := vcls v = KVary -> vkids v <> [].
Definition rel_ok (v : val) : Prop := wfv v -> can_release v -> forall n s l F, rep (stHeap s) v l F -> NoDup F -> size v <= n ->
  exists s', release n s l = Ok s' /\ cleared s s' F.
Lemma releases_gen n vs : Forall rel_ok vs -> Forall (fun v => wfv v /\ can_release v) vs -> sizes vs <= n -> forall s ls F, reps (stHeap s) vs ls F -> NoDup F ->
  exists s', foldM (release n) ls s = Ok s' /\ cleared s s' F.
Proof.
  induction 1 as [|v vs Hv _ IH]; intros Hw Hn s [|a ls] F Hr Nd; cbn in Hr; try tauto.
  - subst. exists s. split; [reflexivity|apply cleared_refl].
  - destruct Hr as [F1 [F2 [A [B ->]]]]. inversion Hw as [|? ? [W1 W2] W3]; subst. cbn in Hn. apply nodup_app in Nd as [N1 [N2 N3]].
    destruct (Hv W1 W2 n s a F1 A N1 ltac:(lia)) as [s1 [E1 [C1 [C2 C3]]]].
    destruct (IH W3 ltac:(lia) s1 ls F2) as [s2 [E2 [D1 [D2 D3]]]]; auto.
    { eapply frames; [exact B|]. intros k Hk. apply C3. intros C. exact (N3 k C Hk). }
    exists s2. cbn [foldM]. rewrite E1. cbn [bind]. split; [exact E2|]. split; [congruence|]. split.
    + intros k Hk. destruct (in_dec Nat.eq_dec k F2) as [K|K]; [now apply D2|]. rewrite D3 by exact K. apply C2. apply in_app_or in Hk. tauto.
    + intros k Hk. rewrite D3, C3; auto; intros C; apply Hk, in_or_app; tauto.
Qed.
Lemma kids_releasable ks : wfs ks -> Forall (fun k => clonable (vcls k) = true /\ vcls k <> KVary) ks -> Forall (fun v => wfv v /\ can_release v) ks.
Proof. intros H K. unfold wfs in H. rewrite Forall_forall in *. intros v Hv. split; [now apply H|]. intros C. destruct (K v Hv) as [_ K2]. contradiction. Qed.
Lemma funs_releasable fs : Forall (fun f => exists y, f = V KFun y [] []) fs -> Forall (fun v => wfv v /\ can_release v) fs.
Proof.
  intros H. eapply Forall_impl; [|exact H]. intros v [y ->]. split; [|intros C; discriminate]. apply wfv_V. repeat split; try constructor; try tauto; try (intros ?; discriminate). cbn. lia.
Qed.
Lemma release_ok v : rel_ok v.
Proof.
  induction v as [c x ks fs IHk IHf] using val_ind'. intros W Cr n s l F H Nd Hn. apply wfv_V in W as [W1 [W2 [W3 [W4 _]]]]. apply rep_inv in H as [lk [lf [Fk [Ff [H1 [H2 [H3 ->]]]]]]].
  rewrite size_V in Hn. destruct n as [|n]; [lia|]. inversion Nd as [|? ? Nl Nd']; subst. apply nodup_app in Nd' as [N1 [N2 N3]].
  cbn [release]. unfold look. rewrite H1. cbn [bind cCls cKids cFuns].
  assert (Ek : match c with KVary => match lk with [] => UB | _ => Ok tt end | _ => Ok tt end = Ok tt).
  { destruct c; try reflexivity. destruct lk; [|reflexivity]. exfalso. apply Cr; [reflexivity|]. cbn. destruct ks; [reflexivity|destruct H2]. }
  replace (match c with KVary => match lk with [] => UB | _ :: _ => Ok tt end | _ => Ok tt end) with (@Ok unit tt). cbn [bind].
  destruct (releases_gen n ks IHk (kids_releasable _ W1 W2) ltac:(lia) s lk Fk H2 N1) as [s1 [E1 [C1 [C2 C3]]]]. rewrite E1. cbn [bind].
  destruct (releases_gen n fs IHf (funs_releasable _ W4) ltac:(lia) s1 lf Ff) as [s2 [E2 [D1 [D2 D3]]]]; auto.
  { eapply frames; [exact H3|]. intros k Hk. apply C3. intros C. exact (N3 k C Hk). }
  rewrite E2. cbn [bind]. eexists. split; [reflexivity|]. split; [cbn; congruence|]. cbn [stHeap]. unfold hset. split.
  - intros k Hk. destruct (Nat.eqb_spec k l) as [->|Kl]; [reflexivity|]. destruct (in_dec Nat.eq_dec k Ff) as [K|K]; [now apply D2|]. rewrite D3 by exact K. apply C2.
    destruct Hk as [Hk|Hk]; [congruence|]. apply in_app_or in Hk. tauto.
  - intros k Hk. destruct (Nat.eqb_spec k l) as [->|Kl]; [exfalso; apply Hk; now left|]. rewrite D3, C3; auto; intros C; apply Hk; right; apply in_or_app; tauto.
Qed.
Lemma releases_ok n vs : Forall (fun v => wfv v /\ can_release v) vs -> sizes vs <= n -> forall s ls F, reps (stHeap s) vs ls F -> NoDup F ->
  exists s', foldM (release n) ls s = Ok s' /\ cleared s s' F.
Proof. apply releases_gen. apply Forall_forall. intros v _. apply release_ok. Qed.

(** cloning *)
Definition fresh (s : store) : Prop := forall k, stNext s <= k -> stHeap s k = None.
Definition grown (s s' : store) (F : list nat) : Prop :=
  stNext s <= stNext s' /\ (forall k, k < stNext s -> stHeap s' k = stHeap s k) /\ fresh s' /\ (forall k, In k F <-> stNext s <= k < stNext s').
Lemma live_below s k : fresh s -> stHeap s k <> None -> k < stNext s.
Proof. intros Fr H. destruct (Nat.lt_ge_cases k (stNext s)) as [L|L]; [exact L|]. exfalso. now apply H, Fr. Qed.
Definition clo_ok (v : val) : Prop := wfv v -> vcls v <> KVary -> forall n s l F, rep (stHeap s) v l F -> fresh s -> size v <= n ->
  exists s' l' F', clone n s l = Ok (s', l') /\ grown s s' F' /\ rep (stHeap s') v l' F' /\ NoDup F'.
Lemma sizes_each n vs : sizes vs <= n -> Forall (fun v => size v <= n) vs.
Proof. induction vs; cbn; intros H; constructor; [lia|apply IHvs; lia]. Qed.
Lemma each_gen n vs : Forall clo_ok vs -> Forall (fun v => wfv v /\ vcls v <> KVary) vs -> Forall (fun v => size v <= n) vs -> forall s ls F, reps (stHeap s) vs ls F -> fresh s ->
  exists s' ls' F', each (clone n) s ls = Ok (s', ls') /\ grown s s' F' /\ reps (stHeap s') vs ls' F' /\ NoDup F'.
Proof.
  intros Hc Hw Hn. unfold each.
  enough (G : forall s0 s ls F acc, reps (stHeap s) vs ls F -> fresh s ->
    forall wvs wF, reps (stHeap s) wvs acc wF -> NoDup wF -> grown s0 s wF ->
    exists s' ls' F', foldM (fun sl l => do r <- clone n (fst sl) l; Ok (fst r, snd sl ++ [snd r])) ls (s, acc) = Ok (s', ls') /\ grown s0 s' F' /\ reps (stHeap s') (wvs ++ vs) ls' F' /\ NoDup F').
  { intros s ls F H Fr. destruct (G s s ls F [] H Fr [] []) as [s' [ls' [F' K]]]; [reflexivity|constructor|split; [lia|]; split; [auto|]; split; [exact Fr|]; intros k; cbn; lia|]. exists s', ls', F'. exact K. }
  induction Hc as [|v vs Hv _ IH]; intros s0 s [|a ls] F acc Hr Fr wvs wF Hacc Nw Gw; cbn in Hr; try tauto.
  - exists s, acc, wF. cbn [foldM]. rewrite app_nil_r. auto.
  - destruct Hr as [F1 [F2 [A [B ->]]]]. inversion Hw as [|? ? [W1 W2] W3]; subst. inversion Hn as [|? ? Hn1 Hn2]; subst.
    destruct (Hv W1 W2 n s a F1 A Fr Hn1) as [s1 [l1 [F1' [E1 [[G1 [G2 [G3 G4]]] [R1 N1]]]]]].
    cbn [foldM fst snd]. rewrite E1. cbn [bind fst snd].
    assert (Keep : forall k, stHeap s k <> None -> stHeap s1 k = stHeap s k) by (intros k Hk; apply G2, live_below; auto).
    destruct Gw as [Q1 [Q2 [Q3 Q4]]].
    destruct (IH W3 Hn2 s0 s1 ls F2 (acc ++ [l1])) with (wvs := wvs ++ [v]) (wF := wF ++ F1') as [s' [ls' [F' [K1 [K2 [K3 K4]]]]]].
    + eapply frames; [exact B|]. intros k Hk. apply Keep. exact (reps_live _ _ _ _ B k Hk).
    + exact G3.
    + apply reps_app; [|cbn; exists F1', []; rewrite app_nil_r; auto]. eapply frames; [exact Hacc|]. intros k Hk. apply Keep. exact (reps_live _ _ _ _ Hacc k Hk).
    + apply app_nodup; auto. intros k Hk C. apply Q4 in Hk. apply G4 in C. lia.
    + split; [lia|]. split; [intros k Hk; rewrite G2 by lia; now apply Q2|]. split; [exact G3|]. intros k. rewrite in_app_iff, Q4, G4. lia.
    + exists s', ls', F'. rewrite <- app_assoc in K3. auto.
Qed.
Lemma kids_clonable ks : wfs ks -> Forall (fun k => clonable (vcls k) = true /\ vcls k <> KVary) ks -> Forall (fun v => wfv v /\ vcls v <> KVary) ks.
Proof. intros H K. unfold wfs in H. rewrite Forall_forall in *. intros v Hv. split; [now apply H|]. apply K, Hv. Qed.
Lemma reps_nil h ls F : reps h [] ls F -> ls = [] /\ F = [].
Proof. destruct ls; cbn; [auto|tauto]. Qed.
Lemma clone_ok v : clo_ok v.
Proof.
  induction v as [c x ks fs IHk IHf] using val_ind'. intros W Nv n s l F H Fr Hn. pose proof W as W0. apply wfv_V in W as [W1 [W2 [W3 [W4 _]]]]. apply rep_inv in H as [lk [lf [Fk [Ff [H1 [H2 [H3 ->]]]]]]].
  assert (Efs : fs = []) by (destruct fs; [reflexivity|]; exfalso; apply Nv; cbn; apply W3; discriminate). subst fs. apply reps_nil in H3 as [-> ->].
  rewrite size_V in Hn. destruct n as [|n]; [lia|]. cbn [clone]. unfold look. rewrite H1. cbn [bind cCls cKids cFuns cVal].
  replace (match c with KVary => match lk with [] => UB | _ :: _ => Ok tt end | _ => Ok tt end) with (@Ok unit tt) by (destruct c; try reflexivity; now destruct (Nv eq_refl)). cbn [bind].
  destruct (each_gen n ks IHk (kids_clonable _ W1 W2) ltac:(apply sizes_each; lia) s lk Fk H2 Fr) as [s1 [ls' [F' [E [[G1 [G2 [G3 G4]]] [R N]]]]]]. rewrite E. cbn [bind fst snd].
  unfold alloc. eexists _, (stNext s1), (stNext s1 :: F' ++ []). split; [reflexivity|]. cbn [stHeap stNext]. split; [|split].
  - split; [cbn; lia|]. cbn [stHeap stNext]. unfold fresh, hset. cbn [stHeap stNext]. split; [intros k Hk; destruct (Nat.eqb_spec k (stNext s1)); [lia|now apply G2]|].
    split; [intros k Hk; destruct (Nat.eqb_spec k (stNext s1)); [lia|apply G3; lia]|]. intros k. cbn [In]. rewrite app_nil_r, G4. lia.
  - apply rep_mk. exists ls', [], F', []. unfold hset. rewrite Nat.eqb_refl. split; [reflexivity|]. split; [|split; [reflexivity|reflexivity]].
    eapply frames; [exact R|]. intros k Hk. apply G4 in Hk. destruct (Nat.eqb_spec k (stNext s1)); [lia|reflexivity].
  - rewrite app_nil_r. constructor; [|exact N]. intros C. apply G4 in C. lia.
Qed.
Lemma each_ok n vs : Forall (fun v => wfv v /\ vcls v <> KVary) vs -> Forall (fun v => size v <= n) vs -> forall s ls F, reps (stHeap s) vs ls F -> fresh s ->
  exists s' ls' F', each (clone n) s ls = Ok (s', ls') /\ grown s s' F' /\ reps (stHeap s') vs ls' F' /\ NoDup F'.
Proof. apply each_gen. apply Forall_forall. intros v _. apply clone_ok. Qed.

(** observing *)
Lemma view_ok v : forall n s l F, rep (stHeap s) v l F -> size v <= n -> view n s l = Ok v.
Proof.
  induction v as [c x ks fs IHk IHf] using val_ind'. intros n s l F H Hn. apply rep_inv in H as [lk [lf [Fk [Ff [H1 [H2 [H3 ->]]]]]]]. rewrite size_V in Hn. destruct n as [|n]; [lia|].
  assert (G : forall vs, Forall (fun v => forall n s l F, rep (stHeap s) v l F -> size v <= n -> view n s l = Ok v) vs -> forall ls G, reps (stHeap s) vs ls G -> sizes vs <= n -> mapM (view n s) ls = Ok vs).
  { induction 1 as [|v vs Hv _ IH]; intros [|a ls] G Hr Hs; cbn in Hr; try tauto; try reflexivity. destruct Hr as [F1 [F2 [A [B ->]]]]. cbn in Hs. unfold mapM in *. cbn [map seqM]. rewrite (Hv n s a F1 A) by lia. cbn [bind].
    rewrite (IH ls F2 B) by lia. reflexivity. }
  cbn [view]. unfold look. rewrite H1. cbn [bind cKids cFuns cCls cVal]. rewrite (G ks IHk lk Fk H2) by lia. cbn [bind]. rewrite (G fs IHf lf Ff H3) by lia. reflexivity.
Qed.

(** parameters *)
Definition tuned (s s' : store) (F : list nat) : Prop := stNext s' = stNext s /\ (forall k, ~ In k F -> stHeap s' k = stHeap s k).
Lemma put_same s l c k : k <> l -> stHeap (put s l c) k = stHeap s k.
Proof. intros H. cbn. unfold hset. destruct (Nat.eqb_spec k l); [contradiction|reflexivity]. Qed.
Lemma put_at s l c : stHeap (put s l c) l = Some c.
Proof. cbn. unfold hset. now rewrite Nat.eqb_refl. Qed.
Lemma funs_param x n fs : Forall (fun f => exists y, f = V KFun y [] []) fs -> sizes fs <= n -> forall s ls F, reps (stHeap s) fs ls F -> NoDup F ->
  exists s', foldM (setParam n x) ls s = Ok s' /\ tuned s s' F /\ reps (stHeap s') (map (param x) fs) ls F.
Proof.
  induction 1 as [|f fs [y ->] _ IH]; intros Hs s [|a ls] F Hr Nd; cbn in Hr; try tauto.
  - subst. exists s. split; [reflexivity|]. split; [split; auto|reflexivity].
  - destruct Hr as [F1 [F2 [A [B ->]]]]. destruct A as [lk [lf [Fk [Ff [A1 [A2 [A3 ->]]]]]]]. destruct lk; [subst Fk|tauto]. destruct lf; [subst Ff|tauto]. cbn [app] in *.
    rewrite size_V in Hs || cbn in Hs. destruct n as [|n]; [cbn in Hs; lia|]. cbn [foldM]. 
    assert (E1 : setParam (S n) x s a = Ok (put s a (mkCell KFun x [] []))) by (cbn [setParam]; unfold look; rewrite A1; reflexivity). rewrite E1. cbn [bind].
    inversion Nd as [|? ? N1 N2]; subst. destruct (IH ltac:(cbn in Hs |- *; lia) (put s a (mkCell KFun x [] [])) ls F2) as [s' [E2 [[T1 T2] R]]]; auto.
    { eapply frames; [exact B|]. intros k Hk. apply put_same. intros ->. contradiction. }
    exists s'. split; [exact E2|]. split.
    + split; [rewrite T1; reflexivity|]. intros k Hk. cbn in Hk. rewrite T2 by tauto. apply put_same. intros ->. tauto.
    + cbn [map reps]. exists [a], F2. split; [|split; [exact R|reflexivity]]. apply rep_mk. exists [], [], [], []. split; [rewrite T2 by exact N1; apply put_at|]. split; [reflexivity|]. split; reflexivity.
Qed.
Lemma setParam_ok x v : wfv v -> (vcls v = KConv -> vkids v <> []) -> forall n s l F, rep (stHeap s) v l F -> NoDup F -> size v <= n ->
  (exists s', setParam n x s l = Ok s' /\ tuned s s' F /\ rep (stHeap s') (param x v) l F) \/ (exists e, setParam n x s l = Throw e /\ param x v = v).
Proof.
  induction v as [c y ks fs IHk IHf] using val_ind'. intros W Ck n s l F H Nd Hn. apply wfv_V in W as [W1 [W2 [W3 [W4 [W5 [W6 W7]]]]]]. apply rep_inv in H as [lk [lf [Fk [Ff [H1 [H2 [H3 ->]]]]]]].
  rewrite size_V in Hn. destruct n as [|n]; [lia|]. cbn [setParam]. unfold look. rewrite H1. cbn [bind cCls cKids cFuns].
  inversion Nd as [|? ? Nl Nd']; subst. apply nodup_app in Nd' as [N1 [N2 N3]].
  assert (Id : rep (stHeap s) (V c y ks fs) l (l :: Fk ++ Ff)) by (apply rep_mk; exists lk, lf, Fk, Ff; auto).
  assert (Leaf : In c [KPdf; KFun] -> exists s', Ok (put s l (mkCell c x lk lf)) = Ok s' /\ tuned s s' (l :: Fk ++ Ff) /\ rep (stHeap s') (V c x ks fs) l (l :: Fk ++ Ff)).
  { intros _. eexists. split; [reflexivity|]. split; [split; [reflexivity|]; intros k Hk; apply put_same; intros ->; apply Hk; now left|].
    apply rep_mk. exists lk, lf, Fk, Ff. split; [apply put_at|]. split; [|split; [|reflexivity]]; (eapply frames; [eassumption|]); intros k Hk; apply put_same; intros ->; apply Nl, in_or_app; tauto. }
  assert (One : In c [KJump; KEvConv; KConv; KAna] -> lk <> [] ->
     (exists s', foldM (setParam n x) lk s = Ok s' /\ tuned s s' (l :: Fk ++ Ff) /\ rep (stHeap s') (V c y (map (param x) ks) fs) l (l :: Fk ++ Ff)) \/
     (exists e, foldM (setParam n x) lk s = Throw e /\ V c y (map (param x) ks) fs = V c y ks fs)).
  { intros Hc Nk. destruct ks as [|k [|k2 ks]].
    - apply reps_nil in H2 as [-> _]. contradiction.
    - destruct lk as [|a [|b lk]]; cbn in H2; [tauto| |destruct H2 as [? [? [_ [[] _]]]]]. destruct H2 as [F1 [F2 [A [-> ->]]]]. rewrite app_nil_r in *.
      inversion IHk as [|? ? Hk _]; subst. pose proof (Forall_inv W1) as Wk. inversion W2 as [|? ? [W21 W22] _]; subst. cbn in Hn.
      destruct (Hk Wk) with (n := n) (s := s) (l := a) (F := F1) as [[s' [E [[T1 T2] R]]]|[e [E P]]]; auto.
      + intros C. rewrite C in W21. discriminate.
      + lia.
      + left. exists s'. cbn [foldM]. rewrite E. cbn [bind]. split; [reflexivity|]. split.
        * split; [exact T1|]. intros j Hj. apply T2. intros C. apply Hj. right. apply in_or_app. now left.
        * apply rep_mk. exists [a], lf, F1, Ff. split; [rewrite T2; [exact H1|]; intros C; apply Nl, in_or_app; now left|]. split; [cbn; exists F1, []; rewrite app_nil_r; auto|]. split; [|reflexivity].
          eapply frames; [exact H3|]. intros j Hj. apply T2. intros C. exact (N3 j C Hj).
      + right. exists e. cbn [foldM]. rewrite E. cbn [bind]. split; [reflexivity|]. cbn [map]. now rewrite P.
    - exfalso. assert (Hl : List.length (k :: k2 :: ks) <= 1) by (apply W5; cbn in Hc |- *; tauto). cbn in Hl. lia. }
  assert (Stay : exists s', Ok s = Ok s' /\ tuned s s' (l :: Fk ++ Ff) /\ rep (stHeap s') (V c y ks fs) l (l :: Fk ++ Ff)) by (exists s; split; [reflexivity|]; split; [split; auto|exact Id]).
  destruct c; cbn [param] in *.
  1,2: left; apply Leaf; cbn; tauto.
  1-3,9-12: left; exact Stay.
  - destruct lk as [|a lk'] eqn:El; [right; eexists; split; [reflexivity|]; destruct ks; [reflexivity|destruct H2]|]. apply One; [cbn; tauto|discriminate].
  - left. destruct (funs_param x n fs W4 ltac:(lia) s lf Ff H3 N2) as [s' [E [[T1 T2] R]]]. exists s'. split; [exact E|]. split; [split; [exact T1|]; intros k Hk; apply T2; intros C; apply Hk; right; apply in_or_app; now right|].
    apply rep_mk. exists lk, lf, Fk, Ff. split; [rewrite T2; [exact H1|]; intros C; apply Nl, in_or_app; now right|]. split; [|split; [exact R|reflexivity]].
    eapply frames; [exact H2|]. intros k Hk. apply T2. now apply N3.
  - destruct lk as [|a lk'] eqn:El; [right; eexists; split; [reflexivity|]; destruct ks; [reflexivity|destruct H2]|]. apply One; [cbn; tauto|discriminate].
  - destruct lk as [|a lk'] eqn:El; [exfalso; apply Ck; [reflexivity|]; cbn; destruct ks; [reflexivity|destruct H2]|]. apply One; [cbn; tauto|discriminate].
  - destruct lk as [|a lk'] eqn:El; [exfalso; apply W6; [reflexivity|]; destruct ks; [reflexivity|destruct H2]|]. apply One; [cbn; tauto|discriminate].
Qed.
