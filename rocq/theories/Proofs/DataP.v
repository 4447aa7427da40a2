(** Data sets (C40, C60, C66). *)
From Verif Require Import Base.Res Base.Num Base.SMap Model.Axis Model.Event Model.Data Spec.DataSpec.

Definition ds_ok (d : dset) : Prop := forall e, In e (dData d) -> List.length (dvObs e) = dNObs d /\ dNObs d <> 0%nat.
Definition hp_ok (h : dheap) : Prop := forall a d, h a = Some d -> ds_ok d.

Lemma hp_same h a d : hp_upd h a d a = d.
Proof. unfold hp_upd. now rewrite Nat.eqb_refl. Qed.
Lemma hp_other h a d b : b <> a -> hp_upd h a d b = h b.
Proof. intros H. unfold hp_upd. destruct (Nat.eqb_spec b a); [contradiction|reflexivity]. Qed.
Lemma hp_upd_ok h a d : hp_ok h -> (forall x, d = Some x -> ds_ok x) -> hp_ok (hp_upd h a d).
Proof.
  intros H Hd b x. unfold hp_upd. destruct (Nat.eqb_spec b a) as [->|]; [|apply H]. intros E. now apply Hd.
Qed.
Lemma ds_add_ok a d obs : ds_ok d -> ds_ok (fst (ds_add a d obs)).
Proof.
  intros H. unfold ds_add. destruct (Nat.eqb_spec (dNObs d) 0) as [E0|E0].
  - assert (En : dData d = []).
    { destruct (dData d) as [|e l] eqn:Ed; [reflexivity|]. exfalso. destruct (H e); [rewrite Ed; now left|contradiction]. }
    destruct (Nat.eqb_spec (List.length obs) 0) as [El|El]; cbn [fst].
    + intros e. cbn [dData]. rewrite En. intros [].
    + intros e. cbn [dData dNObs]. rewrite En. intros [<-|[]]. cbn. auto.
  - destruct (Nat.eqb_spec (dNObs d) (List.length obs)) as [El|El]; cbn [negb fst]; [|exact H].
    destruct (Nat.eqb_spec (List.length obs) 0) as [Z|Z]; cbn [fst]; [exact H|].
    intros e. cbn [dData dNObs]. rewrite in_app_iff. intros [He|[<-|[]]]; [now apply H|]. cbn. auto.
Qed.
Lemma plusLoop_ok self other : forall fuel i h, hp_ok h -> hp_ok (fst (ds_plusLoop fuel self other i h)).
Proof.
  induction fuel as [|fuel IH]; intros i h H; [exact H|]. cbn [ds_plusLoop].
  destruct (h other) as [o|]; [|exact H]. destruct (Nat.leb _ _); [exact H|].
  destruct (ds_get o i) as [e| | | |]; try exact H. destruct (h self) as [s|] eqn:Es; [|exact H].
  pose proof (ds_add_ok self s (dvObs e) (H _ _ Es)) as Ha. destruct (ds_add self s (dvObs e)) as [s' r] eqn:Ea. cbn [fst] in Ha.
  assert (Hh : hp_ok (hp_upd h self (Some s'))) by (apply hp_upd_ok; [exact H|intros x [= <-]; exact Ha]).
  destruct r; try exact Hh. now apply IH.
Qed.
Lemma dstep_ok h o : hp_ok h -> hp_ok (dstep h o).
Proof.
  intros H. destruct o as [a|a obs|a ns|fuel a b r|a b|a]; cbn [dstep].
  - apply hp_upd_ok; [exact H|]. intros x [= <-] e [].
  - destruct (h a) as [d|] eqn:E; [|exact H]. apply hp_upd_ok; [exact H|]. intros x [= <-]. apply ds_add_ok. eapply H; eassumption.
  - destruct (h a) as [d|] eqn:E; [|exact H]. apply hp_upd_ok; [exact H|]. intros x [= <-]. exact (H a d E).
  - unfold ds_plus. pose proof (plusLoop_ok a b fuel 0 h H) as Hp. destruct (ds_plusLoop _ _ _ _ _) as [h' [[]| | | |]]; cbn [fst] in *; try exact Hp.
    apply hp_upd_ok; [exact Hp|]. intros x Hx. eapply Hp; eassumption.
  - apply hp_upd_ok; [exact H|]. intros x Hx. eapply H; eassumption.
  - apply hp_upd_ok; [exact H|]. discriminate.
Qed.
Lemma drun_ok l : hp_ok (drun l).
Proof.
  unfold drun. assert (G : forall h, hp_ok h -> hp_ok (fold_left dstep l h)).
  { induction l as [|o l IH]; intros h H; [exact H|]. cbn. apply IH, dstep_ok, H. }
  apply G. discriminate.
Qed.

(** * operator+ *)
Lemma plusLoop_append a b A0 B : a <> b -> ds_ok B -> forall rest fuel i (h : dheap) A,
  h a = Some A -> h b = Some B -> skipn i (dData B) = rest -> (List.length rest < fuel)%nat ->
  (dNObs A = 0%nat /\ dData A = [] \/ dNObs A = dNObs B) -> dNames A = dNames A0 ->
  exists h' R, ds_plusLoop fuel a b i h = (h', Ok tt) /\ h' a = Some R /\ values R = values A ++ map dvObs rest /\
    dNames R = dNames A0 /\ (forall c, c <> a -> h' c = h c).
Proof.
  intros Hab HB. induction rest as [|e rest IH]; intros fuel i h A Ha Hb Hs Hf HA Hn; (destruct fuel as [|fuel]; [cbn in Hf; lia|]); cbn [ds_plusLoop]; rewrite Hb.
  - assert (Hle : (ds_n B <= i)%nat).
    { destruct (Nat.le_gt_cases (ds_n B) i); [assumption|]. apply (f_equal (@List.length _)) in Hs. rewrite skipn_length in Hs. unfold ds_n in *. cbn in Hs. lia. }
    apply Nat.leb_le in Hle. rewrite Hle. exists h, A. rewrite app_nil_r. repeat split; auto.
  - assert (Hlt : (i < ds_n B)%nat).
    { destruct (Nat.le_gt_cases (ds_n B) i) as [C|]; [|assumption]. unfold ds_n in C. rewrite skipn_all2 in Hs by exact C. discriminate. }
    destruct (Nat.leb_spec (ds_n B) i); [lia|].
    assert (Hnth : nth_error (dData B) i = Some e /\ skipn (S i) (dData B) = rest).
    { clear -Hs. revert i Hs. induction (dData B) as [|x l IHl]; intros [|i] Hs; cbn in *; try discriminate.
      - injection Hs as -> ->. auto.
      - apply IHl. exact Hs. }
    destruct Hnth as [Hnth Hs']. unfold ds_get. rewrite Hnth, Ha.
    assert (He : List.length (dvObs e) = dNObs B /\ dNObs B <> 0%nat) by (apply HB; eapply nth_error_In; eassumption).
    destruct He as [He1 He2].
    assert (Ea : ds_add a A (dvObs e) = (mkDset (dData A ++ [mkDevt (dvObs e) (Some a)]) (dNames A) (dNObs B), Ok tt)).
    { unfold ds_add. destruct HA as [[H0 _]|H0].
      - rewrite H0, Nat.eqb_refl. destruct (Nat.eqb_spec (List.length (dvObs e)) 0); [lia|]. cbn. now rewrite He1.
      - destruct (Nat.eqb_spec (dNObs A) 0); [lia|]. rewrite H0, He1, Nat.eqb_refl. cbn [negb].
        destruct (Nat.eqb_spec (dNObs B) 0); [lia|reflexivity]. }
    rewrite Ea.
    edestruct (IH fuel (S i) (hp_upd h a (Some (mkDset (dData A ++ [mkDevt (dvObs e) (Some a)]) (dNames A) (dNObs B))))) as [h' [R [E1 [E2 [E3 [E4 E5]]]]]].
    + apply hp_same.
    + rewrite hp_other by congruence. exact Hb.
    + exact Hs'.
    + cbn in Hf. lia.
    + right. reflexivity.
    + exact Hn.
    + exists h', R. split; [exact E1|split; [exact E2|split; [|split; [exact E4|]]]].
      * rewrite E3. unfold values. cbn [dData]. rewrite map_app, <- app_assoc. reflexivity.
      * intros c Hc. rewrite E5 by exact Hc. now apply hp_other.
Qed.

Lemma concat_pkg ops a b r A B fuel : let h := drun ops in
  a <> b -> r <> a -> h a = Some A -> h b = Some B -> (ds_n B < fuel)%nat ->
  ((dNObs A = 0%nat \/ dNObs A = dNObs B \/ ds_n B = 0%nat) ->
     exists h' R, ds_plus fuel a b r h = (h', Ok tt) /\ h' r = Some R /\ h' a = Some R /\
       values R = values A ++ values B /\ dNames R = dNames A /\ (forall c, c <> a -> c <> r -> h' c = h c)) /\
  (dNObs A <> 0%nat -> dNObs A <> dNObs B -> ds_n B <> 0%nat ->
     exists h', ds_plus fuel a b r h = (h', Throw DimensionError) /\ same_heap h' h).
Proof.
  intros h Hab Hra Ha Hb Hf. pose proof (drun_ok ops) as Hok. fold h in Hok.
  pose proof (Hok _ _ Ha) as HA. pose proof (Hok _ _ Hb) as HB.
  assert (HA0 : dNObs A = 0%nat -> dData A = []).
  { intros E0. destruct (dData A) as [|e l] eqn:Ed; [reflexivity|]. exfalso. destruct (HA e); [rewrite Ed; now left|contradiction]. }
  split.
  - intros Hc. destruct (Nat.eq_dec (ds_n B) 0) as [Z|Z].
    + unfold ds_plus. destruct fuel as [|fuel]; [lia|]. cbn [ds_plusLoop]. rewrite Hb, Z. cbn [Nat.leb].
      exists (hp_upd h r (h a)), A. split; [reflexivity|]. rewrite hp_same, hp_other by congruence.
      split; [exact Ha|split; [exact Ha|split; [|split; [reflexivity|]]]].
      * unfold ds_n in Z. apply length_zero_iff_nil in Z. unfold values. rewrite Z. now rewrite app_nil_r.
      * intros c Hca Hcr. now apply hp_other.
    + destruct (plusLoop_append a b A B Hab HB (dData B) fuel 0 h A Ha Hb eq_refl Hf) as [h' [R [E1 [E2 [E3 [E4 E5]]]]]].
      * destruct Hc as [Hc|[Hc|Hc]]; [left; auto|now right|contradiction].
      * reflexivity.
      * exists (hp_upd h' r (h' a)), R. unfold ds_plus. rewrite E1. split; [reflexivity|]. rewrite hp_same, hp_other by congruence.
        split; [exact E2|split; [exact E2|split; [exact E3|split; [exact E4|]]]].
        intros c Hca Hcr. rewrite hp_other by exact Hcr. now apply E5.
  - intros H0 Hne Z. unfold ds_plus. destruct fuel as [|fuel]; [lia|]. cbn [ds_plusLoop]. rewrite Hb.
    destruct (Nat.leb_spec (ds_n B) 0); [lia|]. unfold ds_get.
    destruct (dData B) as [|e l] eqn:Ed; [unfold ds_n in Z; rewrite Ed in Z; cbn in Z; lia|]. cbn [nth_error]. rewrite Ha.
    assert (He : List.length (dvObs e) = dNObs B) by (apply HB; rewrite Ed; now left).
    unfold ds_add. destruct (Nat.eqb_spec (dNObs A) 0); [contradiction|]. rewrite He.
    destruct (Nat.eqb_spec (dNObs A) (dNObs B)); [contradiction|]. cbn [negb].
    eexists. split; [reflexivity|]. intros c. unfold hp_upd. destruct (Nat.eqb_spec c a) as [->|]; [now rewrite Ha|reflexivity].
Qed.

Lemma self_plus_loop a : forall fuel i (h : dheap) A, h a = Some A -> ds_ok A -> (i < ds_n A)%nat ->
  snd (ds_plusLoop fuel a a i h) = Diverge.
Proof.
  induction fuel as [|fuel IH]; intros i h A Ha HA Hi; [reflexivity|]. cbn [ds_plusLoop]. rewrite Ha.
  destruct (Nat.leb_spec (ds_n A) i); [lia|]. unfold ds_get.
  destruct (nth_error (dData A) i) as [e|] eqn:En; [|apply nth_error_None in En; unfold ds_n in Hi; lia].
  assert (He : List.length (dvObs e) = dNObs A /\ dNObs A <> 0%nat) by (apply HA; eapply nth_error_In; eassumption).
  destruct He as [He1 He2].
  pose proof (ds_add_ok a A (dvObs e) HA) as HA'.
  assert (Ea : ds_add a A (dvObs e) = (mkDset (dData A ++ [mkDevt (dvObs e) (Some a)]) (dNames A) (dNObs A), Ok tt)).
  { unfold ds_add. destruct (Nat.eqb_spec (dNObs A) 0); [contradiction|]. rewrite He1, Nat.eqb_refl. cbn [negb].
    destruct (Nat.eqb_spec (dNObs A) 0); [contradiction|reflexivity]. }
  rewrite Ea in *. cbn [fst] in HA'. eapply IH; [apply hp_same|exact HA'|]. unfold ds_n in *. cbn [dData]. rewrite app_length. cbn. lia.
Qed.
Lemma self_plus_pkg ops a r A : let h := drun ops in h a = Some A -> ds_n A <> 0%nat ->
  forall fuel, snd (ds_plus fuel a a r h) = Diverge.
Proof.
  intros h Ha Hn fuel. unfold ds_plus.
  pose proof (self_plus_loop a fuel 0 h A Ha (drun_ok ops a A Ha) ltac:(lia)) as E.
  destruct (ds_plusLoop fuel a a 0 h) as [h' o]. cbn [snd] in E. subst o. reflexivity.
Qed.

(** * names *)
Definition own (a : nat) (h : dheap) : Prop := forall d e, h a = Some d -> In e (dData d) -> dvPtr e = Some a.
Lemma ds_add_own a d obs : (forall e, In e (dData d) -> dvPtr e = Some a) ->
  forall e, In e (dData (fst (ds_add a d obs))) -> dvPtr e = Some a.
Proof.
  intros H e. unfold ds_add. destruct (Nat.eqb (dNObs d) 0).
  - destruct (Nat.eqb (List.length obs) 0); cbn [fst dData]; [apply H|]. rewrite in_app_iff. intros [He|[<-|[]]]; auto.
  - destruct (negb _); cbn [fst]; [apply H|]. destruct (Nat.eqb _ _); cbn [fst dData]; [apply H|].
    rewrite in_app_iff. intros [He|[<-|[]]]; auto.
Qed.
Lemma plusLoop_own a self other : forall fuel i h, own a h -> own a (fst (ds_plusLoop fuel self other i h)).
Proof.
  induction fuel as [|fuel IH]; intros i h H; [exact H|]. cbn [ds_plusLoop].
  destruct (h other) as [o|]; [|exact H]. destruct (Nat.leb _ _); [exact H|].
  destruct (ds_get o i) as [e| | | |]; try exact H. destruct (h self) as [s|] eqn:Es; [|exact H].
  destruct (ds_add self s (dvObs e)) as [s' r] eqn:Ea.
  assert (Hh : own a (hp_upd h self (Some s'))).
  { intros d x. unfold hp_upd. destruct (Nat.eqb_spec a self) as [->|]; [|apply H]. intros [= <-].
    pose proof (ds_add_own self s (dvObs e) (fun y Hy => H s y Es Hy) x) as G. rewrite Ea in G. exact G. }
  destruct r; try exact Hh. now apply IH.
Qed.
Lemma dstep_own a h o : ~ copies_into a o -> own a h -> own a (dstep h o).
Proof.
  intros Hc H. destruct o as [b|b obs|b ns|fuel b c r|b c|b]; cbn [dstep copies_into] in *.
  - intros d e. unfold hp_upd. destruct (Nat.eqb_spec a b); [|apply H]. intros [= <-] [].
  - destruct (h b) as [d0|] eqn:E; [|exact H]. intros d e. unfold hp_upd. destruct (Nat.eqb_spec a b) as [->|]; [|apply H].
    intros [= <-]. apply ds_add_own. intros y. now apply H.
  - destruct (h b) as [d0|] eqn:E; [|exact H]. intros d e. unfold hp_upd. destruct (Nat.eqb_spec a b) as [->|]; [|apply H].
    intros [= <-]. cbn. now apply H.
  - unfold ds_plus. pose proof (plusLoop_own a b c fuel 0 h H) as Hp. destruct (ds_plusLoop _ _ _ _ _) as [h' [[]| | | |]]; cbn [fst] in *; try exact Hp.
    intros d e. rewrite hp_other by congruence. apply Hp.
  - intros d e. unfold ds_copy. rewrite hp_other by congruence. apply H.
  - intros d e. unfold ds_destroy, hp_upd. destruct (Nat.eqb_spec a b); [discriminate|]. apply H.
Qed.
Lemma names_pkg ops a d e n : (forall o, In o ops -> ~ copies_into a o) ->
  drun ops a = Some d -> In e (dData d) ->
  dv_datum (drun ops) e n = getDatum (mkEvent (dvObs e) (Some (dNames d))) n.
Proof.
  intros Hc Hd He.
  assert (G : forall l h, (forall o, In o l -> ~ copies_into a o) -> own a h -> own a (fold_left dstep l h)).
  { induction l as [|o l IH]; intros h Hl H; [exact H|]. cbn. apply IH; [intros; apply Hl; now right|].
    apply dstep_own; [apply Hl; now left|exact H]. }
  assert (Ho : own a (drun ops)) by (apply G; [exact Hc|discriminate]).
  unfold dv_datum. rewrite (Ho d e Hd He), Hd. reflexivity.
Qed.
Lemma dangling_witness : exists ops a d e n v, drun ops a = Some d /\ nth_error (dData d) 0 = Some e /\
  getDatum (mkEvent (dvObs e) (Some (dNames d))) n = Ok v /\ dv_datum (drun ops) e n = UB.
Proof.
  exists [DNew 0; DNames 0 ["x"%string]; DAdd 0 [qz 7]; DCopy 0 1; DDestroy 0], 1%nat. eexists. eexists. exists "x"%string, (qz 7).
  split; [reflexivity|split; [reflexivity|split; reflexivity]].
Qed.
Lemma stale_names_witness : exists ops a d e n v, drun ops a = Some d /\ nth_error (dData d) 0 = Some e /\
  getDatum (mkEvent (dvObs e) (Some (dNames d))) n = Ok v /\ dv_datum (drun ops) e n = Throw NotFoundError.
Proof.
  exists [DNew 0; DNames 0 ["x"%string]; DAdd 0 [qz 7]; DNew 1; DPlus 5 0 1 2; DNames 2 ["y"%string]], 2%nat. eexists. eexists. exists "y"%string, (qz 7).
  split; [reflexivity|split; [reflexivity|split; reflexivity]].
Qed.

(** ** lazy data sets (C60) *)
Ltac dex := match goal with |- context [existsb ?f ?l] => destruct (existsb f l) end.
Section LazyP.
Variable E : Type.
Variable fs : string -> option (list E).
Notation st := (lazy E).
Notation obj s a := (lzObj (E := E) s a).

(** the closed version of an object *)
Definition shut (o : option (lobj E)) : option (lobj E) :=
  match o with Some x => Some (mkLobj (lzFile x) None) | None => None end.
Lemma close_obj (s : st) a b : obj (lz_close E s a) b = if Nat.eqb b a then shut (obj s b) else obj s b.
Proof.
  unfold lz_close. destruct (lzObj s a) as [o|] eqn:H; cbn.
  - destruct (Nat.eqb_spec b a) as [->|]; [|reflexivity]. now rewrite H.
  - destruct (Nat.eqb_spec b a) as [->|]; [|reflexivity]. now rewrite H.
Qed.
Lemma close_reg (s : st) a : lzReg (lz_close E s a) = lzReg s /\ lzLeak (lz_close E s a) = lzLeak s.
Proof. unfold lz_close. destruct (lzObj s a); split; reflexivity. Qed.
Lemma closeAll_obj : forall l (s : st), lzReg (fold_left (lz_close E) l s) = lzReg s /\ lzLeak (fold_left (lz_close E) l s) = lzLeak s /\
  forall b, obj (fold_left (lz_close E) l s) b = if existsb (Nat.eqb b) l then shut (obj s b) else obj s b.
Proof.
  induction l as [|a l IH]; intros s; [repeat split|]. cbn [fold_left existsb].
  destruct (IH (lz_close E s a)) as [R [L O]]. destruct (close_reg s a) as [R1 L1]. rewrite R, L. split; [exact R1|]. split; [exact L1|].
  intros b. rewrite O, close_obj. destruct (Nat.eqb b a), (existsb (Nat.eqb b) l); cbn; try reflexivity.
  destruct (obj s b); reflexivity.
Qed.
Lemma shut_shut o : shut (shut o) = shut o.
Proof. destruct o; reflexivity. Qed.
Lemma shut_in_memory (s : st) a : obj s a = shut (obj s a) -> ~ in_memory s a.
Proof. intros H [o [d [A B]]]. rewrite A in H. cbn in H. injection H as H. rewrite H in B. discriminate. Qed.
Lemma existsb_In b l : existsb (Nat.eqb b) l = true <-> In b l.
Proof. rewrite existsb_exists. split; [intros [x [H1 H2]]; apply Nat.eqb_eq in H2; now subst|intros H; exists b; split; [exact H|apply Nat.eqb_refl]]. Qed.

(** every history: what is in memory is the file's contents, and of the registered objects at most one holds data *)
Record lzok (s : st) : Prop := mkLzok {
  lk_file : forall a o d, obj s a = Some o -> lzData o = Some d -> fs (lzFile o) = Some d;
  lk_reg : forall a, In a (lzReg s) -> exists o, obj s a = Some o;
  lk_one : forall a b, In a (lzReg s) -> In b (lzReg s) -> in_memory s a -> in_memory s b -> a = b }.
(** histories without copies: every object is registered and nothing leaked *)
Definition allreg (s : st) : Prop := lzLeak s = 0%nat /\ forall a o, obj s a = Some o -> In a (lzReg s).

Lemma load_shape (s : st) a : lzok s -> (exists o, obj s a = Some o) ->
  let s' := fst (lz_load E fs s a) in
  lzReg s' = lzReg s /\
  (forall b, b <> a -> obj s' b = if existsb (Nat.eqb b) (lzReg s) then shut (obj s b) else obj s b) /\
  (forall o, obj s a = Some o ->
     (exists d, fs (lzFile o) = Some d /\ obj s' a = Some (mkLobj (lzFile o) (Some d)) /\ snd (lz_load E fs s a) = Ok tt) \/
     (fs (lzFile o) = None /\ obj s' a = (if existsb (Nat.eqb a) (lzReg s) then shut (obj s a) else obj s a) /\ snd (lz_load E fs s a) = Throw std_logic_error)) /\
  (allreg s -> lzLeak s' = 0%nat).
Proof.
  intros K [o Ho] s'. unfold s', lz_load. destruct (closeAll_obj (lzReg s) s) as [R [L O]].
  pose proof (O a) as Oa. rewrite Ho in Oa.
  assert (exists o1, lzObj (fold_left (lz_close E) (lzReg s) s) a = Some o1 /\ lzFile o1 = lzFile o) as [o1 [E1 F1]].
  { destruct (existsb (Nat.eqb a) (lzReg s)); cbn in Oa; rewrite Oa; eexists; split; reflexivity. }
  rewrite E1, F1. destruct (fs (lzFile o)) as [d|] eqn:Hf; cbn [fst snd].
  - unfold lz_over, lz_put; cbn [lzObj lzReg lzLeak]. split; [exact R|]. split; [|split].
    + intros b Hb. destruct (Nat.eqb_spec b a); [contradiction|]. apply O.
    + intros o' Ho'. rewrite Ho in Ho'. injection Ho' as <-. left. exists d. rewrite Nat.eqb_refl. auto.
    + intros [A B]. rewrite L, A. apply B in Ho. apply existsb_In in Ho. rewrite Ho in Oa. cbn in Oa. rewrite Oa. reflexivity.
  - split; [exact R|]. split; [|split].
    + intros b _. apply O.
    + intros o' Ho'. rewrite Ho in Ho'. injection Ho' as <-. right. split; [exact Hf|]. split; [|reflexivity]. now rewrite O, Ho.
    + intros [A _]. now rewrite L.
Qed.
Lemma load_ok (s : st) a : lzok s -> (exists o, obj s a = Some o) -> lzok (fst (lz_load E fs s a)).
Proof.
  intros K Ha. pose proof (load_shape s a K Ha) as SH. cbv zeta in SH. destruct SH as [R [O [A _]]]. destruct Ha as [o Ho]. specialize (A o Ho).
  assert (F : forall b x d, (if existsb (Nat.eqb b) (lzReg s) then shut (obj s b) else obj s b) = Some x -> lzData x = Some d -> fs (lzFile x) = Some d).
  { intros b x d. clear A; destruct (existsb (Nat.eqb b) (lzReg s)); [destruct (obj s b); cbn; [intros [= <-]; discriminate|discriminate]|apply lk_file; exact K]. }
  set (s' := fst (lz_load E fs s a)) in *. split.
  - intros b x d Hx Hd. destruct (Nat.eq_dec b a) as [->|Hb].
    + destruct A as [[d' [Hf [H1 _]]]|[Hf [H1 _]]]; rewrite H1 in Hx; [injection Hx as <-; cbn in *; congruence|eapply F; eauto].
    + rewrite O in Hx by exact Hb. eapply F; eauto.
  - intros b Hb. rewrite R in Hb. destruct (lk_reg s K b Hb) as [x Hx]. destruct (Nat.eq_dec b a) as [->|Hn].
    + destruct A as [[d' [_ [H1 _]]]|[_ [H1 _]]]; rewrite H1; [eexists; reflexivity|].
      rewrite Hx. dex; eexists; reflexivity.
    + rewrite O by exact Hn. rewrite Hx. dex; eexists; reflexivity.
  - assert (M : forall b, In b (lzReg s') -> in_memory s' b -> b = a).
    { intros b Hb Hm. destruct (Nat.eq_dec b a) as [|Hn]; [assumption|]. exfalso. revert Hm. apply shut_in_memory. rewrite R in Hb.
      rewrite O by exact Hn. apply existsb_In in Hb. rewrite Hb, shut_shut. reflexivity. }
    intros b c Hb Hc Mb Mc. rewrite (M b Hb Mb), (M c Hc Mc). reflexivity.
Qed.
Lemma access_ok (s : st) a : lzok s -> lzok (fst (lz_access E fs s a)).
Proof.
  intros K. unfold lz_access. destruct (lzObj s a) as [o|] eqn:Ho; [|exact K]. destruct (lzData o); [exact K|].
  pose proof (load_ok s a K (ex_intro _ _ Ho)) as L. destruct (lz_load E fs s a) as [s' []]; exact L.
Qed.
Lemma access_fst (s : st) a : fst (lz_access E fs s a) = s \/ ((exists o, obj s a = Some o) /\ fst (lz_access E fs s a) = fst (lz_load E fs s a)).
Proof.
  unfold lz_access. destruct (lzObj s a) as [o|] eqn:Ho; [|now left]. destruct (lzData o); [now left|]. right. split; [eexists; reflexivity|].
  destruct (lz_load E fs s a) as [s' []]; reflexivity.
Qed.
Lemma close_ok (s : st) a : lzok s -> lzok (lz_close E s a).
Proof.
  intros K. split.
  - intros b o d. rewrite close_obj. destruct (Nat.eqb b a); [destruct (obj s b); cbn; [intros [= <-]; discriminate|discriminate]|apply lk_file; exact K].
  - intros b. rewrite (proj1 (close_reg s a)), close_obj. intros Hb. destruct (lk_reg s K b Hb) as [x Hx]. rewrite Hx. destruct (Nat.eqb b a); eexists; reflexivity.
  - intros b c. rewrite (proj1 (close_reg s a)). intros Hb Hc Mb Mc. apply (lk_one s K); auto.
    + destruct Mb as [o [d [H1 H2]]]. rewrite close_obj in H1. destruct (Nat.eqb b a); [destruct (obj s b); cbn in H1; [injection H1 as <-; discriminate|discriminate]|exists o, d; auto].
    + destruct Mc as [o [d [H1 H2]]]. rewrite close_obj in H1. destruct (Nat.eqb c a); [destruct (obj s c); cbn in H1; [injection H1 as <-; discriminate|discriminate]|exists o, d; auto].
Qed.
(** replacing one object by one without data, same registry *)
Lemma put_ok (s : st) a f lk (Hx : exists x, obj s a = Some x \/ ~ In a (lzReg s)) : lzok s ->
  lzok (mkLazy (lzObj (lz_put E s a (Some (mkLobj f None)))) (lzReg s) lk).
Proof.
  intros K. split; cbn.
  - intros b o d. destruct (Nat.eqb b a); [intros H; injection H as <-; discriminate|apply lk_file; exact K].
  - intros b Hb. destruct (lk_reg s K b Hb) as [x Hx']. destruct (Nat.eqb b a); eexists; eauto.
  - intros b c Hb Hc Mb Mc. apply (lk_one s K); auto.
    + destruct Mb as [o [d [H1 H2]]]. cbn in H1. destruct (Nat.eqb b a); [injection H1 as <-; discriminate|exists o, d; auto].
    + destruct Mc as [o [d [H1 H2]]]. cbn in H1. destruct (Nat.eqb c a); [injection H1 as <-; discriminate|exists o, d; auto].
Qed.
Lemma lstep_ok (s : st) o : lzok s -> lzok (lstep E fs s o).
Proof.
  intros K. destruct o as [a f|a b|a b|a|a|a|a]; cbn [lstep].
  - destruct (lzObj s a) eqn:Ho; [exact K|]. split; cbn.
    + intros b o d. destruct (Nat.eqb b a); [intros H; injection H as <-; discriminate|apply lk_file; exact K].
    + intros b Hb. destruct (Nat.eqb_spec b a); [eexists; reflexivity|]. apply in_app_or in Hb as [Hb|[Hb|[]]]; [now apply (lk_reg s K)|congruence].
    + assert (M : forall b, In b (lzReg s ++ [a]) -> in_memory (mkLazy (fun b => if Nat.eqb b a then Some (mkLobj f None) else lzObj s b) (lzReg s ++ [a]) (lzLeak s)) b ->
        In b (lzReg s) /\ in_memory s b).
      { intros b Hb [o [d [H1 H2]]]. cbn in H1. destruct (Nat.eqb_spec b a); [injection H1 as <-; discriminate|]. apply in_app_or in Hb as [Hb|[Hb|[]]]; [|congruence].
        split; [exact Hb|exists o, d; auto]. }
      intros b c Hb Hc Mb Mc. apply M in Mb as [? ?]; [|exact Hb]. apply M in Mc as [? ?]; [|exact Hc]. now apply (lk_one s K).
  - destruct (lzObj s a) eqn:Ho; [exact K|]. destruct (lzObj s b) as [o|]; [|exact K].
    apply (put_ok s a (lzFile o) (lzLeak s)); [|exact K]. exists (mkLobj "" None). right. intros Hin. destruct (lk_reg s K a Hin). congruence.
  - destruct (lzObj s a) as [x|] eqn:Ho; [|exact K]. destruct (lzObj s b) as [o|]; [|exact K].
    apply (put_ok s a (lzFile o) _); [|exact K]. exists x. now left.
  - split; cbn.
    + intros b o d. destruct (Nat.eqb b a); [discriminate|apply lk_file; exact K].
    + intros b Hb. apply filter_In in Hb as [Hb Hn]. destruct (Nat.eqb b a); [discriminate|]. now apply (lk_reg s K).
    + intros b c Hb Hc Mb Mc. apply filter_In in Hb as [Hb Hn]. apply filter_In in Hc as [Hc Hn']. apply (lk_one s K); auto.
      * destruct Mb as [o [d [H1 H2]]]. cbn in H1. destruct (Nat.eqb b a); [discriminate|exists o, d; auto].
      * destruct Mc as [o [d [H1 H2]]]. cbn in H1. destruct (Nat.eqb c a); [discriminate|exists o, d; auto].
  - destruct (lzObj s a) eqn:Ho; [|exact K]. apply load_ok; [exact K|]. eexists; eauto.
  - now apply close_ok.
  - now apply access_ok.
Qed.
Lemma lstep_allreg (s : st) o : lzok s -> no_copy_op o -> allreg s -> allreg (lstep E fs s o).
Proof.
  assert (LD : forall a, lzok s -> (exists o, obj s a = Some o) -> allreg s -> allreg (fst (lz_load E fs s a))).
  { intros a K Ha A. pose proof (load_shape s a K Ha) as SH. cbv zeta in SH. destruct SH as [R [O [_ L]]]. split; [now apply L|].
    intros b x Hx. rewrite R. destruct (Nat.eq_dec b a) as [->|Hn]; [destruct Ha as [oo Ho]; eapply (proj2 A); eauto|].
    rewrite O in Hx by exact Hn. destruct (obj s b) eqn:Hb; [eapply (proj2 A); eauto|destruct (existsb (Nat.eqb b) (lzReg s)); discriminate]. }
  intros K Hc A. destruct o as [a f|a b|a b|a|a|a|a]; try contradiction; cbn [lstep].
  - destruct (lzObj s a) eqn:Ho; [exact A|]. split; [exact (proj1 A)|]. cbn. intros b x. destruct (Nat.eqb_spec b a) as [->|]; intros Hx; apply in_or_app; [right; now left|].
    left. eapply (proj2 A); eauto.
  - split; [exact (proj1 A)|]. cbn. intros b x. destruct (Nat.eqb_spec b a) as [->|Hn]; [discriminate|]. intros Hx. apply filter_In.
    split; [eapply (proj2 A); eauto|]. destruct (Nat.eqb_spec b a); [contradiction|reflexivity].
  - destruct (lzObj s a) eqn:Ho; [|exact A]. apply LD; [exact K|eexists; eauto|exact A].
  - split; [rewrite (proj2 (close_reg s a)); exact (proj1 A)|]. intros b x. rewrite close_obj, (proj1 (close_reg s a)).
    destruct (obj s b) eqn:Hb; [intros _; eapply (proj2 A); eauto|destruct (Nat.eqb b a); discriminate].
  - destruct (access_fst s a) as [->|[Ha ->]]; [exact A|]. now apply LD.
Qed.
Lemma lrun_ok ops : lzok (lrun E fs ops).
Proof.
  unfold lrun. assert (G : forall l (s : st), lzok s -> lzok (fold_left (lstep E fs) l s)).
  { induction l; intros s K; [exact K|]. cbn. apply IHl. now apply lstep_ok. }
  apply G. split; cbn; try discriminate; contradiction.
Qed.
Lemma lrun_allreg ops : Forall no_copy_op ops -> allreg (lrun E fs ops).
Proof.
  unfold lrun. assert (G : forall l (s : st), lzok s -> Forall no_copy_op l -> allreg s -> allreg (fold_left (lstep E fs) l s)).
  { induction l; intros s K F A; [exact A|]. inversion_clear F. cbn. apply IHl; [now apply lstep_ok|assumption|now apply lstep_allreg]. }
  intros F. apply G; [|exact F|]; [split; cbn; try discriminate; contradiction|]. split; [reflexivity|discriminate].
Qed.

Lemma lazy_one_pkg ops : Forall no_copy_op ops -> one_resident (lrun E fs ops).
Proof.
  intros F. pose proof (lrun_allreg ops F) as [L A]. split; [exact L|]. pose proof (lrun_ok ops) as K.
  intros a b Ma Mb. apply (lk_one _ K); auto.
  - destruct Ma as [o [d [H _]]]. eapply A; eauto.
  - destruct Mb as [o [d [H _]]]. eapply A; eauto.
Qed.
(** any history, copies included: access returns the accessed set's own events; of the sets made by the constructor at most one is loaded *)
Lemma lazy_access_pkg ops a f d : let s := lrun E fs ops in alive s a f -> fs f = Some d ->
  snd (lz_access E fs s a) = Ok d /\ in_memory (fst (lz_access E fs s a)) a /\
  (forall b g, alive (fst (lz_access E fs s a)) b g <-> alive s b g) /\
  (forall i e, nth_error d i = Some e -> snd (lz_entry E fs s a i) = Ok e) /\
  (forall i, (List.length d <= i)%nat -> snd (lz_entry E fs s a i) = Throw NotFoundError).
Proof.
  intros s [o [Ho Hf]] Hd. pose proof (lrun_ok ops) as K. fold s in K.
  assert (A : snd (lz_access E fs s a) = Ok d /\ in_memory (fst (lz_access E fs s a)) a /\ forall b g, alive (fst (lz_access E fs s a)) b g <-> alive s b g).
  { unfold lz_access. rewrite Ho. destruct (lzData o) as [d'|] eqn:Hl.
    - pose proof (lk_file _ K a o d' Ho Hl) as H. split; [cbn; congruence|]. split; [exists o, d'; auto|tauto].
    - pose proof (load_shape s a K (ex_intro _ _ Ho)) as SH. cbv zeta in SH. destruct SH as [R [O [X _]]].
      destruct (X o Ho) as [[d' [H1 [H2 H3]]]|[H1 _]]; [|congruence]. destruct (lz_load E fs s a) as [s' r]. cbn in *. subst r. cbn.
      rewrite H2. cbn. split; [congruence|]. split; [eexists _, _; split; [exact H2|reflexivity]|].
      intros b g. unfold alive. destruct (Nat.eq_dec b a) as [->|Hn].
      + rewrite H2, Ho. split; intros [x [Hx Hg]]; injection Hx as <-; eexists; split; try reflexivity; exact Hg.
      + rewrite O by exact Hn. dex; [|tauto]. destruct (lzObj s b); cbn; [|tauto].
        split; intros [x [Hx Hg]]; injection Hx as <-; eexists; split; try reflexivity; exact Hg. }
  destruct A as [A1 [A2 A3]]. split; [exact A1|]. split; [exact A2|]. split; [exact A3|]. unfold lz_entry.
  destruct (lz_access E fs s a) as [s' r]. cbn in A1. subst r. cbn. split.
  - intros i e He. now rewrite He.
  - intros i Hi. apply nth_error_None in Hi. now rewrite Hi.
Qed.
Lemma lazy_registered_pkg ops a b : let s := lrun E fs ops in In a (lzReg s) -> In b (lzReg s) ->
  in_memory s a -> in_memory s b -> a = b.
Proof. cbv zeta. pose proof (lrun_ok ops) as K. apply (lk_one _ K). Qed.
(** a missing file: the access throws, and the registered ones are all closed *)
Lemma lazy_missing_pkg ops a f : let s := lrun E fs ops in alive s a f -> fs f = None ->
  snd (lz_access E fs s a) = Throw std_logic_error /\
  forall b, In b (lzReg s) -> ~ in_memory (fst (lz_access E fs s a)) b.
Proof.
  intros s [o [Ho Hf]] Hd. pose proof (lrun_ok ops) as K. fold s in K.
  assert (Hl : lzData o = None). { destruct (lzData o) eqn:Hl; [|reflexivity]. pose proof (lk_file _ K a o l Ho Hl). congruence. }
  unfold lz_access. rewrite Ho, Hl.
  pose proof (load_shape s a K (ex_intro _ _ Ho)) as SH. cbv zeta in SH. destruct SH as [R [O [X _]]].
  destruct (X o Ho) as [[d' [H1 _]]|[_ [H2 H3]]]; [congruence|]. destruct (lz_load E fs s a) as [s' r]. cbn in *. subst r. cbn. split; [reflexivity|].
  intros b Hb. apply existsb_In in Hb. apply shut_in_memory. destruct (Nat.eq_dec b a) as [->|Hn].
  - rewrite H2, Hb, shut_shut. reflexivity.
  - rewrite O by exact Hn. rewrite Hb, shut_shut. reflexivity.
Qed.
End LazyP.

(** a copy is not registered: two sets in memory; an assignment leaks the loaded data *)
Lemma lazy_copy_witness : exists ops a b, let s := lrun nat (fun _ => Some [7%nat]) ops in
  a <> b /\ in_memory s a /\ in_memory s b.
Proof.
  exists [LNew 0 "f"; LCopy 1 0; LAccess 1; LAccess 0]%string, 0%nat, 1%nat. split; [discriminate|]. split; eexists _, _; split; reflexivity.
Qed.
Lemma lazy_assign_witness : exists ops, lzLeak (lrun nat (fun _ => Some [7%nat]) ops) = 1%nat /\ Forall (fun o => match o with LCopy _ _ => False | _ => True end) ops.
Proof. exists [LNew 0 "f"; LNew 1 "g"; LAccess 1; LAssign 1 0]%string. split; [reflexivity|repeat constructor]. Qed.

(** C67: a data set is the list of what was added *)
Lemma add_pkg ops a d obs : drun ops a = Some d -> let (d', r) := ds_add a d obs in
  (obs <> [] -> (dNObs d = 0%nat \/ dNObs d = List.length obs) ->
     r = Ok tt /\ values d' = values d ++ [obs] /\ dNames d' = dNames d /\ dNObs d' = List.length obs) /\
  (obs = [] \/ (dNObs d <> 0%nat /\ dNObs d <> List.length obs) -> r = Throw DimensionError /\ d' = d).
Proof.
  intros _. unfold ds_add. destruct (Nat.eqb_spec (dNObs d) 0) as [Z|Z].
  - destruct obs as [|x t]; cbn [List.length Nat.eqb].
    + split; [congruence|]. intros _. split; [reflexivity|]. destruct d; cbn in *; subst; reflexivity.
    + split; [|intros [C|[C _]]; [discriminate|contradiction]]. intros _ _. split; [reflexivity|]. unfold values. cbn. now rewrite map_app.
  - destruct (Nat.eqb_spec (dNObs d) (List.length obs)) as [E|E]; cbn [negb].
    + destruct obs as [|x t]; [cbn in E; contradiction|]. cbn [List.length Nat.eqb]. split; [|intros [C|[_ C]]; [discriminate|contradiction]].
      intros _ _. split; [reflexivity|]. unfold values. cbn. now rewrite map_app, E.
    + split; [intros _ [C|C]; contradiction|]. auto.
Qed.
Lemma get_pkg ops a d i : drun ops a = Some d ->
  ((i < ds_n d)%nat -> exists e, ds_get d i = Ok e /\ nth_error (values d) i = Some (dvObs e) /\ List.length (dvObs e) = dNObs d) /\
  ((ds_n d <= i)%nat -> ds_get d i = Throw NotFoundError).
Proof.
  intros H. pose proof (drun_ok ops a d H) as K. unfold ds_get, ds_n, values. split.
  - intros Hi. destruct (nth_error (dData d) i) as [e|] eqn:E; [|apply nth_error_None in E; lia]. exists e. split; [reflexivity|].
    split; [rewrite nth_error_map, E; reflexivity|]. apply K. eapply nth_error_In; exact E.
  - intros Hi. apply nth_error_None in Hi. now rewrite Hi.
Qed.
