From Coq Require Import Lia Sorting.Sorted.
From Verif Require Import Base.Res Base.Num Base.SMap Model.Vary Spec.VarySpec.
Local Open Scope Qc_scope.
Local Open Scope res_scope.

Definition vown (h : heap) (l : list nat) : Prop := NoDup l /\ forall a, In a l -> exists f, h a = Some f.
Lemma in_snd (v : vcdf) a : swf v -> (In a (map snd v) <-> exists par, sfind par v = Some a).
Proof.
  intros W. rewrite in_map_iff. split.
  - intros ([p b] & E & I). cbn in E. subst. exists p. apply sfind_In; auto.
  - intros (p & E). apply sfind_In in E; [|auto]. exists (p, a). auto.
Qed.
Lemma nodup_snd (v : vcdf) : swf v -> (forall p q a, sfind p v = Some a -> sfind q v = Some a -> p = q) -> NoDup (map snd v).
Proof.
  intros W U. assert (U' : forall p q a, In (p, a) v -> In (q, a) v -> p = q) by (intros p q a I J; apply (U p q a); apply sfind_In; auto).
  pose proof (swf_nodup _ W) as N. clear W U. unfold skeys in N. induction v as [|[p a] t IH]; cbn; [constructor|].
  inversion N as [|? ? N1 N2]; subst. constructor.
  - intros I. apply in_map_iff in I. destruct I as ([q b] & E & I). cbn in E. subst. assert (p = q) by (apply (U' p q a); [now left|now right]). subst. apply N1. apply in_map_iff. exists (q, a). auto.
  - apply IH; [|exact N2]. intros p' q' a' I J. apply (U' p' q' a'); now right.
Qed.
Lemma sound_vown h v : sound h v -> vown h (map snd v).
Proof.
  intros (W & L & U). split; [apply nodup_snd; auto|]. intros a I. apply in_snd in I; [|exact W]. destruct I as (p & E). eapply L; eauto.
Qed.
Lemma hput_same h a x : hput h a x a = x.
Proof. unfold hput. now rewrite Nat.eqb_refl. Qed.
Lemma hput_other h a b x : a <> b -> hput h a x b = h b.
Proof. intros N. unfold hput. destruct (Nat.eqb_spec b a); [subst; congruence|reflexivity]. Qed.

Lemma sound_new h : sound h vc_new.
Proof. split; [exact sempty_wf|]. split; cbn; intros; discriminate. Qed.
Lemma depend_pkg h v par f a : sound h v -> h a = None ->
  let r := vc_depend h v par f a in
  sound (fst r) (snd r) /\ governs (fst r) (snd r) par a f /\
  (forall p b g, p <> par -> (governs (fst r) (snd r) p b g <-> governs h v p b g)).
Proof.
  intros (W & L & U) F. cbv zeta. cbn [vc_depend fst snd].
  assert (Fr : forall p, sfind p v <> Some a) by (intros p E; destruct (L _ _ E) as [g G]; congruence).
  split; [split; [apply sset_wf; exact W|split]|split].
  - intros p b. rewrite sfind_sset. destruct (String.eqb_spec p par).
    + intros [= <-]. rewrite hput_same. eauto.
    + intros E. rewrite hput_other; [eauto|]. intros ->. now apply Fr in E.
  - intros p q b. rewrite !sfind_sset. destruct (String.eqb_spec p par), (String.eqb_spec q par); intros E1 E2; subst; try congruence.
    eapply U; eauto.
  - split; [apply sfind_sset_eq|apply hput_same].
  - intros p b g N. unfold governs. rewrite sfind_sset_neq by auto. split; intros [E1 E2]; (split; [exact E1|]); rewrite hput_other in * by (intros ->; now apply Fr in E1); exact E2.
Qed.

Definition vstep (g : sqs -> res sqs) : heap -> nat -> heap * res unit :=
  fun h a => match (do f <- live h a; g f) with
                    | Ok f' => (hput h a (Some f'), Ok tt)
                    | Throw e => (h, Throw e) | UB => (h, UB) | NonFinite => (h, NonFinite) | Diverge => (h, Diverge)
                    end.
Lemma each_ok (g : sqs -> res sqs) l : forall h, vown h l -> (forall a f, In a l -> h a = Some f -> exists f', g f = Ok f') ->
  exists h', iterS (vstep g) l h = (h', Ok tt) /\ (forall a, ~ In a l -> h' a = h a) /\
    forall a f, In a l -> h a = Some f -> exists f', g f = Ok f' /\ h' a = Some f'.
Proof.
  induction l as [|a t IH]; intros h [N L] G.
  - exists h. cbn. split; [reflexivity|]. split; [reflexivity|]. intros b f [].
  - inversion N as [|? ? N1 N2]; subst. destruct (L a (or_introl eq_refl)) as [f F]. destruct (G a f (or_introl eq_refl) F) as [f' F'].
    cbn [iterS]. unfold vstep at 1. unfold live. rewrite F. cbn [bind]. rewrite F'.
    destruct (IH (hput h a (Some f'))) as (h' & E & O & V).
    { split; [exact N2|]. intros b I. rewrite hput_other by (intros ->; contradiction). apply L. now right. }
    { intros b k I. rewrite hput_other by (intros ->; contradiction). apply G. now right. }
    exists h'. split; [exact E|]. split.
    + intros b I. rewrite O by (intros J; apply I; now right). apply hput_other. intros ->. apply I. now left.
    + intros b k [->|I] K.
      * rewrite O by exact N1. rewrite hput_same. exists f'. split; [congruence|reflexivity].
      * assert (a <> b) by (intros ->; contradiction). apply V; [exact I|]. now rewrite hput_other.
Qed.
Lemma each_bad (g : sqs -> res sqs) l : forall h, vown h l -> (forall f, (exists f', g f = Ok f') \/ g f = Throw ParameterError) ->
  (exists a f, In a l /\ h a = Some f /\ g f = Throw ParameterError) -> snd (iterS (vstep g) l h) = Throw ParameterError.
Proof.
  induction l as [|a t IH]; intros h [N L] G (b & k & I & K & B); [destruct I|].
  inversion N as [|? ? N1 N2]; subst. destruct (L a (or_introl eq_refl)) as [f F].
  cbn [iterS]. unfold vstep at 1. unfold live. rewrite F. cbn [bind]. destruct (G f) as [[f' F']|F']; rewrite F'; [|reflexivity].
  apply IH; [|exact G|].
  - split; [exact N2|]. intros c J. rewrite hput_other by (intros ->; contradiction). apply L. now right.
  - destruct I as [->|I]; [congruence|]. assert (a <> b) by (intros ->; contradiction). exists b, k. rewrite hput_other by auto. auto.
Qed.
Lemma vc_each_step g h v : vc_each g h v = iterS (vstep g) (map snd v) h.
Proof. reflexivity. Qed.
(** a call on every function *)
Lemma each_pkg (g : sqs -> res sqs) h v : sound h v -> (forall f, (exists f', g f = Ok f') \/ g f = Throw ParameterError) ->
  ((exists par a f, governs h v par a f /\ g f = Throw ParameterError) -> snd (vc_each g h v) = Throw ParameterError) /\
  ((forall par a f, governs h v par a f -> exists f', g f = Ok f') ->
   exists h', vc_each g h v = (h', Ok tt) /\ sound h' v /\ others_untouched h h' v /\
     forall par a f, governs h v par a f -> exists f', g f = Ok f' /\ governs h' v par a f').
Proof.
  intros Sd G. pose proof (sound_vown _ _ Sd) as V. destruct Sd as (W & L & U). rewrite vc_each_step. split.
  - intros (p & a & f & [E F] & B). apply each_bad; [exact V|exact G|]. exists a, f. split; [apply in_snd; eauto|]. auto.
  - intros A. destruct (each_ok g (map snd v) h V) as (h' & E & O & K).
    { intros a f I F. apply in_snd in I; [|exact W]. destruct I as [p I]. apply (A p a f). split; auto. }
    exists h'. split; [exact E|].
    assert (Gv : forall par a f, governs h v par a f -> exists f', g f = Ok f' /\ governs h' v par a f').
    { intros p a f [E1 E2]. destruct (K a f) as (f' & K1 & K2); [apply in_snd; eauto|exact E2|]. exists f'. split; [exact K1|]. split; auto. }
    split; [split; [exact W|split; [|exact U]]|split; [|exact Gv]].
    + intros p a Ea. destruct (L p a Ea) as [f F]. destruct (Gv p a f (conj Ea F)) as (f' & _ & _ & F'). eauto.
    + intros a N. apply O. intros I. apply in_snd in I; [|exact W]. destruct I as [p I]. now apply (N p).
Qed.

Lemma sq_setAll_cases d f : (exists f', sq_setAll f d = Ok f') \/ sq_setAll f d = Throw ParameterError.
Proof. unfold sq_setAll. destruct (sfind (sqPar f) d); eauto. Qed.

(** reading *)
Definition putnew (d : smap Qc) (e : string * Qc) : smap Qc := if shas (fst e) d then d else sset (fst e) (snd e) d.
Lemma putnew_find d n x m : sfind m (putnew d (n, x)) = match sfind m d with Some y => Some y | None => if String.eqb m n then Some x else None end.
Proof.
  unfold putnew, shas. cbn [fst snd]. destruct (sfind n d) as [y|] eqn:E.
  - destruct (sfind m d) eqn:E2; [reflexivity|]. destruct (String.eqb_spec m n); [congruence|reflexivity].
  - rewrite sfind_sset. destruct (String.eqb_spec m n); [subst; now rewrite E|]. now destruct (sfind m d).
Qed.
Lemma putnew_wf d e : swf d -> swf (putnew d e).
Proof. intros W. unfold putnew. destruct (shas (fst e) d); [exact W|]. now apply sset_wf. Qed.
Lemma getAll_gen h l : (forall a, In a l -> exists f, h a = Some f) -> forall d, swf d ->
  exists d', foldM (fun d a => do f <- live h a;
                    Ok (fold_left (fun d e => if shas (fst e) d then d else sset (fst e) (snd e) d) (sq_getAll f) d)) l d = Ok d' /\ swf d' /\
    forall n, match sfind n d with
              | Some y => sfind n d' = Some y
              | None => match sfind n d' with
                        | Some x => exists a f, In a l /\ h a = Some f /\ sqPar f = n /\ sqVal f = x
                        | None => forall a f, In a l -> h a = Some f -> sqPar f <> n
                        end
              end.
Proof.
  induction l as [|a t IH]; intros L d W.
  - exists d. split; [reflexivity|]. split; [exact W|]. intros n. destruct (sfind n d); [reflexivity|]. intros a f [].
  - destruct (L a (or_introl eq_refl)) as [f F]. cbn [foldM]. unfold live at 1. rewrite F. cbn [bind].
    change (fold_left _ (sq_getAll f) d) with (putnew d (sqPar f, sqVal f)).
    destruct (IH (fun b I => L b (or_intror I)) (putnew d (sqPar f, sqVal f)) (putnew_wf d _ W)) as (d' & E & W' & V).
    exists d'. split; [exact E|]. split; [exact W'|]. intros n. specialize (V n). rewrite putnew_find in V.
    destruct (sfind n d) as [y|] eqn:Ey; [exact V|]. destruct (String.eqb_spec n (sqPar f)) as [->|N].
    + rewrite V. exists a, f. repeat split; auto. now left.
    + destruct (sfind n d') as [x|].
      * destruct V as (b & k & I & R). exists b, k. split; [now right|exact R].
      * intros b k [->|I] K; [congruence|]. eapply V; eauto.
Qed.
Lemma getAll_pkg h v : sound h v -> exists d, vc_getAll h v = Ok d /\ swf d /\
  (forall n, In n (skeys d) <-> has_parameter h v n) /\
  (forall n x, sfind n d = Some x -> exists par a f, governs h v par a f /\ sqPar f = n /\ sqVal f = x).
Proof.
  intros Sd. pose proof (sound_vown _ _ Sd) as [_ V]. destruct Sd as (W & L & U).
  destruct (getAll_gen h (map snd v) V sempty sempty_wf) as (d & E & Wd & K). exists d. split; [exact E|]. split; [exact Wd|].
  assert (Q : forall n x, sfind n d = Some x -> exists par a f, governs h v par a f /\ sqPar f = n /\ sqVal f = x).
  { intros n x F. specialize (K n). cbn [sfind sempty] in K. rewrite F in K. destruct K as (a & f & I & Hf & P & X). apply in_snd in I; [|exact W].
    destruct I as [p I]. exists p, a, f. split; [split; auto|]. auto. }
  split; [|exact Q]. intros n. rewrite sfind_in. split.
  - intros [x F]. destruct (Q n x F) as (p & a & f & G & P & _). exists p, a, f. auto.
  - intros (p & a & f & [G1 G2] & P). specialize (K n). cbn [sfind sempty] in K. destruct (sfind n d) as [x|]; [eauto|]. exfalso.
    apply (K a f); [apply in_snd; eauto|exact G2|exact P].
Qed.
(** all parameters at once *)
Lemma setAll_pkg h v d : sound h v ->
  ((exists n, has_parameter h v n /\ ~ In n (skeys d)) -> snd (vc_setAll h v d) = Throw ParameterError) /\
  ((forall n, has_parameter h v n -> In n (skeys d)) ->
   exists h' g, vc_setAll h v d = (h', Ok tt) /\ sound h' v /\ others_untouched h h' v /\
     (forall par a f, governs h v par a f -> exists x, sfind (sqPar f) d = Some x /\ governs h' v par a (mkSqs (sqPar f) x)) /\
     (forall n, has_parameter h' v n <-> has_parameter h v n) /\
     vc_getAll h' v = Ok g /\ swf g /\ (forall n, has_parameter h v n -> sfind n g = sfind n d) /\ (forall n, In n (skeys g) -> has_parameter h v n)).
Proof.
  intros Sd. destruct (each_pkg (fun f => sq_setAll f d) h v Sd (sq_setAll_cases d)) as [B G]. split.
  - intros (n & (p & a & f & Gv & P) & M). apply B. exists p, a, f. split; [exact Gv|]. unfold sq_setAll. subst n.
    destruct (sfind (sqPar f) d) eqn:E; [|reflexivity]. exfalso. apply M. apply sfind_in. eauto.
  - intros A. destruct G as (h' & E & Sd' & O & V).
    { intros p a f Gv. assert (I : In (sqPar f) (skeys d)) by (apply A; exists p, a, f; auto). apply sfind_in in I. destruct I as [x I].
      unfold sq_setAll. rewrite I. eauto. }
    destruct (getAll_pkg h' v Sd') as (g & Eg & Wg & Kg & Vg).
    assert (V' : forall par a f, governs h v par a f -> exists x, sfind (sqPar f) d = Some x /\ governs h' v par a (mkSqs (sqPar f) x)).
    { intros p a f Gv. destruct (V p a f Gv) as (f' & S1 & G1). unfold sq_setAll in S1. destruct (sfind (sqPar f) d) as [x|]; [|discriminate].
      injection S1 as <-. exists x. auto. }
    assert (H1 : forall p a f', governs h' v p a f' -> exists f x, governs h v p a f /\ sqPar f = sqPar f' /\ sfind (sqPar f) d = Some x /\ sqVal f' = x).
    { intros p a f' [G1 G2]. destruct Sd as (W & L & U). destruct (L p a G1) as [f F]. destruct (V' p a f (conj G1 F)) as (x & X & [_ Y]).
      rewrite G2 in Y. injection Y as ->. exists f, x. split; [split; auto|]. auto. }
    assert (HP : forall n, has_parameter h' v n <-> has_parameter h v n).
    { intros n. split.
      - intros (p & a & f' & Gv & P). destruct (H1 p a f' Gv) as (f & x & Gf & Pf & _). exists p, a, f. split; [exact Gf|congruence].
      - intros (p & a & f & Gv & P). destruct (V' p a f Gv) as (x & X & Y). exists p, a, (mkSqs (sqPar f) x). auto. }
    exists h', g. split; [exact E|]. split; [exact Sd'|]. split; [exact O|]. split; [exact V'|]. split; [exact HP|]. split; [exact Eg|]. split; [exact Wg|]. split.
    + intros n Hn. apply HP in Hn. apply Kg in Hn. apply sfind_in in Hn. destruct Hn as [x X]. rewrite X. destruct (Vg n x X) as (p & a & f' & Gv & P & Y).
      destruct (H1 p a f' Gv) as (f & z & Gf & Pf & Z & Z'). rewrite <- P, <- Pf, Z. congruence.
    + intros n Hn. apply HP. now apply Kg.
Qed.
(** names *)
Lemma sset_add_in k s x : In x (sset_add k s) <-> x = k \/ In x s.
Proof.
  unfold sset_add. assert (H := skeys_sset_in k tt (map (fun y => (y, tt)) s) x).
  unfold skeys in *. rewrite map_map in H. cbn in H. rewrite map_id in H. exact H.
Qed.
Lemma sset_add_sorted k s : StronglySorted slt s -> StronglySorted slt (sset_add k s).
Proof.
  intros H. unfold sset_add. apply (sset_wf k tt). unfold swf, skeys. rewrite map_map. cbn. now rewrite map_id.
Qed.
Lemma names_gen h l : (forall a, In a l -> exists f, h a = Some f) -> forall s, StronglySorted slt s ->
  exists s', foldM (fun s a => do f <- live h a; Ok (sset_add (sqPar f) s)) l s = Ok s' /\ StronglySorted slt s' /\
    forall n, In n s' <-> In n s \/ exists a f, In a l /\ h a = Some f /\ sqPar f = n.
Proof.
  induction l as [|a t IH]; intros L s W.
  - exists s. split; [reflexivity|]. split; [exact W|]. intros n. split; [auto|]. intros [H|(a & f & [] & _)]. exact H.
  - destruct (L a (or_introl eq_refl)) as [f F]. cbn [foldM]. unfold live at 1. rewrite F. cbn [bind].
    destruct (IH (fun b I => L b (or_intror I)) _ (sset_add_sorted (sqPar f) s W)) as (s' & E & W' & V).
    exists s'. split; [exact E|]. split; [exact W'|]. intros n. rewrite V, sset_add_in. split.
    + intros [[->|H]|(b & k & I & R)]; [right; exists a, f; repeat split; auto; now left|now left|right; exists b, k; split; [now right|exact R]].
    + intros [H|(b & k & [->|I] & K & P)]; [left; now right|left; left; congruence|right; exists b, k; auto].
Qed.
Lemma count_gen h l : (forall a, In a l -> exists f, h a = Some f) -> forall n,
  foldM (fun n a => do _ <- live h a; Ok (n + 1)%nat) l n = Ok (n + List.length l)%nat.
Proof.
  induction l as [|a t IH]; intros L n; cbn [foldM List.length]; [f_equal; lia|].
  destruct (L a (or_introl eq_refl)) as [f F]. unfold live at 1. rewrite F. cbn [bind]. rewrite IH by (intros b I; apply L; now right). f_equal. lia.
Qed.
Lemma names_pkg h v : sound h v -> exists s, vc_names h v = Ok s /\ StronglySorted slt s /\ (forall n, In n s <-> has_parameter h v n) /\
  vc_count h v = Ok (List.length v).
Proof.
  intros Sd. pose proof (sound_vown _ _ Sd) as [_ V]. destruct Sd as (W & L & U).
  destruct (names_gen h (map snd v) V [] (SSorted_nil _)) as (s & E & Ws & K). exists s. split; [exact E|]. split; [exact Ws|]. split.
  - intros n. rewrite K. split.
    + intros [[]|(a & f & I & F & P)]. apply in_snd in I; [|exact W]. destruct I as [p I]. exists p, a, f. split; [split; auto|]. exact P.
    + intros (p & a & f & [G1 G2] & P). right. exists a, f. split; [apply in_snd; eauto|]. auto.
  - unfold vc_count. rewrite count_gen by exact V. now rewrite map_length.
Qed.
(** one parameter *)
Lemma get_gen h l n : (forall a, In a l -> exists f, h a = Some f) ->
  vc_getGo h l n = match l with [] => Throw NotFoundError | a :: _ => match h a with Some f => if String.eqb n (sqPar f) then Ok (sqVal f) else Throw ParameterError | None => UB end end.
Proof.
  destruct l as [|a t]; intros L; [reflexivity|]. destruct (L a (or_introl eq_refl)) as [f F]. cbn [vc_getGo]. unfold live. rewrite F. cbn [bind].
  unfold sq_get. now destruct (String.eqb n (sqPar f)).
Qed.
Lemma sq_set_cases n x f : (exists f', sq_set f n x = Ok f') \/ sq_set f n x = Throw ParameterError.
Proof. unfold sq_set. destruct (String.eqb n (sqPar f)); eauto. Qed.
Lemma sq_rename_cases o n f : (exists f', sq_rename f o n = Ok f') \/ sq_rename f o n = Throw ParameterError.
Proof. unfold sq_rename. destruct (String.eqb o (sqPar f)); eauto. Qed.
Lemma one_pkg h v n : sound h v -> only_parameter h v n ->
  (forall x, exists h', vc_set h v n x = (h', Ok tt) /\ sound h' v /\ others_untouched h h' v /\
  (forall par a f, governs h v par a f -> governs h' v par a (mkSqs n x)) /\ (v <> [] -> vc_get h' v n = Ok x)) /\
  (forall m, exists h', vc_rename h v n m = (h', Ok tt) /\ sound h' v /\ others_untouched h h' v /\ only_parameter h' v m /\
  (forall par a f, governs h v par a f -> governs h' v par a (mkSqs m (sqVal f)))) /\
  (forall par a f, governs h v par a f -> (forall par' a' f', governs h v par' a' f' -> sqVal f' = sqVal f) -> vc_get h v n = Ok (sqVal f)) /\
  (v = [] -> vc_get h v n = Throw NotFoundError).
Proof.
  intros Sd On.
  assert (V1 : forall h', sound h' v -> v <> [] -> (exists par a f, governs h' v par a f /\ vc_get h' v n = if String.eqb n (sqPar f) then Ok (sqVal f) else Throw ParameterError)).
  { intros h' Sd' N. pose proof (sound_vown _ _ Sd') as [_ V']. unfold vc_get. rewrite (get_gen h' _ n V'). destruct v as [|[p a] t]; [congruence|]. cbn [map].
    destruct (V' a (or_introl eq_refl)) as [f F]. exists p, a, f. split; [split; [cbn; now rewrite String.eqb_refl|exact F]|]. cbn [snd]. now rewrite F. }
  split; [|split; [|split]].
  - intros x. destruct (proj2 (each_pkg (fun f => sq_set f n x) h v Sd (sq_set_cases n x))) as (h' & E & Sd' & O & K).
    { intros p a f G. unfold sq_set. rewrite (On p a f G), String.eqb_refl. eauto. }
    assert (K' : forall par a f, governs h v par a f -> governs h' v par a (mkSqs n x)).
    { intros p a f G. destruct (K p a f G) as (f' & F & G'). unfold sq_set in F. rewrite (On p a f G), String.eqb_refl in F. now injection F as <-. }
    exists h'. split; [exact E|]. split; [exact Sd'|]. split; [exact O|]. split; [exact K'|].
    intros N. destruct (V1 h' Sd' N) as (p & a & f & [G1 G2] & R). rewrite R. destruct Sd as (W & L & U). destruct (L p a G1) as [f0 F0].
    destruct (K' p a f0 (conj G1 F0)) as [_ G3]. rewrite G3 in G2. injection G2 as <-. cbn. now rewrite String.eqb_refl.
  - intros m. destruct (proj2 (each_pkg (fun f => sq_rename f n m) h v Sd (sq_rename_cases n m))) as (h' & E & Sd' & O & K).
    { intros p a f G. unfold sq_rename. rewrite (On p a f G), String.eqb_refl. eauto. }
    assert (K' : forall par a f, governs h v par a f -> governs h' v par a (mkSqs m (sqVal f))).
    { intros p a f G. destruct (K p a f G) as (f' & F & G'). unfold sq_rename in F. rewrite (On p a f G), String.eqb_refl in F. now injection F as <-. }
    exists h'. split; [exact E|]. split; [exact Sd'|]. split; [exact O|]. split; [|exact K'].
    intros p a f [G1 G2]. destruct Sd as (W & L & U). destruct (L p a G1) as [f0 F0]. destruct (K' p a f0 (conj G1 F0)) as [_ G3]. rewrite G3 in G2. now injection G2 as <-.
  - intros p a f G Q. destruct (V1 h Sd) as (p' & a' & f' & G' & R); [intros ->; destruct G; discriminate|].
    rewrite R, (On _ _ _ G'), String.eqb_refl. f_equal. eauto.
  - intros ->. reflexivity.
Qed.
(** naming one function's parameter while another's has a different name fails *)
Lemma mixed_pkg h v n par a f : sound h v -> governs h v par a f -> sqPar f <> n ->
  (forall x, snd (vc_set h v n x) = Throw ParameterError) /\ (forall m, snd (vc_rename h v n m) = Throw ParameterError).
Proof.
  intros Sd G N. split; intros z.
  - apply (proj1 (each_pkg (fun f => sq_set f n z) h v Sd (sq_set_cases n z))). exists par, a, f. split; [exact G|]. unfold sq_set.
    destruct (String.eqb_spec n (sqPar f)); [congruence|reflexivity].
  - apply (proj1 (each_pkg (fun f => sq_rename f n z) h v Sd (sq_rename_cases n z))). exists par, a, f. split; [exact G|]. unfold sq_rename.
    destruct (String.eqb_spec n (sqPar f)); [congruence|reflexivity].
Qed.
(** destruction *)
Lemma destroy_gen l : forall h, vown h l ->
  exists h', iterS (fun h a => match live h a with
                    | Ok _ => (hput h a None, Ok tt)
                    | Throw e => (h, Throw e) | UB => (h, UB) | NonFinite => (h, NonFinite) | Diverge => (h, Diverge)
                    end) l h = (h', Ok tt) /\ (forall a, In a l -> h' a = None) /\ (forall a, ~ In a l -> h' a = h a).
Proof.
  induction l as [|a t IH]; intros h [N L].
  - exists h. cbn. split; [reflexivity|]. split; [intros a []|reflexivity].
  - inversion N as [|? ? N1 N2]; subst. destruct (L a (or_introl eq_refl)) as [f F]. cbn [iterS]. unfold live at 1. rewrite F.
    destruct (IH (hput h a None)) as (h' & E & D & O).
    { split; [exact N2|]. intros b I. rewrite hput_other by (intros ->; contradiction). apply L. now right. }
    exists h'. split; [exact E|]. split.
    + intros b [->|I]; [rewrite O by exact N1; apply hput_same|]. now apply D.
    + intros b I. rewrite O by (intros J; apply I; now right). apply hput_other. intros ->. apply I. now left.
Qed.
Lemma destroy_pkg h v : sound h v -> exists h', vc_destroy h v = (h', Ok tt) /\ others_untouched h h' v /\ (forall par a, sfind par v = Some a -> h' a = None) /\
  (v <> [] -> snd (vc_destroy h' (vc_copy v)) = UB /\ forall n, vc_get h' (vc_copy v) n = UB).
Proof.
  intros Sd. pose proof (sound_vown _ _ Sd) as V. destruct Sd as (W & L & U). destruct (destroy_gen _ h V) as (h' & E & D & O).
  exists h'. split; [exact E|]. split; [|split].
  - intros a N. apply O. intros I. apply in_snd in I; [|exact W]. destruct I as [p I]. now apply (N p).
  - intros p a Ea. apply D. apply in_snd; eauto.
  - intros N. destruct v as [|[p a] t]; [congruence|]. unfold vc_destroy, vc_copy, vc_get. cbn [map snd iterS vc_getGo]. unfold live.
    rewrite (D a) by now left. split; reflexivity.
Qed.
