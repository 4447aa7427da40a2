(** C99: projecting the working pdfs on the observables of the data. *)
From Coq Require Import ZArith Lia.
From Verif Require Import Base.Res Base.Num Base.SMap Model.Axis Model.Event Model.Hist Model.ED Model.Param Model.Matrix Model.SystMan Model.Shrink Model.EDMan
  Spec.AxisSpec Spec.HistSpec Spec.HistToolsSpec Spec.BedOpsSpec Spec.EDManSpec Proofs.AxisP Proofs.HistP Proofs.HistP2 Proofs.HistP4 Proofs.EDManP Proofs.BedOpsP
  Proofs.NLLHS1 Proofs.BufferP2.
Local Open Scope Qc_scope.
Local Open Scope res_scope.

Definition proj (ob : list string) (w : bed) : bed := match bed_marginalise w ob with Ok w' => w' | _ => w end.
Lemma proj_ok ob w : h_reach (bdHist w) -> ob <> [] -> NoDup ob -> incl ob (names_of (bdHist w)) ->
  bed_marginalise w ob = Ok (proj ob w) /\ h_reach (bdHist (proj ob w)) /\ osNames (bdObs (proj ob w)) = ob /\ projection (bdHist w) ob (bdHist (proj ob w)).
Proof.
  intros R H1 H2 H3. destruct (marginalise_pkg (bdHist w) ob R) as [M _]. destruct (M H1 H2 H3) as [m [E [A [C [I1 I2]]]]].
  unfold proj, bed_marginalise. rewrite E. cbn [bind bdHist bdObs]. split; [reflexivity|]. split; [eapply marg_reach; eassumption|]. split; [reflexivity|].
  split; [exact A|]. split; [exact I2|exact C].
Qed.
(** the axes of a projection follow from the names *)
Lemma axes_fun (l : list axis) : NoDup (map aName l) -> forall ob a b,
  Forall2 (fun n a => In a l /\ aName a = n) ob a -> Forall2 (fun n a => In a l /\ aName a = n) ob b -> a = b.
Proof.
  intros Hn ob a b Ha. revert b. induction Ha as [|n y ob a [H1 H2] _ IH]; intros b Hb; inversion Hb as [|? z ? b' [G1 G2] Hb']; subst; [reflexivity|].
  f_equal; [|now apply IH]. clear -Hn H1 G1 G2. induction l as [|x l IHl]; [destruct H1|]. cbn in Hn. inversion Hn as [|? ? Hx Hn']; subst.
  destruct H1 as [->|H1], G1 as [->|G1]; auto; exfalso; apply Hx; [rewrite <- G2|rewrite G2]; now apply in_map.
Qed.
Lemma names_nodup h : h_reach h -> NoDup (names_of h).
Proof. intros R. destruct (h_reach_ok _ R) as [A _]. unfold names_of. apply A. Qed.
Lemma proj_bins ob w D : h_reach (bdHist w) -> h_reach D -> axes_named (hAxes (bdHist w)) ob D -> h_reach (bdHist (proj ob w)) -> projection (bdHist w) ob (bdHist (proj ob w)) ->
  hNBins (bdHist (proj ob w)) = hNBins D.
Proof.
  intros Rw RD A Rp [P _]. rewrite (h_ok_nbins _ (h_reach_ok _ Rp)), (h_ok_nbins _ (h_reach_ok _ RD)). unfold shape_of. f_equal. f_equal.
  eapply axes_fun; [apply (names_nodup _ Rw)|exact P|exact A].
Qed.
Lemma named_nodup ob D (ac : axcol) : h_reach D -> axes_named ac ob D -> ob = names_of D /\ ob <> [] /\ NoDup ob /\ incl ob (map aName (acAxes ac)).
Proof.
  intros RD A. assert (E : ob = names_of D).
  { unfold names_of. unfold axes_named in A. clear RD. induction A as [|n a ob l [H1 H2] _ IH]; cbn; [reflexivity|]. congruence. }
  split; [exact E|]. split; [|split].
  - rewrite E. unfold names_of. destruct (h_reach_ok _ RD) as [_ [N _]]. destruct (acAxes (hAxes D)); [congruence|discriminate].
  - rewrite E. now apply names_nodup.
  - clear E RD. unfold axes_named in A. induction A as [|n a ob l [H1 H2] _ IH]; intros k Hk; [destruct Hk|]. destruct Hk as [<-|Hk]; [|now apply IH]. rewrite <- H2. now apply in_map.
Qed.

Lemma map_upd_next {A} (f : A -> A) : forall (l : list A) j x, nth_error l j = Some x -> upd (map f (firstn j l) ++ skipn j l) j (f x) = map f (firstn (S j) l) ++ skipn (S j) l.
Proof.
  induction l as [|a l IH]; intros [|j] x H; cbn in *; try discriminate; [now injection H as ->|]. f_equal. now apply IH.
Qed.
Lemma dims_all p ob : (forall w, In w (emWork p) -> osNames (bdObs w) <> ob /\ bed_marginalise w ob = Ok (proj ob w)) ->
  em_dimensions p ob = (em_setWork p (map (proj ob) (emWork p)), Ok tt).
Proof.
  intros H. unfold em_dimensions. set (l := emWork p) in *.
  assert (G : forall n j q, (j + n = List.length l)%nat -> q = em_setWork p (map (proj ob) (firstn j l) ++ skipn j l) ->
    iterS (fun s1 i => obind s1 (vidx (emWork s1) i) (fun w =>
           if list_eq_dec string_dec (osNames (bdObs w)) ob then (s1, Ok tt)
           else obind s1 (bed_marginalise w ob) (fun w' => (em_setWork s1 (upd (emWork s1) i w'), Ok tt)))) (seq j n) q = (em_setWork p (map (proj ob) l), Ok tt)).
  { induction n as [|n IH]; intros j q Hj ->; cbn [seq iterS].
    - do 2 f_equal. rewrite firstn_all2, skipn_all2 by lia. apply app_nil_r.
    - cbn [em_setWork emWork]. destruct (nth_error l j) as [w|] eqn:Ew; [|apply nth_error_None in Ew; lia].
      assert (Ev : vidx (map (proj ob) (firstn j l) ++ skipn j l) j = Ok w).
      { unfold vidx. rewrite nth_error_app2 by (rewrite map_length, firstn_length; lia). rewrite map_length, firstn_length, Nat.min_l, Nat.sub_diag by lia.
        rewrite <- (firstn_skipn j l) in Ew. rewrite nth_error_app2 in Ew by (rewrite firstn_length; lia). rewrite firstn_length, Nat.min_l, Nat.sub_diag in Ew by lia. now rewrite Ew. }
      rewrite Ev. cbn [obind]. destruct (H w (nth_error_In _ _ Ew)) as [N M]. destruct (list_eq_dec string_dec (osNames (bdObs w)) ob); [contradiction|]. rewrite M. cbn [obind].
      apply IH; [lia|]. unfold em_setWork. cbn. f_equal. now apply map_upd_next. }
  apply G; [lia|]. cbn. destruct p; reflexivity.
Qed.
