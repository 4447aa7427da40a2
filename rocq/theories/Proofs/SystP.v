(** Shift / Scale / ScaleFunction responses. *)
From Verif Require Import Base.Res Base.Num Base.SMap Model.Axis Model.Event Model.Hist Model.Matrix Model.Syst
  Spec.AxisSpec Spec.HistSpec Spec.SystSpec Proofs.AxisP Proofs.HistP Proofs.HistP2 Proofs.CutP.
Local Open Scope Qc_scope.

(** * GetBinContribution *)
Lemma contribution_width tlo thi slo shi :
  qltb shi tlo || qltb thi slo = false -> slo = shi -> qltb slo tlo = false /\ qltb thi shi = false.
Proof.
  intros H ->. apply orb_false_iff in H as [H1 H2]. auto.
Qed.

Lemma qdiv_pos x y : 0 < y -> 0 < x -> 0 < x / y.
Proof.
  intros Hy Hx. assert (E : x / y * y = x). { field. intro C; subst; qlra. }
  set (w := x / y) in *. destruct (qltb_spec 0 w) as [|C]; [assumption|exfalso]. qnra.
Qed.
Lemma qdiv_nonneg x y : 0 < y -> 0 <= x -> 0 <= x / y.
Proof.
  intros Hy Hx. assert (E : x / y * y = x). { field. intro C; subst; qlra. }
  set (w := x / y) in *. destruct (qleb_spec 0 w) as [|C]; [assumption|exfalso]. qnra.
Qed.
Lemma qdiv_le1 x y : 0 < y -> x <= y -> x / y <= 1.
Proof.
  intros Hy Hx. assert (E : x / y * y = x). { field. intro C; subst; qlra. }
  set (w := x / y) in *. destruct (qleb_spec w 1) as [|C]; [assumption|exfalso]. qnra.
Qed.
Lemma qdiv_0 y : 0 / y = 0.
Proof. unfold Qcdiv. ring. Qed.
Lemma qdiv_same y : 0 < y -> y / y = 1.
Proof. intros H. field. intro C; subst; qlra. Qed.

Ltac minmax := unfold overlap, qmax, qmin;
  repeat match goal with |- context [qleb ?x ?y] =>
    lazymatch constr:((x, y)) with context [qleb] => fail | _ => destruct (qleb_spec x y) end end.

Lemma contribution_overlap tlo thi slo shi : slo < shi -> tlo <= thi ->
  binContribution tlo thi slo shi = overlap slo shi tlo thi / (shi - slo).
Proof.
  intros Hs Ht. assert (Hw : 0 < shi - slo) by qlra. unfold binContribution.
  destruct (qltb_spec shi tlo), (qltb_spec thi slo); cbn [orb];
    try (replace (overlap slo shi tlo thi) with 0 by (minmax; qlra); now rewrite qdiv_0).
  destruct (qltb_spec slo tlo), (qltb_spec thi shi).
  - f_equal. minmax; qlra.
  - f_equal. minmax; qlra.
  - f_equal. minmax; qlra.
  - rewrite <- (qdiv_same (shi - slo) Hw). f_equal. minmax; qlra.
Qed.

Lemma overlap_nonneg a b c d : 0 <= overlap a b c d.
Proof. minmax; qlra. Qed.
Lemma overlap_le a b c d : a <= b -> overlap a b c d <= b - a.
Proof. intros. minmax; qlra. Qed.

(** * what the loops write *)
Definition wr (g : nat -> nat) (prs : list (nat * Qc)) (i : nat) (d : Qc) : Qc :=
  fold_left (fun acc p => if Nat.eqb i (g (fst p)) then snd p else acc) prs d.

Lemma inner_fill g mc mr obs N prs : forall m, square m N -> (obs < N)%nat -> (obs < mr)%nat ->
  (forall p, In p prs -> (fst p < mc)%nat /\ (g (fst p) < N)%nat) ->
  exists m', iterS (fun mm (p : nat * Qc) =>
                          if Nat.leb mc (fst p) || Nat.leb mr obs
                          then (mm, Throw NotFoundError)
                          else m_set mm (g (fst p)) obs (snd p)) prs m = (m', Ok tt)
    /\ square m' N
    /\ forall i j, sF m' i j = if Nat.eqb j obs then wr g prs i (sF m i j) else sF m i j.
Proof.
  induction prs as [|p prs IH]; intros m Hm Ho Hr Hp.
  - exists m. split; [reflexivity|split; [exact Hm|]]. intros i j. cbn. now destruct (Nat.eqb j obs).
  - cbn [iterS]. destruct (Hp p (or_introl eq_refl)) as [H1 H2].
    destruct (Nat.leb_spec mc (fst p)); [lia|]. destruct (Nat.leb_spec mr obs); [lia|]. cbn [orb].
    pose proof Hm as [A [B [C D]]]. unfold m_set.
    destruct (Nat.leb_spec (sNC m) obs); [lia|]. destruct (Nat.leb_spec (sNR m) (g (fst p))); [lia|]. cbn [orb].
    destruct (Nat.ltb_spec (g (fst p)) (sR m)); [|lia]. destruct (Nat.ltb_spec obs (sC m)); [|lia]. cbn [andb].
    edestruct (IH (mkMat (sNR m) (sNC m) (sR m) (sC m) (fset (sF m) (g (fst p)) obs (snd p)))) as [m' [E [S1 F]]].
    + repeat split; assumption.
    + exact Ho.
    + exact Hr.
    + intros q Hq. apply Hp. now right.
    + exists m'. split; [exact E|split; [exact S1|]]. intros i j. rewrite F. cbn [sF wr fold_left]. unfold fset.
      destruct (Nat.eqb_spec j obs) as [->|Hj].
      * rewrite andb_true_r. reflexivity.
      * now rewrite andb_false_r.
Qed.

Lemma outer_fill (g : nat -> nat -> nat) (bm : list nat) (vals : list (list (nat * Qc))) mc mr N l :
  (forall o, In o l -> (o < N)%nat /\ (o < mr)%nat /\ (o < List.length bm)%nat /\
     (nth o bm 0%nat < List.length vals)%nat /\
     forall p, In p (nth (nth o bm 0%nat) vals []) -> (fst p < mc)%nat /\ (g o (fst p) < N)%nat) ->
  NoDup l -> forall m, square m N ->
  exists m', iterS (fun m obs =>
               obind m (vat bm obs) (fun sb =>
               obind m (vat vals sb) (fun prs =>
                 iterS (fun mm (p : nat * Qc) =>
                          if Nat.leb mc (fst p) || Nat.leb mr obs
                          then (mm, Throw NotFoundError)
                          else m_set mm (g obs (fst p)) obs (snd p)) prs m))) l m = (m', Ok tt)
   /\ square m' N
   /\ forall i j, sF m' i j = if in_dec Nat.eq_dec j l then wr (g j) (nth (nth j bm 0%nat) vals []) i (sF m i j)
                              else sF m i j.
Proof.
  intros H. induction l as [|o l IH]; intros Hnd m Hm.
  - exists m. split; [reflexivity|split; [exact Hm|]]. intros i j. destruct (in_dec _ j []) as [[]|]; reflexivity.
  - cbn [iterS]. destruct (H o (or_introl eq_refl)) as [H1 [H2 [H3 [H4 H5]]]].
    rewrite (vat_nth bm o 0%nat H3). cbn [obind]. rewrite (vat_nth vals _ [] H4). cbn [obind].
    destruct (inner_fill (g o) mc mr o N _ m Hm H1 H2 H5) as [m1 [E1 [S1 F1]]]. rewrite E1.
    inversion Hnd as [|? ? Hni Hnd']; subst.
    destruct (IH (fun x Hx => H x (or_intror Hx)) Hnd' m1 S1) as [m' [E [S2 F2]]].
    exists m'. split; [exact E|split; [exact S2|]]. intros i j. rewrite F2, F1.
    destruct (in_dec Nat.eq_dec j l) as [Hin|Hin].
    + destruct (in_dec Nat.eq_dec j (o :: l)) as [_|C]; [|exfalso; apply C; now right].
      destruct (Nat.eqb_spec j o) as [->|]; [contradiction|reflexivity].
    + destruct (Nat.eqb_spec j o) as [->|Hne].
      * destruct (in_dec Nat.eq_dec o (o :: l)) as [_|C]; [reflexivity|exfalso; apply C; now left].
      * destruct (in_dec Nat.eq_dec j (o :: l)) as [[C|C]|_]; [congruence|contradiction|reflexivity].
Qed.

Lemma wr_none g prs i : forall d, (forall p, In p prs -> g (fst p) <> i) -> wr g prs i d = d.
Proof.
  unfold wr. induction prs as [|p prs IH]; intros d H; [reflexivity|]. cbn [fold_left].
  destruct (Nat.eqb_spec i (g (fst p))) as [E|_]; [exfalso; apply (H p); [now left|congruence]|].
  apply IH. intros q Hq. apply H. now right.
Qed.
Lemma wr_some g prs i v : (forall p, In p prs -> g (fst p) = i -> snd p = v) ->
  forall d, (d = v \/ exists p, In p prs /\ g (fst p) = i) -> wr g prs i d = v.
Proof.
  unfold wr. induction prs as [|p prs IH]; intros H d Hd.
  - destruct Hd as [->|[p [[] _]]]. reflexivity.
  - cbn [fold_left]. apply IH; [intros q Hq; apply H; now right|].
    destruct (Nat.eqb_spec i (g (fst p))) as [E|E].
    + left. apply H; [now left|congruence].
    + destruct Hd as [->|[q [[->|Hq] Eq]]]; [now left|congruence|right; exists q; auto].
Qed.

(** one row of values, filtered as in the code *)
Lemma wr_filter g (c : nat -> Qc) l i (v : Qc) : 0 <= v ->
  (forall t, In t l -> g t = i -> c t = v) -> (v <> 0 -> exists t, In t l /\ g t = i) ->
  wr g (filter (fun p : nat * Qc => qltb 0 (snd p)) (map (fun t => (t, c t)) l)) i 0 = v.
Proof.
  intros Hv Hc Hex. destruct (qeqb v 0) eqn:Ev.
  - apply qeqb_eq in Ev. subst v. apply wr_none. intros p Hp E.
    apply filter_In in Hp as [Hp Hpos]. apply in_map_iff in Hp as [t [<- Ht]]. cbn in *.
    rewrite (Hc t Ht E) in Hpos. apply qltb_lt in Hpos. qlra.
  - apply qeqb_neq in Ev. destruct (Hex Ev) as [t0 [Ht0 Et0]]. apply wr_some.
    + intros p Hp E. apply filter_In in Hp as [Hp _]. apply in_map_iff in Hp as [t [<- Ht]]. cbn in *. auto.
    + right. exists (t0, c t0). split; [|exact Et0]. apply filter_In. split.
      * apply in_map_iff. now exists t0.
      * cbn. rewrite (Hc t0 Ht0 Et0). apply qltb_lt.
        destruct (qltb_spec 0 v) as [|C]; [assumption|]. exfalso. apply Ev. qlra.
Qed.
