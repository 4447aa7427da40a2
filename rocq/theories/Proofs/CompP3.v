From Coq Require Import ZArith.
From Verif Require Import Base.Res Base.Num Base.SMap Model.Axis Model.Event Model.Hist Model.ED Model.Rand Model.Gen Model.Comp Spec.AxisSpec Spec.HistSpec Spec.CutSpec Spec.FillSpec Spec.CompSpec
  Proofs.AxisP Proofs.HistP Proofs.HistP2 Proofs.HistP4 Proofs.CutP Proofs.CompP Proofs.CompP2 Proofs.GenP8.
From Coq Require Import Lia.
Local Open Scope Qc_scope.
Local Open Scope res_scope.

Definition alike_bed (o o' : bed) : Prop := bed_ok o' /\ same_axes (bdHist o') (bdHist o) /\ bdName o' = bdName o /\ bdObs o' = bdObs o.
Lemma alike_refl o : bed_ok o -> alike_bed o o.
Proof. intros H. repeat split. exact H. Qed.
Lemma alike_trans a b c : alike_bed a b -> alike_bed b c -> alike_bed a c.
Proof. intros [A1 [[A2 [A3 A4]] [A5 A6]]] [B1 [[B2 [B3 B4]] [B5 B6]]]. repeat split; try assumption; congruence. Qed.
Lemma add_one o i : bed_ok o -> (i < hNBins (bdHist o))%nat -> exists o', bed_ret (bed_addBin o i 1) = Ok o' /\ alike_bed o o' /\
  (forall j, cont (bdHist o') j = cont (bdHist o) j + (if Nat.eqb j i then 1 else 0)) /\ total (bdHist o') = total (bdHist o) + 1.
Proof.
  intros H L. destruct (bin_access_pkg (bdHist o) i 1 H) as [A _]. destruct (A L) as [_ [_ [h' [E [S C]]]]]. exists (bed_setHist o h').
  assert (C' : forall j, cont h' j = cont (bdHist o) j + (if Nat.eqb j i then 1 else 0)) by (intros j; rewrite C; destruct (Nat.eqb j i); ring).
  split; [unfold bed_ret, bed_addBin, bed_on; rewrite E; reflexivity|]. split; [|split; [exact C'|]].
  - repeat split; [|apply S..]. unfold bed_ok. cbn [bed_setHist bdHist]. change h' with (fst (h', Ok tt : res unit)). rewrite <- E. now apply hr_addBin.
  - cbn [bed_setHist bdHist]. apply (total_add (bdHist o) h' i 1); [apply S|exact L|exact C'].
Qed.
Definition good_draw (d : bed * Qc) (i : nat) : Prop := reaches (bdHist (fst d)) (snd d) i /\ 0 < cont (bdHist (fst d)) i.
Definition counted (o o' : bed) (bins : list nat) : Prop :=
  (forall j, cont (bdHist o') j = cont (bdHist o) j + qn (count_occ Nat.eq_dec bins j)) /\ total (bdHist o') = total (bdHist o) + qn (List.length bins).
Lemma counted_app o a b x y : counted o a x -> counted a b y -> counted o b (x ++ y).
Proof.
  intros [A1 A2] [B1 B2]. split.
  - intros j. rewrite B1, A1, count_occ_app, qn_add. ring.
  - rewrite B2, A2, app_length, qn_add. ring.
Qed.
Lemma counted_cons o a b i y : (forall j, cont (bdHist a) j = cont (bdHist o) j + (if Nat.eqb j i then 1 else 0)) -> total (bdHist a) = total (bdHist o) + 1 -> counted a b y -> counted o b (i :: y).
Proof.
  intros A1 A2 B. apply (counted_app o a b [i] y); [|exact B]. split.
  - intros j. rewrite A1. cbn [count_occ]. destruct (Nat.eq_dec i j) as [->|N]; [now rewrite Nat.eqb_refl|]. destruct (Nat.eqb_spec j i); [congruence|]. reflexivity.
  - rewrite A2. reflexivity.
Qed.
Lemma drawBins_ok b us n : drawable b -> forall k o, bed_ok o -> hNBins (bdHist b) = hNBins (bdHist o) -> (forall j, (k <= j < k + n)%nat -> 0 < us j /\ us j <= 1) ->
  exists o' bins, drawBins b n us k o = Ok o' /\ alike_bed o o' /\ Forall2 good_draw (map (fun j => (b, us j)) (seq k n)) bins /\ counted o o' bins.
Proof.
  intros D. induction n as [|n IH]; intros k o Ho EN U; cbn [drawBins seq map].
  - exists o, []. split; [reflexivity|]. split; [now apply alike_refl|]. split; [constructor|]. split; intros; cbn [count_occ List.length]; rewrite qn_0; ring.
  - destruct (U k) as [U0 U1]; [lia|]. destruct (reach_bin_pkg b (us k) D U0 U1) as [i [E [R [C _]]]]. rewrite E. cbn [bind].
    assert (Li : (i < hNBins (bdHist o))%nat) by (rewrite <- EN; apply R). destruct (add_one o i Ho Li) as [o1 [E1 [S1 [C1 T1]]]]. rewrite E1. cbn [bind].
    destruct (IH (S k) o1) as [o' [bins [E' [S' [F' C']]]]]; [apply S1|rewrite EN; symmetry; apply S1|intros; apply U; lia|].
    exists o', (i :: bins). split; [exact E'|]. split; [eapply alike_trans; eassumption|]. split; [constructor; [split; assumption|exact F']|]. eapply counted_cons; eassumption.
Qed.
Lemma drawAll_ok us bs : forall counts k o, bed_ok o -> List.length bs = List.length counts -> (forall b, In b bs -> drawable b /\ hNBins (bdHist b) = hNBins (bdHist o)) ->
  (forall c, In c counts -> (Z.of_nat c < 2 ^ 32)%Z) -> (forall j, 0 < us j /\ us j <= 1) ->
  exists o' bins, drawAll bs (map Z.of_nat counts) us k o = Ok o' /\ alike_bed o o' /\ Forall2 good_draw (draws bs counts us k) bins /\ counted o o' bins.
Proof.
  induction bs as [|b bs IH]; intros counts k o Ho L Hb Hc U; destruct counts as [|c counts]; try discriminate.
  - exists o, []. split; [reflexivity|]. split; [now apply alike_refl|]. split; [constructor|]. split; intros; cbn [count_occ List.length]; rewrite qn_0; ring.
  - cbn [map drawAll draws]. pose proof (Hc c (or_introl eq_refl)) as Lc. destruct (Z.ltb_spec (Z.of_nat c) 0); [lia|]. destruct (Z.leb_spec (2 ^ 32) (Z.of_nat c)); [lia|]. cbn [orb]. rewrite Nat2Z.id.
    destruct (Hb b (or_introl eq_refl)) as [D EN]. destruct (drawBins_ok b us c D k o Ho EN) as [o1 [bins1 [E1 [S1 [F1 C1]]]]]; [intros; apply U|]. rewrite E1. cbn [bind].
    destruct (IH counts (k + c)%nat o1) as [o' [bins [E' [S' [F' C']]]]]; [apply S1|now injection L| |intros; apply Hc; now right|exact U|].
    { intros x I. destruct (Hb x (or_intror I)) as [X Y]. split; [exact X|]. rewrite Y. symmetry. apply S1. }
    exists o', (bins1 ++ bins). split; [exact E'|]. split; [eapply alike_trans; eassumption|]. split; [now apply Forall2_app|]. eapply counted_app; eassumption.
Qed.
Lemma draws_len us bs : forall counts k, List.length bs = List.length counts -> List.length (draws bs counts us k) = list_sum counts.
Proof.
  induction bs as [|b bs IH]; intros counts k L; destruct counts as [|c counts]; try discriminate; [reflexivity|]. cbn [draws]. rewrite app_length, map_length, seq_length, IH by (now injection L). reflexivity.
Qed.
Lemma draws_in us bs : forall counts k b u, In (b, u) (draws bs counts us k) -> exists i, nth_error bs i = Some b /\ exists c, nth_error counts i = Some c /\ (0 < c)%nat.
Proof.
  induction bs as [|x bs IH]; intros counts k b u; destruct counts as [|c counts]; cbn [draws]; try (intros []). intros H. apply in_app_or in H. destruct H as [H|H].
  - apply in_map_iff in H. destruct H as [j [E I]]. injection E as <- <-. apply in_seq in I. exists 0%nat. split; [reflexivity|]. exists c. split; [reflexivity|lia].
  - destruct (IH _ _ _ _ H) as [i X]. now exists (S i).
Qed.
Lemma generate_pkg g pre name counts us b0 rest : bgPdfs g = b0 :: rest -> List.length (bgPdfs g) = List.length (bgRates g) -> List.length counts = List.length (bgPdfs g) ->
  (forall b, In b (bgPdfs g) -> drawable b /\ hNBins (bdHist b) = hNBins (bdHist b0)) -> (forall c, In c counts -> (Z.of_nat c < 2 ^ 32)%Z) -> (forall j, 0 < us j /\ us j <= 1) ->
  exists o bins, generate g pre name (map Z.of_nat counts) us = Ok o /\
    same_axes (bdHist o) (bdHist b0) /\ bdObs o = bdObs b0 /\ bdName o = genName pre name (bgPdfs g) /\
    Forall2 (fun d i => reaches (bdHist (fst d)) (snd d) i) (draws (bgPdfs g) counts us 0) bins /\
    (forall i, cont (bdHist o) i = qn (count_occ Nat.eq_dec bins i)) /\ integral (bdHist o) = Ok (qn (list_sum counts)) /\
    (forall i, cont (bdHist o) i <> 0 -> exists p b c, nth_error (bgPdfs g) p = Some b /\ nth_error counts p = Some c /\ (0 < c)%nat /\ 0 < cont (bdHist b) i).
Proof.
  intros E L LC HB HC U. unfold generate. rewrite L, Nat.eqb_refl. cbn [negb]. rewrite E. rewrite <- E.
  assert (H0 : drawable b0 /\ hNBins (bdHist b0) = hNBins (bdHist b0)) by (apply HB; rewrite E; now left). destruct H0 as [[H0 _] _].
  destruct (scale_pkg (bdHist b0) 0 H0) as [_ [[h [Eh [Sh [Ch _]]]] _]]. set (o0 := bed_setHist (bed_setName b0 (genName pre name (bgPdfs g))) h).
  assert (Eo : bed_ret (bed_empty (bed_setName b0 (genName pre name (bgPdfs g)))) = Ok o0) by (unfold bed_ret, bed_empty, bed_on; cbn [bed_setName bdHist]; rewrite Eh; reflexivity).
  rewrite Eo. cbn [bind]. assert (Ho : bed_ok o0) by (unfold bed_ok, o0; cbn [bed_setHist bdHist]; change h with (fst (h, Ok tt : res unit)); rewrite <- Eh; now apply hr_empty).
  destruct (drawAll_ok us (bgPdfs g) counts 0 o0 Ho (eq_sym LC)) as [o [bins [ED [[A1 [A2 [A3 A4]]] [F [C T]]]]]]; [|exact HC|exact U|].
  { intros b I. destruct (HB b I) as [X Y]. split; [exact X|]. rewrite Y. unfold o0. cbn [bed_setHist bdHist]. symmetry. apply Sh. }
  assert (LB : List.length bins = list_sum counts) by (rewrite <- (draws_len us (bgPdfs g) counts 0) by (now symmetry); symmetry; clear - F; induction F; cbn; congruence).
  assert (CC : forall i, cont (bdHist o) i = qn (count_occ Nat.eq_dec bins i)). { intros i. rewrite C. unfold o0. cbn [bed_setHist bdHist]. rewrite Ch. ring. }
  exists o, bins. split; [exact ED|]. split.
  { unfold o0 in A2. cbn [bed_setHist bdHist] in A2. destruct A2 as [X1 [X2 X3]], Sh as [Y1 [Y2 Y3]]. repeat split; congruence. }
  split; [exact A4|]. split; [exact A3|]. split; [clear - F; induction F as [|d i ds is R F IH]; constructor; [apply R|exact IH]|]. split; [exact CC|]. split.
  - rewrite (integral_total _ (h_reach_ok _ A1)), T, LB. f_equal. unfold o0, total. cbn [bed_setHist bdHist]. rewrite (qsum_map_0 (cont h)) by (intros; apply Ch). ring.
  - intros i NZ. rewrite CC in NZ. assert (I : In i bins). { apply (count_occ_In Nat.eq_dec). destruct (count_occ Nat.eq_dec bins i); [destruct (NZ eq_refl)|lia]. }
    assert (X : exists d, In d (draws (bgPdfs g) counts us 0) /\ good_draw d i).
    { clear - F I. induction F as [|d j ds js R F IH]; [destruct I|]. destruct I as [->|I]; [exists d; split; [now left|exact R]|]. destruct (IH I) as [d' [X Y]]. exists d'. split; [now right|exact Y]. }
    destruct X as [[b u] [Id [_ Gd]]]. apply draws_in in Id. destruct Id as [p [P1 [c [P2 P3]]]]. now exists p, b, c.
Qed.
(** rounding *)
Lemma round_pkg r n : 0 <= r -> (qn n - qhalf <= r) -> r < qn n + qhalf -> qround r = Z.of_nat n.
Proof. intros A B C. apply rounding_pkg; try assumption. lia. Qed.
Lemma round_list rs ns : Forall2 (fun r n => 0 <= r /\ qn n - qhalf <= r /\ r < qn n + qhalf) rs ns -> map qround rs = map Z.of_nat ns.
Proof. induction 1 as [|r n rs ns [A [B C]] F IH]; cbn [map]; [reflexivity|]. rewrite IH. f_equal. now apply round_pkg. Qed.
Lemma expected_pkg g name counts us b0 rest : bgPdfs g = b0 :: rest -> List.length (bgPdfs g) = List.length (bgRates g) -> 
  Forall2 (fun r n => 0 <= r /\ qn n - qhalf <= r /\ r < qn n + qhalf) (bgRates g) counts ->
  (forall b, In b (bgPdfs g) -> drawable b /\ hNBins (bdHist b) = hNBins (bdHist b0)) -> (forall c, In c counts -> (Z.of_nat c < 2 ^ 32)%Z) -> (forall j, 0 < us j /\ us j <= 1) ->
  exists o bins, expectedRates g name us = Ok o /\
    same_axes (bdHist o) (bdHist b0) /\ bdObs o = bdObs b0 /\ bdName o = genName "Gen_Exp" name (bgPdfs g) /\
    Forall2 (fun d i => reaches (bdHist (fst d)) (snd d) i) (draws (bgPdfs g) counts us 0) bins /\
    (forall i, cont (bdHist o) i = qn (count_occ Nat.eq_dec bins i)) /\ integral (bdHist o) = Ok (qn (list_sum counts)) /\
    (forall i, cont (bdHist o) i <> 0 -> exists p b c, nth_error (bgPdfs g) p = Some b /\ nth_error counts p = Some c /\ (0 < c)%nat /\ 0 < cont (bdHist b) i).
Proof.
  intros E L R HB HC U. unfold expectedRates. rewrite (round_list _ _ R). apply (generate_pkg g "Gen_Exp" name counts us b0 rest E L); try assumption. rewrite L. clear - R. induction R; cbn; congruence.
Qed.
Lemma gen_errors_pkg g pre name counts us : (List.length (bgPdfs g) <> List.length (bgRates g) -> generate g pre name counts us = Throw LogicError) /\
  (bgPdfs g = [] -> generate g pre name counts us = Throw LogicError).
Proof.
  unfold generate. split.
  - intros H. apply Nat.eqb_neq in H. now rewrite H.
  - intros ->. destruct (negb _); reflexivity.
Qed.
(** the binning of the other pdfs is not compared with the first's *)
Lemma unchecked_pkg a b us name i : drawable a -> drawable b -> 0 < us 0%nat -> us 0%nat <= 1 -> reaches (bdHist b) (us 0%nat) i ->
  (i = hNBins (bdHist a) -> expectedRates (mkBgen [a; b] [0; 1]) name us = UB) /\
  ((hNBins (bdHist a) < i)%nat -> expectedRates (mkBgen [a; b] [0; 1]) name us = Throw NotFoundError).
Proof.
  intros [Ha _] D U0 U1 R. destruct (reach_bin_pkg b (us 0%nat) D U0 U1) as [k [E [_ [_ Q]]]]. apply Q in R. subst i. 
  unfold expectedRates, generate. cbn [bgPdfs bgRates List.length Nat.eqb negb map]. change (qround 0) with 0%Z. change (qround 1) with 1%Z.
  destruct (scale_pkg (bdHist a) 0 Ha) as [_ [[h [Eh [Sh [Ch _]]]] _]].
  set (nm := genName _ _ _). assert (Eo : bed_ret (bed_empty (bed_setName a nm)) = Ok (bed_setHist (bed_setName a nm) h)) by (unfold bed_ret, bed_empty, bed_on; cbn [bed_setName bdHist]; rewrite Eh; reflexivity).
  rewrite Eo. cbn [bind drawAll]. change (Z.to_nat 0) with 0%nat. change (Z.to_nat 1) with 1%nat. cbn [Z.ltb Z.leb Z.compare orb drawBins bind Nat.add]. change (2 ^ 32 <=? 0)%Z with false. change (2 ^ 32 <=? 1)%Z with false. cbn [orb bind drawBins]. rewrite E. cbn [bind].
  unfold bed_ret, bed_addBin, bed_on. cbn [bed_setHist bdHist].
  assert (Hh : h_reach h) by (change h with (fst (h, Ok tt : res unit)); rewrite <- Eh; now apply hr_empty). assert (EN : hNBins h = hNBins (bdHist a)) by apply Sh.
  split; intros K.
  - destruct (bin_access_boundary h 1 Hh) as [_ [_ B]]. rewrite K, <- EN. destruct (addBinContent h (hNBins h) 1) as [h1 o1]. cbn [snd] in B. rewrite B. reflexivity.
  - destruct (bin_access_pkg h k 1 Hh) as [_ B]. destruct B as [_ [_ B]]; [lia|]. rewrite B. reflexivity.
Qed.
Lemma poisson_pkg g name pois counts us b0 rest : bgPdfs g = b0 :: rest -> List.length (bgPdfs g) = List.length (bgRates g) -> map pois (bgRates g) = map Z.of_nat counts ->
  (forall b, In b (bgPdfs g) -> drawable b /\ hNBins (bdHist b) = hNBins (bdHist b0)) -> (forall c, In c counts -> (Z.of_nat c < 2 ^ 32)%Z) -> (forall j, 0 < us j /\ us j <= 1) ->
  exists o bins, poissonED g name pois us = Ok o /\
    same_axes (bdHist o) (bdHist b0) /\ bdObs o = bdObs b0 /\ bdName o = genName "Gen_Poi" name (bgPdfs g) /\
    Forall2 (fun d i => reaches (bdHist (fst d)) (snd d) i) (draws (bgPdfs g) counts us 0) bins /\
    (forall i, cont (bdHist o) i = qn (count_occ Nat.eq_dec bins i)) /\ integral (bdHist o) = Ok (qn (list_sum counts)) /\
    (forall i, cont (bdHist o) i <> 0 -> exists p b c, nth_error (bgPdfs g) p = Some b /\ nth_error counts p = Some c /\ (0 < c)%nat /\ 0 < cont (bdHist b) i).
Proof.
  intros E L R HB HC U. unfold poissonED. rewrite R. apply (generate_pkg g "Gen_Poi" name counts us b0 rest E L); try assumption. rewrite L. apply (f_equal (@List.length Z)) in R. rewrite !map_length in R. now symmetry.
Qed.
Lemma gen_errors2_pkg g name pois us :
  (List.length (bgPdfs g) <> List.length (bgRates g) -> expectedRates g name us = Throw LogicError /\ poissonED g name pois us = Throw LogicError) /\
  (bgPdfs g = [] -> expectedRates g name us = Throw LogicError /\ poissonED g name pois us = Throw LogicError).
Proof. split; intros H; split; first [exact (proj1 (gen_errors_pkg _ _ _ _ _) H)|exact (proj2 (gen_errors_pkg _ _ _ _ _) H)]. Qed.
