(** C109: the report of a counting experiment. *)
From Coq Require Import ZArith Reals Permutation Sorted Lia.
From Verif Require Import Base.Res Base.Num Base.RNum Base.SMap Model.Axis Model.Event Model.Hist Model.Cut Model.ED Model.Fill Model.Count Model.Report
  Spec.CutSpec Spec.FillSpec Spec.CountSpec Spec.ReportSpec Proofs.CutP Proofs.FillP Proofs.FillP2 Proofs.CountP Proofs.ReportP Proofs.ReportP2
  Props.AxisProps Props.CutProps Props.FillProps.
Local Open Scope Qc_scope.

(** C109.  The log of a list of cuts, whatever is logged, prints one line per cut in order *)
Theorem C109_log_prints : forall names ops, exists t, log_table (logrun names ops) = Ok t /\ map rwCut t = names.
Proof. exact prints_pkg. Qed.
Print Assumptions C109_log_prints.

(** the counts are those of C55 *)
Theorem C109_same_counts : forall s data,
  (reExp (fst (re_countData s data)) = fst (ce_countData (reExp s) data) /\ snd (re_countData s data) = snd (ce_countData (reExp s) data)) /\
  (reExp (fst (re_countBgs s)) = fst (ce_countBgs (reExp s)) /\ snd (re_countBgs s) = snd (ce_countBgs (reExp s))) /\
  (reExp (fst (re_countSignal s)) = fst (ce_countSignal (reExp s)) /\ snd (re_countSignal s) = snd (ce_countSignal (reExp s))).
Proof. intros s data. split; [exact (project_data s data)|]. split; [exact (project_bgs s)|exact (project_signal s)]. Qed.
Print Assumptions C109_same_counts.

(** The report after any configuration and one call of each counting function: every section shows its own data set, cut by cut;
    the summary has every background's own rate, by decreasing rate.
    Missing: the error of a background is its own only if no other has its name, it is the one of the last background of that name;
    data sets without events. *)
Theorem C109_report_partial : forall srt ops bevs sdata sname sevs data evs,
  std_sort srt -> Forall cut_built (r_cuts ops) ->
  Forall2 (fun bg ev => fst (fst bg) <> [] /\ become (r_cuts ops) (r_sys ops) (fst (fst bg)) ev) (r_bgs ops) bevs ->
  r_signal ops = Some (sdata, sname) -> become (r_cuts ops) (r_sys ops) sdata sevs -> become (r_cuts ops) (r_sys ops) data evs ->
  exists cls s1 s2 s3 rp,
    (forall l, In l (evs :: sevs :: bevs) -> sorts_out (r_cuts ops) l cls) /\
    re_countBgs (rerun ops) = (s1, Ok tt) /\ re_countSignal s1 = (s2, Ok tt) /\ re_countData s2 data = (s3, Ok tt) /\
    re_asString srt s3 = Ok rp /\
    map fst (rpBgs rp) = map snd (r_bgs ops) /\ Forall2 (fun ev t => accounts (r_cuts ops) ev cls (snd t)) bevs (rpBgs rp) /\
    fst (rpSignal rp) = sname /\ accounts (r_cuts ops) sevs cls (snd (rpSignal rp)) /\ accounts (r_cuts ops) evs cls (rpTest rp) /\
    (let lines := map (own_line cls) (combine (r_bgs ops) bevs) in
     Permutation (map fst (rpSummary rp)) (map fst lines) /\
     (NoDup (map snd (r_bgs ops)) -> Permutation (rpSummary rp) lines) /\
     (forall row, In row (rpSummary rp) -> exists pre t post, lines = pre ++ t :: post /\ fst (fst t) = fst (fst row) /\
        (forall u, In u post -> fst (fst u) <> fst (fst row)) /\ snd row = snd t) /\
     Sorted (fun a b => snd (fst b) <= snd (fst a)) (rpSummary rp) /\
     rpTotal rp = qsum (map (fun t => snd (fst t)) lines) /\
     rpTotalErr rp = sqrt (rsum (map (fun t => snd t ^ 2)%R lines))) /\
    (sdata <> [] -> rpEff rp = Ok (qz (zcount (fun e => survives (cls e)) sevs) / qn (List.length sdata))) /\
    rpObs rp = zcount (fun e => survives (cls e)) evs.
Proof. exact report_pkg. Qed.
Print Assumptions C109_report_partial.

(** two backgrounds of one name: the first is shown with the error of the second *)
Definition ex_rops := [RBg [ex_ev 1 6] (qz 8) "b"; RBg [ex_ev 1 6] (qz 4) "b"; RSignal [] "s"]%string.
Theorem C109_own_error_refuted : exists ops cls bevs,
  Forall2 (fun bg ev => fst (fst bg) <> [] /\ become (r_cuts ops) (r_sys ops) (fst (fst bg)) ev) (r_bgs ops) bevs /\
  (forall l, In l bevs -> sorts_out (r_cuts ops) l cls) /\
  In ("b"%string, qz 8, 8%R) (map (own_line cls) (combine (r_bgs ops) bevs)) /\
  forall srt, std_sort srt -> exists s1 s2 s3 rp,
    re_countBgs (rerun ops) = (s1, Ok tt) /\ re_countSignal s1 = (s2, Ok tt) /\ re_countData s2 [] = (s3, Ok tt) /\
    re_asString srt s3 = Ok rp /\ In ("b"%string, qz 8, 4%R) (rpSummary rp) /\ ~ In ("b"%string, qz 8, 8%R) (rpSummary rp).
Proof.
  exists ex_rops, (fun _ => None), [[ex_ev 1 6]; [ex_ev 1 6]].
  assert (B : become [] [] [ex_ev 1 6] [ex_ev 1 6]) by (split; [repeat constructor|intros e _ c []]).
  assert (H : Forall2 (fun bg ev => fst (fst bg) <> [] /\ become (r_cuts ex_rops) (r_sys ex_rops) (fst (fst bg)) ev) (r_bgs ex_rops) [[ex_ev 1 6]; [ex_ev 1 6]]).
  { cbn. constructor; [split; [discriminate|exact B]|]. constructor; [split; [discriminate|exact B]|constructor]. }
  assert (S0 : forall l, sorts_out (r_cuts ex_rops) l (fun _ => None)) by (intros l e _ c []).
  assert (L : map (own_line (fun _ => None)) (combine (r_bgs ex_rops) [[ex_ev 1 6]; [ex_ev 1 6]]) = [("b"%string, qz 8, 8%R); ("b"%string, qz 4, 4%R)]).
  { assert (L1 : forall z : Z, own_line (fun _ => None) ([ex_ev 1 6], qz z, "b"%string, [ex_ev 1 6]) = ("b"%string, qz z, IZR z)).
    { intros z. unfold own_line. cbn [zcount survives List.length INR]. rewrite qr_z. change (1 + 0)%Z with 1%Z. rewrite sqrt_1.
      replace (1 * IZR z / 1)%R with (IZR z) by field. replace (qz 1 * qz z / qn 1) with (qz z); [reflexivity|].
      replace (qz 1) with 1 by (apply Qc_is_canon; reflexivity). replace (qn 1) with 1 by (apply Qc_is_canon; reflexivity). field. discriminate. }
    cbn [ex_rops r_bgs flat_map app combine map]. rewrite !L1. reflexivity. }
  split; [exact H|]. split; [intros l _; apply S0|]. split; [rewrite L; now left|].
  intros srt Hs. destruct (report_pkg srt ex_rops _ [] "s"%string [] [] [] Hs ltac:(constructor) H eq_refl) as [cls [s1 [s2 [s3 [rp [K [E1 [E2 [E3 [E4 [_ [_ [_ [_ [_ [[P [_ [Q _]]] _]]]]]]]]]]]]]]]].
  { split; [constructor|intros e []]. } { split; [constructor|intros e []]. }
  assert (Hc : cls (ex_ev 1 6) = None).
  { specialize (K [ex_ev 1 6] ltac:(right; right; now left) (ex_ev 1 6) (or_introl eq_refl)). destruct (cls (ex_ev 1 6)) as [i|]; [|reflexivity]. exfalso.
    destruct K as [c [Hi _]]. destruct i; discriminate. }
  assert (L' : map (own_line cls) (combine (r_bgs ex_rops) [[ex_ev 1 6]; [ex_ev 1 6]]) = [("b"%string, qz 8, 8%R); ("b"%string, qz 4, 4%R)]).
  { rewrite <- L. cbn [ex_rops r_bgs flat_map app combine map own_line zcount]. rewrite Hc. reflexivity. }
  rewrite L' in P, Q. exists s1, s2, s3, rp. do 4 (split; [assumption|]).
  assert (V : forall row, In row (rpSummary rp) -> fst (fst row) = "b"%string -> snd row = 4%R).
  { intros row Hr Hb. destruct (Q row Hr) as [pre [t [post [El [En [Hp ->]]]]]]. rewrite Hb in *. destruct pre as [|x [|y [|z pre]]]; injection El; intros; subst.
    - exfalso. apply (Hp ("b"%string, qz 4, 4%R)); [now left|reflexivity].
    - reflexivity.
    - discriminate.
    - discriminate. }
  assert (W : In ("b"%string, qz 8) (map fst (rpSummary rp))) by (apply (Permutation_in _ (Permutation_sym P)); now left).
  apply in_map_iff in W as [[nx e] [E Hr]]. cbn [fst] in E. subst nx. split.
  - rewrite (V _ Hr eq_refl : e = 4%R) in Hr. exact Hr.
  - intros C. specialize (V _ C eq_refl). cbn [snd] in V. apply (IZR_neq 8 4); [discriminate|exact V].
Qed.
Print Assumptions C109_own_error_refuted.

(** saving: a path that can be written holds the table afterwards *)
Theorem C109_saved_partial : forall writable fs title path names ops, writable path = true ->
  exists t fs', log_table (logrun names ops) = Ok t /\ log_saveAs writable fs title path (logrun names ops) = (fs', Ok tt) /\
    fs' path = Some (title, t) /\ forall p, p <> path -> fs' p = fs p.
Proof.
  intros writable fs title path names ops W. destruct (saved_pkg writable fs title path names ops) as [t [E ->]]. exists t. eexists.
  split; [exact E|]. split; [reflexivity|]. unfold write. rewrite W. split; [now rewrite String.eqb_refl|]. intros p Hp.
  destruct (String.eqb_spec p path); [contradiction|reflexivity].
Qed.
Print Assumptions C109_saved_partial.
(** one that cannot is not reported, neither by the log nor by the result *)
Theorem C109_saved_refuted : forall writable path, writable path = false ->
  (forall fs title names ops, log_saveAs writable fs title path (logrun names ops) = (fs, Ok tt)) /\
  (forall fs srt s rp, re_asString srt s = Ok rp -> re_saveAs srt writable fs path s = (fs, Ok tt)).
Proof.
  intros writable path W. split.
  - intros fs title names ops. destruct (saved_pkg writable fs title path names ops) as [t [_ ->]]. unfold write. rewrite W. reflexivity.
  - intros fs srt s rp E. unfold re_saveAs. rewrite E. unfold write. rewrite W. reflexivity.
Qed.
Print Assumptions C109_saved_refuted.
(** the percentages a log returns are those of the last CalculateMeta, not of the events logged *)
Theorem C109_percentages_refuted : exists l m, calculateMeta (logrun ["a"%string] [LCut 0]) = Ok l /\ calculateMeta (logPass l) = Ok m /\
  lCutPct (logPass l) = [qz 100] /\ lCutPct m = [qz 50].
Proof.
  eexists. eexists. split; [vm_compute; reflexivity|]. split; [vm_compute; reflexivity|]. split; cbn [lCutPct logPass]; (apply f_equal2; [apply Qc_is_canon; reflexivity|reflexivity]).
Qed.
Print Assumptions C109_percentages_refuted.

(** a sort, and an experiment with a cut, a systematic, two backgrounds, a signal and data *)
Fixpoint ex_ins (x : string * Qc) (l : list (string * Qc)) : list (string * Qc) :=
  match l with [] => [x] | y :: t => if qltb (snd x) (snd y) then y :: ex_ins x t else x :: y :: t end.
Definition ex_sort (l : list (string * Qc)) : list (string * Qc) := fold_right ex_ins [] l.
Lemma ex_sort_ok : std_sort ex_sort.
Proof.
  assert (I : forall x l, Permutation (x :: l) (ex_ins x l) /\ (Sorted (fun a b => snd b <= snd a) l ->
    Sorted (fun a b => snd b <= snd a) (ex_ins x l))).
  { intros x. induction l as [|y l [P S]]; cbn [ex_ins].
    - split; [reflexivity|]. repeat constructor.
    - destruct (qltb (snd x) (snd y)) eqn:E.
      + apply qltb_lt in E. split; [rewrite perm_swap; constructor; exact P|]. intros H. inversion H as [|? ? Hl Hd]; subst. constructor; [exact (S Hl)|].
        destruct l as [|z l]; cbn [ex_ins]; [constructor; apply Qclt_le_weak, E|]. inversion Hd; subst. destruct (qltb (snd x) (snd z)); constructor; [assumption|apply Qclt_le_weak, E].
      + apply qltb_ge in E. split; [reflexivity|]. intros H. constructor; [exact H|]. constructor. exact E. }
  intros l. unfold ex_sort. induction l as [|x l [P S]]; cbn [fold_right]; [split; constructor|]. destruct (I x (fold_right ex_ins [] l)) as [P' S'].
  split; [rewrite P at 1; exact P'|exact (S' S)].
Qed.
Definition ex_rops2 := [RCut (LineCut "l" "radius" (qz 5) "upper"); RSys ex_shift; RBg [ex_ev 1 6; ex_ev 0 1] (qz 4) "b"; RBg ex_data (qz 8) "c"; RSignal ex_data "s"]%string.
Definition ex_tab (l : list logrow) := map (fun r => (rwCut r, rwCount r, rwRem r)) l.
Example C109_nonvacuous :
  std_sort ex_sort /\ Forall cut_built (r_cuts ex_rops2) /\
  Forall2 (fun bg ev => fst (fst bg) <> [] /\ become (r_cuts ex_rops2) (r_sys ex_rops2) (fst (fst bg)) ev) (r_bgs ex_rops2) [[ex_ev 4 6; ex_ev 3 1]; ex_shifted] /\
  r_signal ex_rops2 = Some (ex_data, "s"%string) /\ become (r_cuts ex_rops2) (r_sys ex_rops2) ex_data ex_shifted /\ NoDup (map snd (r_bgs ex_rops2)) /\
  exists s1 s2 s3 rp, re_countBgs (rerun ex_rops2) = (s1, Ok tt) /\ re_countSignal s1 = (s2, Ok tt) /\ re_countData s2 ex_data = (s3, Ok tt) /\
    re_asString ex_sort s3 = Ok rp /\ map (fun t => (fst t, ex_tab (snd t))) (rpBgs rp) = [("b", [("l", 1, 1)]); ("c", [("l", 1, 3)])]%string%Z /\
    rpSignal rp = ("s"%string, rpTest rp) /\ ex_tab (rpTest rp) = [("l"%string, 1, 3)]%Z /\ map fst (map fst (rpSummary rp)) = ["c"; "b"]%string /\ rpObs rp = 3%Z.
Proof.
  split; [exact ex_sort_ok|]. split; [repeat constructor|].
  assert (Hc : forall x y, cuttable ex_fcuts (ex_ev x y)).
  { intros x y c [<-|[]]. cbn [cut_obs]. destruct (ex_ev_has x y). eauto. }
  assert (B : become (r_cuts ex_rops2) (r_sys ex_rops2) ex_data ex_shifted).
  { split; [exact ex_inorder|]. intros e He. repeat destruct He as [<-|He]; try contradiction; apply Hc. }
  assert (B2 : become (r_cuts ex_rops2) (r_sys ex_rops2) [ex_ev 1 6; ex_ev 0 1] [ex_ev 4 6; ex_ev 3 1]).
  { split; [|intros e He; repeat destruct He as [<-|He]; try contradiction; apply Hc].
    repeat (apply Forall2_cons; [apply order_pkg; vm_compute; repeat f_equal; apply Qc_is_canon; reflexivity|]). constructor. }
  split; [constructor; [split; [discriminate|exact B2]|constructor; [split; [discriminate|exact B]|constructor]]|].
  split; [reflexivity|]. split; [exact B|]. split; [repeat constructor; cbn; intuition discriminate|].
  do 4 eexists. split; [lazy -[sqrt IZR qr INR Rmult Rdiv]; reflexivity|]. split; [lazy -[sqrt IZR qr INR Rmult Rdiv]; reflexivity|]. split; [lazy -[sqrt IZR qr INR Rmult Rdiv]; reflexivity|].
  split; [lazy -[sqrt IZR qr INR Rmult Rdiv Rplus]; reflexivity|]. split; [reflexivity|]. split; [reflexivity|]. split; [reflexivity|]. split; reflexivity.
Qed.
