(** C44, C45, C74: statements about MCMC::Optimise. *)
From Coq Require Import ZArith.
From Verif Require Import Base.Res Base.Num Base.SMap Model.Axis Model.Hist Model.HistTools Model.MCMC
  Spec.AxisSpec Spec.HistSpec Spec.MCMCSpec Proofs.MCMCP.
From Coq Require Import Lia.
Local Open Scope Qc_scope.
Local Open Scope res_scope.

Lemma chain_value_eq f m p : chain_value f m p = statValue f (mFlip m) p.
Proof. unfold chain_value, statValue. destruct (f p); reflexivity. Qed.
Lemma chain_ok_ext draw v1 v2 log : (forall p, v1 p = v2 p) -> forall i cur val, chain_ok draw v1 i cur val log -> chain_ok draw v2 i cur val log.
Proof.
  intros H. induction log as [|e t IH]; intros i cur val; cbn [chain_ok]; [auto|]. intros [A B]. split; [|now apply IH].
  destruct (eA e); [rewrite <- H; exact A|exact A].
Qed.

Definition start_step (u0 : string -> Qc) (m : mcmc) (n : string) : mcmc :=
  let (lo, mins) := sget0 n (mMinima m) in
  let (hi, maxs) := sget0 n (mMaxima m) in
  mkMcmc (mMaxIter m) (mLogged m) (mFlip m) (mMaxVal m) (mCurVal m) (mBest m)
         (sset n (lo + u0 n * (hi - lo)) (mCur m)) (mSamples m) maxs mins (mInit m).
Lemma start_frame u0 names : forall m, let m1 := fold_left (start_step u0) names m in
  mMaxIter m1 = mMaxIter m /\ mLogged m1 = mLogged m /\ mFlip m1 = mFlip m /\ mSamples m1 = mSamples m /\ mInit m1 = mInit m.
Proof.
  induction names as [|n names IH]; intros m; cbn [fold_left]; cbv zeta; [repeat split|].
  destruct (IH (start_step u0 m n)) as [A [B [C [D E]]]]. rewrite A, B, C, D, E. unfold start_step.
  destruct (sget0 n (mMinima m)), (sget0 n (mMaxima m)). repeat split.
Qed.
Lemma start_random u0 names : forall m, has_limits m names -> let m1 := fold_left (start_step u0) names m in
  mMinima m1 = mMinima m /\ mMaxima m1 = mMaxima m /\
  (forall n, (~ In n names -> sfind n (mCur m1) = sfind n (mCur m)) /\
     (In n names -> exists lo hi, sfind n (mMinima m) = Some lo /\ sfind n (mMaxima m) = Some hi /\
        sfind n (mCur m1) = Some (lo + u0 n * (hi - lo)))).
Proof.
  induction names as [|n names IH]; intros m H; cbn [fold_left]; cbv zeta.
  - split; [reflexivity|]. split; [reflexivity|]. intros n. split; [reflexivity|intros []].
  - destruct (H n (or_introl eq_refl)) as [lo [hi [E1 E2]]].
    assert (Es : start_step u0 m n = mkMcmc (mMaxIter m) (mLogged m) (mFlip m) (mMaxVal m) (mCurVal m) (mBest m)
         (sset n (lo + u0 n * (hi - lo)) (mCur m)) (mSamples m) (mMaxima m) (mMinima m) (mInit m)).
    { unfold start_step, sget0. rewrite E1, E2. reflexivity. }
    destruct (IH (start_step u0 m n)) as [A [B C]].
    { rewrite Es. intros k Hk. cbn [mMinima mMaxima]. apply H. now right. }
    rewrite Es in A, B, C |- *. cbn [mMinima mMaxima mCur] in A, B, C. split; [exact A|]. split; [exact B|].
    intros k. destruct (C k) as [C1 C2]. cbn [In]. split.
    + intros Hk. rewrite C1 by tauto. apply sfind_sset_neq. intros ->. tauto.
    + intros Hk. destruct (in_dec string_dec k names) as [Hi|Hi]; [exact (C2 Hi)|]. destruct Hk as [<-|Hk]; [|contradiction].
      exists lo, hi. rewrite C1 by exact Hi. rewrite sfind_sset_eq. auto.
Qed.
Lemma start_ok u0 names m : mInit m <> [] \/ has_limits m names -> let m1 := startPoint u0 names m in
  starts_at u0 names m (mCur m1) /\ mMaxIter m1 = mMaxIter m /\ mLogged m1 = mLogged m /\ mFlip m1 = mFlip m /\
  mSamples m1 = mSamples m /\ mMinima m1 = mMinima m /\ mMaxima m1 = mMaxima m.
Proof.
  intros H. cbv zeta. unfold startPoint, starts_at. destruct (mInit m) as [|x l] eqn:E.
  - destruct H as [H|H]; [congruence|]. fold (start_step u0).
    change (fold_left _ names m) with (fold_left (start_step u0) names m).
    destruct (start_random u0 names m H) as [A [B C]]. destruct (start_frame u0 names m) as [D [F [G [K _]]]].
    split; [right; split; [reflexivity|exact C]|]. repeat split; auto.
  - cbn [mCur mMaxIter mFlip mSamples mMinima mMaxima]. split; [left; split; [discriminate|reflexivity]|]. repeat split.
Qed.

Section Opt.
Variables (guess : nat -> nat -> nat) (f : smap Qc -> res Qc) (ex : Qc -> xval)
  (draw : nat -> smap Qc -> res (smap Qc)) (corr unif : nat -> Qc) (u0 : string -> Qc).

Lemma opt_pkg names m m' : mInit m <> [] \/ has_limits m names ->
  mOptimise guess f ex draw corr unif u0 names m = Ok m' ->
  exists start v0 log, starts_at u0 names m start /\ chain_value f m start = Ok v0 /\
    sLog (mSamples m') = sLog (mSamples m) ++ log /\ List.length log = mMaxIter m /\
    chain_ok draw (chain_value f m) 0 start v0 log /\ mCur m' = lastP start log /\
    fill_calls guess (mMinima m) (mMaxima m) (mMaxIter m) (mSamples m) log = Ok (mSamples m') /\
    (in_box (mMinima m) (mMaxima m) (skeys start) start ->
       Forall (fun e => in_box (mMinima m) (mMaxima m) (skeys start) (eP e)) log) /\
    visited start v0 log (mBest m') (mMaxVal m') /\
    v0 <= mMaxVal m' /\
    (forall l1 e l2, log = l1 ++ e :: l2 -> eA e = true -> forall x, In x l1 -> eV x <= mMaxVal m') /\
    (forall p v, visited start v0 log p v -> v <= mMaxVal m' \/ v = mCurVal m').
Proof.
  intros Hl E. unfold mOptimise in E.
  destruct ((negb (Nat.eqb (List.length (mInit m)) (List.length names)) && negb (Nat.eqb (List.length (mInit m)) 0)) || negb (Nat.eqb (List.length (mMaxima m)) (List.length names)) || negb (Nat.eqb (List.length (mMinima m)) (List.length names)))%bool; [discriminate|].
  destruct (start_ok u0 names m Hl) as [Hs [A1 [A2 [A3 [A4 [A5 A6]]]]]].
  set (m1 := startPoint u0 names m) in *. destruct (statValue f (mFlip m1) (mCur m1)) as [v| | | |] eqn:Ev; cbn [bind] in E; try discriminate.
  destruct (run_ok guess f ex draw corr unif _ _ _ _ E) as [log [L1 [L2 [L3 [L4 [L5 [Hch [Hlast [Hfc [Hbox [Hbest [Hmono [Hacc [[Hcmp Hall] Hcv]]]]]]]]]]]]]].
  cbn [mMinima mMaxima mMaxIter mSamples mCur mCurVal mLogged mFlip mMaxVal mBest mInit] in *.
  exists (mCur m1), v, log. rewrite A4, A1, A5, A6, A3 in *.
  assert (Hv : chain_value f m (mCur m1) = Ok v) by (rewrite chain_value_eq; exact Ev).
  split; [exact Hs|]. split; [exact Hv|]. split; [exact L1|]. split; [exact L2|]. split.
  { eapply chain_ok_ext; [|exact Hch]. intros p. symmetry. apply chain_value_eq. }
  split; [exact Hlast|]. split; [exact Hfc|]. split; [intros Hin; apply Hbox; [apply incl_refl|exact Hin]|].
  split; [destruct Hbest as [[B1 B2]|[_ B]]; [left; auto|exact B]|]. split; [exact Hmono|]. split.
  - intros l1 e l2 El He. exact (proj2 (Hacc l1 e l2 El He)).
  - intros p w [[-> ->]|[a Ha]]; [now left|]. exact (Hall _ Ha).
Qed.

Lemma opt_reject names m :
  (List.length (mMaxima m) <> List.length names \/ List.length (mMinima m) <> List.length names \/
   (mInit m <> [] /\ List.length (mInit m) <> List.length names)) ->
  mOptimise guess f ex draw corr unif u0 names m = Throw LogicError.
Proof.
  intros H. unfold mOptimise.
  destruct (Nat.eqb_spec (List.length (mInit m)) (List.length names)) as [E1|E1];
  destruct (Nat.eqb_spec (List.length (mMaxima m)) (List.length names)) as [E2|E2];
  destruct (Nat.eqb_spec (List.length (mMinima m)) (List.length names)) as [E3|E3];
  destruct (Nat.eqb_spec (List.length (mInit m)) 0) as [E4|E4]; cbn [negb orb andb]; try reflexivity;
  exfalso; destruct H as [H|[H|[H1 H2]]]; try contradiction.
  apply H1. destruct (mInit m); [reflexivity|discriminate].
Qed.
End Opt.

Lemma box_start_ok u0 names m start : box_start u0 names m -> starts_at u0 names m start ->
  in_box (mMinima m) (mMaxima m) (skeys start) start /\
  (mInit m = [] -> forall n, In n (skeys start) <-> In n names).
Proof.
  intros [[H1 H2]|[H1 [H2 H3]]] [[S1 S2]|[S1 S2]]; try congruence.
  - subst start. split; [exact H2|congruence].
  - assert (Hk : forall n, In n (skeys start) <-> In n names).
    { intros n. destruct (S2 n) as [A B]. split.
      - intros Hn. destruct (in_dec string_dec n names) as [Hi|Hi]; [exact Hi|]. specialize (A Hi). rewrite H2 in A. cbn [sfind] in A.
        apply sfind_not_in in A. contradiction.
      - intros Hn. destruct (B Hn) as [lo [hi [_ [_ E]]]]. apply sfind_in. eauto. }
    split; [|intros _; exact Hk]. intros n Hn. apply Hk in Hn. destruct (S2 n) as [_ B]. destruct (B Hn) as [lo [hi [E1 [E2 E3]]]].
    destruct (H3 n Hn) as [U1 [U2 [lo' [hi' [F1 [F2 F3]]]]]]. assert (lo' = lo) by congruence. assert (hi' = hi) by congruence. subst lo' hi'.
    exists (lo + u0 n * (hi - lo)), lo, hi. repeat split; auto; generalize (u0 n) U1 U2; intros u Hu0 Hu1; clear -F3 Hu0 Hu1; qnra.
Qed.

(** fixed parameters *)
Lemma metro_keys sigmas fixed g cur : forall p, metroDraw sigmas fixed g cur = Ok p -> skeys p = skeys cur.
Proof.
  induction cur as [|[k v] t IH]; intros p; cbn [metroDraw]; [intros E; injection E as <-; reflexivity|].
  match goal with |- bind ?x _ = _ -> _ => destruct x as [v'| | | |]; cbn [bind]; try discriminate end.
  destruct (metroDraw sigmas fixed g t) as [t'| | | |]; cbn [bind]; try discriminate. intros E. injection E as <-.
  unfold skeys in *. cbn [map fst]. f_equal. exact (IH t' eq_refl).
Qed.
Lemma metro_fixed sigmas fixed g cur n : In n fixed -> forall p, metroDraw sigmas fixed g cur = Ok p -> sfind n p = sfind n cur.
Proof.
  intros Hn. induction cur as [|[k v] t IH]; intros p; cbn [metroDraw]; [intros E; injection E as <-; reflexivity|].
  destruct (existsb (String.eqb k) fixed) eqn:Ex.
  - cbn [bind]. destruct (metroDraw sigmas fixed g t) as [t'| | | |]; cbn [bind]; try discriminate. intros E. injection E as <-.
    cbn [sfind]. destruct (String.eqb n k); [reflexivity|]. exact (IH t' eq_refl).
  - destruct (sat k sigmas) as [s| | | |]; cbn [bind]; try discriminate.
    destruct (metroDraw sigmas fixed g t) as [t'| | | |]; cbn [bind]; try discriminate. intros E. injection E as <-.
    cbn [sfind]. destruct (String.eqb_spec n k) as [->|_]; [|exact (IH t' eq_refl)].
    exfalso. assert (existsb (String.eqb k) fixed = true); [|congruence]. apply existsb_exists. exists k. split; [exact Hn|apply String.eqb_refl].
Qed.
Lemma metro_moves sigmas fixed g cur n v s : In (n, v) cur -> swf cur -> ~ In n fixed -> sfind n sigmas = Some s ->
  forall p, metroDraw sigmas fixed g cur = Ok p -> sfind n p = Some (v + g n s).
Proof.
  intros Hin Hw Hn Hs. revert Hin Hw. induction cur as [|[k w] t IH]; intros Hin Hw p; [destruct Hin|]. cbn [metroDraw].
  match goal with |- bind ?x _ = _ -> _ => destruct x as [v'| | | |] eqn:Ev; cbn [bind]; try discriminate end.
  destruct (metroDraw sigmas fixed g t) as [t'| | | |]; cbn [bind]; try discriminate. intros E. injection E as <-. cbn [sfind].
  assert (Hnd : NoDup (skeys ((k, w) :: t))) by exact (swf_nodup _ Hw).
  unfold skeys in Hnd. cbn [map fst] in Hnd. inversion Hnd as [|? ? N1 N2]; subst.
  destruct Hin as [E|Hin].
  - injection E as -> ->. rewrite String.eqb_refl. destruct (existsb (String.eqb n) fixed) eqn:Ex.
    + apply existsb_exists in Ex. destruct Ex as [x [H1 H2]]. apply String.eqb_eq in H2. subst. contradiction.
    + unfold sat in Ev. rewrite Hs in Ev. cbn [bind] in Ev. congruence.
  - destruct (String.eqb_spec n k) as [->|_]; [exfalso; apply N1; apply in_map_iff; exists (k, v); auto|].
    apply IH; auto. unfold swf, skeys in *. cbn [map fst] in Hw. inversion Hw; assumption.
Qed.
Lemma chain_fixed sigmas fixed g value n log : In n fixed -> forall i cur val,
  chain_ok (fun i => metroDraw sigmas fixed (g i)) value i cur val log ->
  Forall (fun e => sfind n (eP e) = sfind n cur /\ skeys (eP e) = skeys cur) log.
Proof.
  intros Hn. induction log as [|e t IH]; intros i cur val; cbn [chain_ok]; [constructor|]. intros [H Ht].
  assert (He : sfind n (eP e) = sfind n cur /\ skeys (eP e) = skeys cur).
  { destruct (eA e).
    - destruct H as [H _]. split; [exact (metro_fixed _ _ _ _ _ Hn _ H)|exact (metro_keys _ _ _ _ _ H)].
    - destruct H as [-> _]. auto. }
  constructor; [exact He|]. destruct He as [E1 E2]. rewrite <- E1, <- E2. exact (IH _ _ _ Ht).
Qed.

(** acceptance rule *)
Lemma accepts_min r u : u < 1 -> accepts (Fin r) u = true <-> u <= qmin 1 r.
Proof.
  intros Hu. cbn [accepts]. unfold qmin. destruct (qleb 1 r) eqn:E.
  - apply qleb_le in E. split; [intros _; now apply Qclt_le_weak|]. intros _. destruct (qltb 1 r) eqn:E1; [reflexivity|].
    cbn [orb]. apply qleb_le. eapply Qcle_trans; [apply Qclt_le_weak; exact Hu|exact E].
  - apply qleb_gt in E. assert (E1 : qltb 1 r = false) by (apply qltb_ge; now apply Qclt_le_weak). rewrite E1. cbn [orb]. apply qleb_le.
Qed.
Lemma rule_pkg f ex corr u m prop : u < 1 ->
  (in_box (mMinima m) (mMaxima m) (skeys (mCur m)) prop -> forall pv, chain_value f m prop = Ok pv ->
   exists m' acc, stepAccepted f ex corr u m prop = Ok (m', acc) /\
     (mCur m', mCurVal m') = (if acc then (prop, pv) else (mCur m, mCurVal m)) /\
     (mLogged m = true -> forall r, ex (pv - mCurVal m + corr) = Fin r -> (acc = true <-> u <= qmin 1 r)) /\
     (mLogged m = true -> ex (pv - mCurVal m + corr) = PInf -> acc = true) /\
     (mLogged m = false -> mCurVal m <> 0 -> (acc = true <-> u <= qmin 1 (pv / mCurVal m))) /\
     (mLogged m = false -> mCurVal m = 0 -> (acc = true <-> pv <> 0))) /\
  (forall m' acc, stepAccepted f ex corr u m prop = Ok (m', acc) -> acc = true ->
     in_box (mMinima m) (mMaxima m) (skeys (mCur m)) prop).
Proof.
  intros Hu. split.
  - intros Hb pv Hv. unfold stepAccepted. rewrite (insideBox_complete _ _ _ _ Hb). cbn [bind negb].
    rewrite chain_value_eq in Hv. rewrite Hv. cbn [bind]. do 2 eexists. split; [reflexivity|]. cbn [mCur mCurVal].
    split; [destruct (accepts _ _); reflexivity|]. unfold accParam. split; [|split; [|split]].
    + intros -> r ->. now apply accepts_min.
    + intros -> ->. reflexivity.
    + intros -> Hz. destruct (qeqb (mCurVal m) 0) eqn:E; [apply qeqb_eq in E; contradiction|]. now apply accepts_min.
    + intros -> Hz. rewrite (proj2 (qeqb_eq (mCurVal m) 0) Hz). destruct (qeqb pv 0) eqn:E.
      * apply qeqb_eq in E. cbn [accepts]. split; [discriminate|contradiction].
      * assert (pv <> 0) by (intros C; apply qeqb_eq in C; congruence). destruct (qltb 0 pv); cbn [accepts]; tauto.
  - intros m' acc E Ha. unfold stepAccepted in E. destruct (insideBox _ _ _ _) as [ins| | | |] eqn:Ei; cbn [bind] in E; try discriminate.
    destruct ins; [exact (insideBox_true _ _ _ _ Ei)|]. cbn [negb] in E. injection E as _ <-. discriminate.
Qed.
Lemma balance_pkg ex c x y : 0 < x -> 0 < y -> exists axy ayx,
  (forall u, u < 1 -> (accepts (accParam ex false y x c) u = true <-> u <= axy)) /\
  (forall u, u < 1 -> (accepts (accParam ex false x y c) u = true <-> u <= ayx)) /\
  0 < axy /\ axy <= 1 /\ 0 < ayx /\ ayx <= 1 /\ x * axy = y * ayx.
Proof.
  intros Hx Hy. exists (qmin 1 (y / x)), (qmin 1 (x / y)).
  assert (Nx : x <> 0) by (intros ->; exact (Qclt_not_eq _ _ Hx eq_refl)).
  assert (Ny : y <> 0) by (intros ->; exact (Qclt_not_eq _ _ Hy eq_refl)).
  assert (Ex : forall a b u, b <> 0 -> u < 1 -> accepts (accParam ex false a b c) u = true <-> u <= qmin 1 (a / b)).
  { intros a b u Hb Hu. unfold accParam. destruct (qeqb b 0) eqn:E; [apply qeqb_eq in E; contradiction|]. now apply accepts_min. }
  split; [intros u; now apply Ex|]. split; [intros u; now apply Ex|].
  assert (Dxy : (y / x) * x = y) by (field; exact Nx). assert (Dyx : (x / y) * y = x) by (field; exact Ny).
  set (a := y / x) in *. set (b := x / y) in *. clearbody a b. clear Ex Nx Ny.
  unfold qmin. destruct (qleb 1 a) eqn:E1, (qleb 1 b) eqn:E2; (apply qleb_le in E1 || apply qleb_gt in E1); (apply qleb_le in E2 || apply qleb_gt in E2);
  repeat split; try qlra; try qnra.
Qed.
