(** C44, C45, C74: the Markov chain. *)
From Coq Require Import ZArith.
From Verif Require Import Base.Res Base.Num Base.SMap Model.Axis Model.Hist Model.HistTools Model.MCMC
  Spec.AxisSpec Spec.HistSpec Spec.MCMCSpec.
From Coq Require Import Lia.
Local Open Scope Qc_scope.
Local Open Scope res_scope.

Section Chain.
Variables (guess : nat -> nat -> nat) (f : smap Qc -> res Qc) (ex : Qc -> xval)
  (draw : nat -> smap Qc -> res (smap Qc)) (corr unif : nat -> Qc).

Notation value flip := (statValue f flip).

Lemma insideBox_true minima maxima cur prop : insideBox minima maxima cur prop = Ok true ->
  in_box minima maxima (skeys cur) prop.
Proof.
  induction cur as [|[k v] t IH]; cbn [insideBox skeys map fst]; intros H k0 Hk; [destruct Hk|].
  unfold sat in H. destruct (sfind k prop) as [p|] eqn:E1; cbn [bind] in H; [|discriminate].
  destruct (sfind k minima) as [lo|] eqn:E2; cbn [bind] in H; [|discriminate].
  destruct (qltb p lo) eqn:E3; [discriminate|]. destruct (sfind k maxima) as [hi|] eqn:E4; cbn [bind] in H; [|discriminate].
  destruct (qltb hi p) eqn:E5; [discriminate|]. destruct Hk as [<-|Hk]; [|exact (IH H k0 Hk)].
  exists p, lo, hi. apply qltb_ge in E3, E5. auto.
Qed.
Lemma insideBox_complete minima maxima cur prop : in_box minima maxima (skeys cur) prop ->
  insideBox minima maxima cur prop = Ok true.
Proof.
  induction cur as [|[k v] t IH]; cbn [insideBox skeys map fst]; intros H; [reflexivity|].
  destruct (H k (or_introl eq_refl)) as [p [lo [hi [E1 [E2 [E3 [H1 H2]]]]]]]. unfold sat. rewrite E1, E2. cbn [bind].
  rewrite (proj2 (qltb_ge p lo) H1), E3. cbn [bind]. rewrite (proj2 (qltb_ge hi p) H2).
  apply IH. intros k0 Hk. apply H. now right.
Qed.

(** one iteration *)
Lemma mIter_ok m i m' : mIter guess f ex draw corr unif m i = Ok m' ->
  exists prop acc,
    draw i (mCur m) = Ok prop /\
    mMaxIter m' = mMaxIter m /\ mLogged m' = mLogged m /\ mFlip m' = mFlip m /\
    mMaxima m' = mMaxima m /\ mMinima m' = mMinima m /\ mInit m' = mInit m /\
    sFill guess (mMinima m) (mMaxima m) (mMaxIter m) (mSamples m) (mCur m') (mCurVal m') acc = Ok (mSamples m') /\
    ((insideBox (mMinima m) (mMaxima m) (mCur m) prop = Ok false /\ acc = false /\
      mCur m' = mCur m /\ mCurVal m' = mCurVal m /\ mBest m' = mBest m /\ mMaxVal m' = mMaxVal m) \/
     (exists pv, insideBox (mMinima m) (mMaxima m) (mCur m) prop = Ok true /\ value (mFlip m) prop = Ok pv /\
       acc = accepts (accParam ex (mLogged m) pv (mCurVal m) (corr i)) (unif i) /\
       mCur m' = (if acc then prop else mCur m) /\ mCurVal m' = (if acc then pv else mCurVal m) /\
       mMaxVal m' = (if qltb (mMaxVal m) (mCurVal m) then mCurVal m else mMaxVal m) /\
       mBest m' = (if qltb (mMaxVal m) (mCurVal m) then mCur m else mBest m))).
Proof.
  unfold mIter. destruct (draw i (mCur m)) as [prop| | | |]; cbn [bind]; try discriminate.
  unfold stepAccepted. destruct (insideBox (mMinima m) (mMaxima m) (mCur m) prop) as [ins| | | |] eqn:Ei; cbn [bind]; try discriminate.
  destruct ins; cbn [negb].
  - destruct (value (mFlip m) prop) as [pv| | | |] eqn:Ev; cbn [bind]; try discriminate. cbn [fst snd].
    set (acc := accepts (accParam ex (mLogged m) pv (mCurVal m) (corr i)) (unif i)).
    cbn [mMinima mMaxima mMaxIter mSamples mCur mCurVal mLogged mFlip mMaxVal mBest mInit].
    destruct (sFill _ _ _ _ _ _ _ _) as [s| | | |] eqn:Es; cbn [bind]; try discriminate. intros E.
    assert (Em : forall (P : mcmc -> Prop), P (mkMcmc (mMaxIter m) (mLogged m) (mFlip m) (if qltb (mMaxVal m) (mCurVal m) then mCurVal m else mMaxVal m)
       (if acc then pv else mCurVal m) (if qltb (mMaxVal m) (mCurVal m) then mCur m else mBest m) (if acc then prop else mCur m) s (mMaxima m) (mMinima m) (mInit m)) -> P m').
    { intros P HP. injection E as <-. exact HP. }
    apply Em. clear Em E. exists prop, acc. cbn [mMinima mMaxima mMaxIter mSamples mCur mCurVal mLogged mFlip mMaxVal mBest mInit].
    repeat (split; [reflexivity|]). split; [exact Es|]. right. exists pv. repeat split; auto.
  - cbn [bind fst snd]. destruct (sFill _ _ _ _ _ _ _ _) as [s| | | |] eqn:Es; cbn [bind]; try discriminate. intros E.
    injection E as <-. exists prop, false. cbn [mMinima mMaxima mMaxIter mSamples mCur mCurVal mLogged mFlip mMaxVal mBest mInit].
    repeat (split; [reflexivity|]). split; [exact Es|]. left. repeat split; auto.
Qed.

Lemma init_log g mi ma n s s' : initHists g mi ma n s = Ok s' ->
  sLog s' = sLog s /\ sAcc s' = sAcc s /\ sTot s' = sTot s /\ sBurn s' = sBurn s /\ sThin s' = sThin s /\
  sFull s' = sFull s /\ sCorr s' = sCorr s /\ sInit s' = true /\ sAxes s' = sAxes s.
Proof.
  unfold initHists. match goal with |- bind ?x _ = _ -> _ => destruct x as [axes| | | |]; cbn [bind]; try discriminate end.
  destruct (sFull s) eqn:Ef.
  - intros E. injection E as <-. repeat split.
  - destruct (makeHists2 _ _) as [h2| | | |]; cbn [bind]; try discriminate.
    destruct (makeHists1 _ _) as [h1| | | |]; cbn [bind]; try discriminate. intros E. injection E as <-. repeat split.
Qed.
Lemma sFill_log g mi ma n s p v a s' : sFill g mi ma n s p v a = Ok s' ->
  sLog s' = sLog s ++ [(p, v, a)] /\ sTot s' = S (sTot s) /\ sAcc s' = (if a then S (sAcc s) else sAcc s) /\
  sBurn s' = sBurn s /\ sThin s' = sThin s /\ sFull s' = sFull s /\ sInit s' = true.
Proof.
  unfold sFill.
  assert (H : forall s1, (if sInit s then Ok s else initHists g mi ma n s) = Ok s1 ->
    sLog s1 = sLog s /\ sAcc s1 = sAcc s /\ sTot s1 = sTot s /\ sBurn s1 = sBurn s /\ sThin s1 = sThin s /\
    sFull s1 = sFull s /\ sInit s1 = true).
  { intros s1 E. destruct (sInit s) eqn:Ei; [injection E as <-; repeat split; auto|]. destruct (init_log _ _ _ _ _ _ E) as [A [B [C [D [F [G [_ [K _]]]]]]]]. auto 10. }
  destruct (if sInit s then Ok s else initHists g mi ma n s) as [s1| | | |]; cbn [bind]; try discriminate.
  destruct (H s1 eq_refl) as [A [B [C [D [F [G K]]]]]].
  destruct (recordStep s1) as [rc| | | |]; cbn [bind]; try discriminate. destruct rc.
  - match goal with |- context [bind (if sFull s1 then ?x else ?y)] => destruct (if sFull s1 then x else y) as [hs| | | |] end; cbn [bind]; try discriminate.
    destruct (cFill _ _) as [c| | | |]; cbn [bind]; try discriminate.
    intros E. injection E as <-. cbn [sLog sTot sAcc sBurn sThin sFull sInit]. rewrite A, B, C, D, F, G. auto 10.
  - cbn [bind]. intros E. injection E as <-. cbn [sLog sTot sAcc sBurn sThin sFull sInit]. rewrite A, B, C, D, F, G. auto 10.
Qed.

Definition lastP (cur : smap Qc) (log : list entry) : smap Qc := match rev log with [] => cur | e :: _ => eP e end.
Lemma lastP_cons cur e log : lastP cur (e :: log) = lastP (eP e) log.
Proof. unfold lastP. cbn [rev]. destruct (rev log) as [|x l] eqn:E; reflexivity. Qed.

(** the whole loop *)
Definition run (m : mcmc) (i n : nat) : res mcmc := foldM (mIter guess f ex draw corr unif) (seq i n) m.
Lemma run_ok n : forall i m m', run m i n = Ok m' ->
  exists log, sLog (mSamples m') = sLog (mSamples m) ++ log /\ List.length log = n /\
    mMaxIter m' = mMaxIter m /\ mMaxima m' = mMaxima m /\ mMinima m' = mMinima m /\
    chain_ok draw (value (mFlip m)) i (mCur m) (mCurVal m) log /\ mCur m' = lastP (mCur m) log /\
    fill_calls guess (mMinima m) (mMaxima m) (mMaxIter m) (mSamples m) log = Ok (mSamples m') /\
    (* the box *)
    (forall keys, incl keys (skeys (mCur m)) -> in_box (mMinima m) (mMaxima m) keys (mCur m) ->
       Forall (fun e => in_box (mMinima m) (mMaxima m) keys (eP e)) log) /\
    (* the best point *)
    ((mBest m' = mBest m /\ mMaxVal m' = mMaxVal m) \/ (mMaxVal m < mMaxVal m' /\ visited (mCur m) (mCurVal m) log (mBest m') (mMaxVal m'))) /\
    (mMaxVal m <= mMaxVal m') /\
    (forall l1 e l2, log = l1 ++ e :: l2 -> eA e = true ->
       mCurVal m <= mMaxVal m' /\ forall x, In x l1 -> eV x <= mMaxVal m') /\
    ((mCurVal m' <= mMaxVal m' \/ mMaxVal m' < mCurVal m') /\
     forall x, In x log -> eV x <= mMaxVal m' \/ eV x = mCurVal m') /\
    (mCurVal m <= mMaxVal m' \/ mCurVal m = mCurVal m').
Proof.
  induction n as [|n IH]; intros i m m'; unfold run; cbn [seq foldM].
  - intros E. injection E as <-. exists []. rewrite app_nil_r. cbn [chain_ok]. repeat (split; [reflexivity || exact I|]).
    split; [intros keys _ _; constructor|]. split; [left; auto|]. split; [apply Qcle_refl|]. split; [|split; [split|]].
    + intros [|? ?] e l2 E; discriminate.
    + destruct (qltb (mMaxVal m) (mCurVal m)) eqn:E; [right; apply qltb_lt; exact E|left; apply qltb_ge; exact E].
    + intros x [].
    + now right.
  - destruct (mIter guess f ex draw corr unif m i) as [m1| | | |] eqn:E1; cbn [bind]; try discriminate. intros E2.
    destruct (mIter_ok _ _ _ E1) as [prop [acc [Hd [F1 [F2 [F3 [F4 [F5 [F6 [Hfill Hcase]]]]]]]]]].
    destruct (IH (S i) m1 m' E2) as [log [L1 [L2 [L3 [L4 [L5 [Hch [Hlast [Hfc [Hbox [Hbest [Hmono [Hacc [[Hcmp Hall] Hcv]]]]]]]]]]]]]].
    destruct (sFill_log _ _ _ _ _ _ _ _ _ Hfill) as [Hlog _].
    exists ((mCur m1, mCurVal m1, acc) :: log). rewrite F1, F3, F4, F5 in *.
    assert (Hmax1 : mMaxVal m <= mMaxVal m1 /\ ((mBest m1 = mBest m /\ mMaxVal m1 = mMaxVal m) \/ (mMaxVal m < mMaxVal m1 /\ mBest m1 = mCur m /\ mMaxVal m1 = mCurVal m))
       /\ (acc = true -> mCurVal m <= mMaxVal m1) /\ (acc = false -> mCur m1 = mCur m /\ mCurVal m1 = mCurVal m) /\ (mCurVal m <= mMaxVal m1 \/ mCurVal m = mCurVal m1)).
    { destruct Hcase as [[_ [-> [-> [-> [-> ->]]]]]|[pv [_ [_ [_ [-> [-> [-> ->]]]]]]]].
      - split; [apply Qcle_refl|]. split; [left; auto|]. split; [discriminate|]. split; [auto|now right].
      - destruct (qltb (mMaxVal m) (mCurVal m)) eqn:E.
        + apply qltb_lt in E. split; [now apply Qclt_le_weak|]. split; [right; auto|]. split; [intros _; apply Qcle_refl|].
          split; [intros ->; auto|left; apply Qcle_refl].
        + apply qltb_ge in E. split; [apply Qcle_refl|]. split; [left; auto|]. split; [intros _; exact E|]. split; [intros ->; auto|now left]. }
    destruct Hmax1 as [Hm1 [Hb1 [Hm2 [Hrej Hm3]]]].
    split; [rewrite L1, Hlog, <- app_assoc; reflexivity|]. split; [cbn [List.length]; lia|]. split; [exact L3|].
    split; [exact L4|]. split; [exact L5|]. split; [|split; [|split; [|split; [|split; [|split; [|split; [|split]]]]]]].
    + cbn [chain_ok]. unfold eA, eP, eV. cbn [fst snd]. split; [|exact Hch].
      destruct Hcase as [[_ [-> [-> [-> _]]]]|[pv [_ [Hv [_ [-> [-> _]]]]]]]; [auto|]. destruct acc; auto.
    + rewrite lastP_cons. exact Hlast.
    + unfold fill_calls in *. cbn [foldM]. unfold eP at 1, eV at 1, eA at 1. cbn [fst snd]. rewrite Hfill. cbn [bind]. exact Hfc.
    + intros keys Hk Hin.
      assert (Hin1 : in_box (mMinima m) (mMaxima m) keys (mCur m1)).
      { destruct Hcase as [[_ [_ [-> _]]]|[pv [Hi [_ [_ [-> _]]]]]]; [exact Hin|]. destruct acc; [|exact Hin].
        intros k Hkk. exact (insideBox_true _ _ _ _ Hi k (Hk k Hkk)). }
      constructor; [exact Hin1|]. apply Hbox; [|exact Hin1]. intros k Hkk. destruct (Hin1 k Hkk) as [v [lo [hi [E _]]]].
      apply sfind_in. eauto.
    + destruct Hbest as [[B1 B2]|[Hlt Hv]].
      * destruct Hb1 as [[B3 B4]|[Hlt [B3 B4]]]; [left; split; congruence|]. right. rewrite B1, B2. split; [exact Hlt|]. left. auto.
      * right. split; [eapply Qcle_lt_trans; [exact Hm1|exact Hlt]|]. right. destruct Hv as [[-> ->]|[a Ha]].
        -- exists acc. now left.
        -- exists a. now right.
    + eapply Qcle_trans; [exact Hm1|exact Hmono].
    + intros [|x0 l1] e l2 El He; cbn [app] in El; injection El as Ee El; subst.
      * unfold eA in He. cbn [snd] in He. subst acc. split; [eapply Qcle_trans; [apply Hm2; reflexivity|exact Hmono]|intros x []].
      * destruct (Hacc l1 e l2 eq_refl He) as [H1 H2]. split.
        -- destruct Hm3 as [H|H]; [eapply Qcle_trans; [exact H|exact Hmono]|rewrite H; exact H1].
        -- intros x [<-|Hx]; [exact H1|exact (H2 x Hx)].
    + split; [exact Hcmp|]. intros x [<-|Hx]; [|exact (Hall x Hx)]. unfold eV. cbn [fst snd]. exact Hcv.
    + destruct Hm3 as [H|H]; [left; eapply Qcle_trans; [exact H|exact Hmono]|rewrite H; exact Hcv].
Qed.
End Chain.
