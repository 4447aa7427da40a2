From Coq Require Import ZArith Lia.
From Verif Require Import Base.Res Base.Num Base.SMap Model.Axis Model.Event Model.Root Spec.CutSpec Spec.RootSpec.
Local Open Scope res_scope.

Lemma foldM_snoc'' {A B} (f : B -> A -> res B) l x : forall s, foldM f (l ++ [x]) s = bind (foldM f l s) (fun r => f r x).
Proof.
  induction l as [|a l IH]; intros s; cbn [foldM app bind].
  - destruct (f s x); reflexivity.
  - destruct (f s a); cbn [bind]; auto.
Qed.
Lemma firstn_snoc {A} (l : list A) k b : nth_error l k = Some b -> firstn (S k) l = firstn k l ++ [b].
Proof. revert k. induction l as [|a l IH]; intros [|k] H; cbn in *; try discriminate; [injection H as <-; reflexivity|]. now rewrite <- IH. Qed.
Lemma rn_gather_ok t : rn_gather t = Ok (map brName (trBranches t)).
Proof.
  unfold rn_gather, tr_nobs. assert (K : forall k, (k <= List.length (trBranches t))%nat ->
    foldM (fun ns i => match nth_error (trBranches t) i with Some b => Ok (ns ++ [brName b]) | None => UB end) (seq 0 k) [] = Ok (map brName (firstn k (trBranches t)))).
  { induction k as [|k IH]; intros H; [reflexivity|]. rewrite seq_S, foldM_snoc'', IH by lia. cbn [bind Nat.add].
    destruct (nth_error (trBranches t) k) as [b|] eqn:E; [|apply nth_error_None in E; lia]. now rewrite (firstn_snoc _ _ _ E), map_app. }
  rewrite K by lia. now rewrite firstn_all.
Qed.
Lemma rt_gather_ok t : rt_gather t = Ok (map brName (trBranches t), map (fun b => getLeaf (trBranches t) (brName b)) (trBranches t)).
Proof.
  unfold rt_gather, tr_nobs. set (bs := trBranches t) at 2 5. assert (K : forall k, (k <= List.length (trBranches t))%nat ->
    foldM (fun s i => match nth_error (trBranches t) i with Some b => Ok (fst s ++ [brName b], snd s ++ [getLeaf bs (brName b)]) | None => UB end) (seq 0 k) ([], []) =
    Ok (map brName (firstn k (trBranches t)), map (fun b => getLeaf bs (brName b)) (firstn k (trBranches t)))).
  { induction k as [|k IH]; intros H; [reflexivity|]. rewrite seq_S, foldM_snoc'', IH by lia. cbn [bind Nat.add fst snd].
    destruct (nth_error (trBranches t) k) as [b|] eqn:E; [|apply nth_error_None in E; lia]. now rewrite (firstn_snoc _ _ _ E), !map_app. }
  rewrite K by lia. now rewrite firstn_all.
Qed.
Lemma args_ok t i : one_leaf t -> args t i = row t i.
Proof.
  unfold one_leaf, args, row. induction 1 as [|b bs [l L] H IH]; [reflexivity|]. cbn [flat_map map]. rewrite IH, L. reflexivity.
Qed.
Lemma row_len t i : List.length (row t i) = tr_nobs t.
Proof. unfold row. now rewrite map_length. Qed.
Lemma entries_ok t : countable t -> tr_entries t = trEntries t.
Proof. intros H. unfold tr_entries, u32r. apply Z.mod_small. exact H. Qed.
Lemma ntuple_pkg f name t : holds f name (RNtuple t) -> one_leaf t -> countable t ->
  exists d, rn_open f name = Ok d /\ tr_entries (rnTree d) = trEntries t /\ rnNames d = map brName (trBranches t) /\
    (forall i, (0 <= i < trEntries t)%Z -> rn_get d i = Ok (mkEvent (row t i) (Some (map brName (trBranches t))))) /\
    (forall i, (trEntries t <= i)%Z -> rn_get d i = Throw NotFoundError).
Proof.
  intros (m & -> & F) O C. exists (mkRN t (map brName (trBranches t))). cbn [rn_open]. rewrite F, rn_gather_ok. cbn [bind rnTree rnNames].
  split; [reflexivity|]. split; [now apply entries_ok|]. split; [reflexivity|]. unfold rn_get. cbn [rnTree rnNames]. rewrite (entries_ok t C). split.
  - intros i H. destruct (Z.leb_spec (trEntries t) i); [lia|]. cbv zeta. rewrite (args_ok t i O), row_len, Nat.ltb_irrefl. rewrite <- (row_len t i), firstn_all. reflexivity.
  - intros i H. destruct (Z.leb_spec (trEntries t) i); [reflexivity|lia].
Qed.
Lemma open_errors f name :
  ((forall t, ~ holds f name (RNtuple t)) -> rn_open f name = Throw IOError) /\
  ((forall t, ~ holds f name (RNtuple t) /\ ~ holds f name (RTree t)) -> rt_open f name = Throw IOError).
Proof.
  unfold rn_open, rt_open. destruct f as [d|]; [|split; reflexivity]. destruct (sfind name d) as [[t|t|]|] eqn:E; split; intros H; try reflexivity; exfalso.
  - apply (H t). exists d. auto.
  - apply (proj1 (H t)). exists d. auto.
  - apply (proj2 (H t)). exists d. auto.
Qed.
Lemma getLeaf_ok bs b l : NoDup (map brName bs) -> Forall (fun b => exists l, brLeaves b = [l] /\ lfName l = brName b) bs ->
  (forall b c, In b bs -> In c bs -> brName c <> (brName b ++ "." ++ brName b)%string) -> In b bs -> brLeaves b = [l] -> forall all,
  (forall c, In c all -> In c bs) -> NoDup (map brName all) -> In b all -> getLeaf all (brName b) = Some l.
Proof.
  intros N F D I L. assert (F' : forall c, In c bs -> exists l, brLeaves c = [l] /\ lfName l = brName c) by (apply Forall_forall; exact F).
  induction all as [|c all IH]; intros Sub Nd Ib; [destruct Ib|]. cbn [getLeaf]. pose proof (Sub c (or_introl eq_refl)) as Ic. destruct (F' c Ic) as (lc & Lc & Nc). rewrite Lc. cbn [findLeaf].
  rewrite Nc. inversion Nd as [|? ? N1 N2]; subst. destruct (String.eqb_spec (brName c) (brName b)) as [E|E].
  - cbn [orb]. f_equal. assert (b = c) as ->; [|congruence]. destruct Ib as [->|Ib]; [reflexivity|]. exfalso. apply N1. rewrite E. apply in_map. exact Ib.
  - cbn [orb]. destruct (String.eqb_spec (brName c ++ "." ++ brName c)%string (brName b)) as [E2|E2]; [exfalso; apply (D c b Ic I); now rewrite E2|].
    apply IH; [intros; apply Sub; now right|exact N2|]. destruct Ib as [->|Ib]; [congruence|exact Ib].
Qed.
Lemma rt_values t i : ordinary t ->
  mapM (fun l => match l with Some l => Ok (lfVal l i) | None => UB end) (map (fun b => getLeaf (trBranches t) (brName b)) (trBranches t)) = Ok (row t i).
Proof.
  intros (N & F & D). unfold row.
  assert (K : forall bs, (forall c, In c bs -> In c (trBranches t)) -> mapM (fun l => match l with Some l => Ok (lfVal l i) | None => UB end) (map (fun b => getLeaf (trBranches t) (brName b)) bs) =
    Ok (map (fun b => match brLeaves b with l :: _ => lfVal l i | [] => 0%Qc end) bs)).
  { induction bs as [|b bs IH]; intros Sub; [reflexivity|]. specialize (IH (fun c H => Sub c (or_intror H))). pose proof (Sub b (or_introl eq_refl)) as Ib.
    destruct (proj1 (Forall_forall _ _) F b Ib) as (l & L & _). unfold mapM in *. cbn [map seqM]. rewrite (getLeaf_ok _ b l N F D Ib L (trBranches t) (fun c H => H) N Ib). cbn [bind].
    rewrite IH. cbn [bind]. now rewrite L. }
  apply K. auto.
Qed.
Lemma tree_pkg f name t : holds f name (RTree t) \/ holds f name (RNtuple t) -> ordinary t -> countable t ->
  exists d, rt_open f name = Ok d /\ tr_entries (rtTree d) = trEntries t /\ rtNames d = map brName (trBranches t) /\
    (forall i, (0 <= i < trEntries t)%Z -> rt_get d i = Ok (mkEvent (row t i) (Some (map brName (trBranches t))))) /\
    (forall i, (trEntries t <= i)%Z -> rt_get d i = Throw NotFoundError).
Proof.
  intros Hf O C. exists (mkRT t (map brName (trBranches t)) (map (fun b => getLeaf (trBranches t) (brName b)) (trBranches t))).
  assert (E : rt_open f name = bind (rt_gather t) (fun s => Ok (mkRT t (fst s) (snd s)))) by (destruct Hf as [(m & -> & F)|(m & -> & F)]; cbn [rt_open]; now rewrite F).
  rewrite E, rt_gather_ok. cbn [bind fst snd rtTree rtNames rtLeaves]. split; [reflexivity|]. split; [now apply entries_ok|]. split; [reflexivity|]. unfold rt_get. cbn [rtTree rtNames rtLeaves]. rewrite (entries_ok t C). split.
  - intros i H. destruct (Z.leb_spec (trEntries t) i); [lia|]. rewrite (rt_values t i O). reflexivity.
  - intros i H. destruct (Z.leb_spec (trEntries t) i); [reflexivity|lia].
Qed.
(** reading an observable of an entry by name gives its branch's value *)
Lemma row_value t i b l : ordinary t -> In b (trBranches t) -> brLeaves b = [l] ->
  has_value (mkEvent (row t i) (Some (map brName (trBranches t)))) (brName b) (lfVal l i).
Proof.
  intros (N & F & D) I L. apply In_nth_error in I. destruct I as [k K]. exists (map brName (trBranches t)), k. cbn [evNames evObs].
  split; [reflexivity|]. assert (Kn : nth_error (map brName (trBranches t)) k = Some (brName b)) by now rewrite nth_error_map, K.
  split; [exact Kn|]. split; [unfold row; rewrite nth_error_map, K; cbn [option_map]; now rewrite L|].
  intros j Hj E. assert (j = k); [|lia]. eapply NoDup_nth_error; [exact N| |congruence]. apply nth_error_Some. now rewrite E.
Qed.
