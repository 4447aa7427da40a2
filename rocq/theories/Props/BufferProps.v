(** The binned likelihood with systematics and buffers together: C98. *)
From Coq Require Import ZArith Reals.
From Verif Require Import Base.Res Base.Num Base.RNum Base.SMap Model.Axis Model.Event Model.Cut Model.Hist Model.ED Model.Param
  Model.Matrix Model.SystMan Model.Shrink Model.EDMan Model.Fill Model.Constraint Model.NLLH
  Spec.AxisSpec Spec.HistSpec Spec.ParamSpec Spec.EDManSpec Spec.SystManSpec Spec.NLLHSpec Spec.NLLHSysSpec Spec.ShrinkSpec Spec.BufferSpec
  Proofs.BufferP6 Proofs.ProjP5 Props.AxisProps Props.SystManProps.
From Coq Require Import Lra Lia.
Local Open Scope Qc_scope.

(** C98.  A statistic set up in any order with systematics and buffers, then used (parameters, evaluations, registration,
    normalisations) in any way: after SetParameters the data are the original data without their buffers, and every evaluation,
    however often repeated, is the Poisson sum over the kept bins for the expectation obtained by letting the systematics of
    each pdf act on the *whole* pdf and only then dropping (or adding to the nearest kept bin) its buffer bins, a pdf with
    DIRECT normalisation being normalised again over the kept bins. *)
Theorem C98_value : forall names par build obs ops ts d D, let pdfs := NLLHSpec.added ops in let bs := buffers ops in
  (forall q, comp_ok (par q)) -> Forall (setting_up obs) ops -> registered ops -> distinct_names names ops -> bb_in ops = false ->
  data_in ops = Some D -> h_reach (bdHist D) -> (Z.of_nat (hNBins (bdHist D)) < 2 ^ 31)%Z ->
  NoDup (fitted pdfs) -> direct_first pdfs -> pdfs <> [] -> (exists q, is_sys names ops q) ->
  (forall b, In b pdfs -> hAxes (bdHist (fst b)) = hAxes (bdHist D) /\ regd (bdName (fst b)) (sys_accepted names ops) <> None) ->
  unsigned_sizes bs -> (sizes bs < 2 ^ 31)%Z -> Forall (fun a => (lower bs a + upper bs a < aNBins a)%nat) (acAxes (hAxes (bdHist D))) ->
  Exists (fun a => (0 < lower bs a + upper bs a)%nat) (acAxes (hAxes (bdHist D))) ->
  swf d -> (forall n, In n (fitted pdfs) -> has_key d n) ->
  (forall q n, is_sys names ops q -> ~ is_dict (par q) -> In n (c_names (par q)) -> has_key d n) -> Forall tuning ts ->
  exists s p D', nl_setParams (nlrun (nl_new names par build) (ops ++ ts)) d = (s, Ok tt) /\ cut_down bs (bdHist D) (bdHist D') /\
    (forall q n v, is_sys names ops q -> In n (c_names (par q)) -> sfind n d = Some v -> c_get (nlPar s q) n = Ok v) /\
    let M := fun q => fst (build q (nlPar s q)) in
    (forall q, is_sys names ops q -> snd (build q (nlPar s q)) = Ok tt) -> fits names ops M pdfs ->
    exists Sh : bed -> hist, (forall b, In b pdfs -> cut_down bs (bdHist (with_contents (fst b) (responded names ops M (fst b)))) (Sh (fst b))) /\
    ((forall b, In b pdfs -> match snd b with NDirect => total (Sh (fst b)) <> 0 | NIndirect => total (bdHist (with_contents (fst b) (responded names ops M (fst b)))) <> 0 \/ total (Sh (fst b)) = 0 | NFalse => True end) ->
     forall m, let s' := nlrun s (repeat NEval m) in
     nl_getParams s' = Ok p /\
     (forall n v, sfind n d = Some v -> In n (fitted pdfs) \/ (exists q, is_sys names ops q /\ In n (c_names (par q))) -> sfind n p = Some v) /\
     snd (nl_eval s') = outcome (cont (bdHist D')) (fun k => qsum (map (fun b => norm_in d b * kept b (Sh (fst b)) k) pdfs)) (hNBins (bdHist D')) (cman_eval (con_in ops) p)).
Proof. exact buffer_pkg. Qed.
Print Assumptions C98_value.

(** four bins of which the first is a buffer; the systematic exchanges the first two bins, so the order matters *)
Definition ex_b4 (n : string) (c : list Qc) := mkBed n (fst (setBinContents (mk_hist (fst (addAxes ac_empty [ex_axis "x" 0 4 4]))) c)) (mk_obsset ["x"%string]).
Definition ex_bfa := ex_b4 "a" [1; qz 2; qz 3; qz 4].
Definition ex_bfb := ex_b4 "b" [qz 5; qz 6; qz 7; qz 8].
Definition ex_bfD := ex_b4 "data" [qz 9; qz 10; qz 11; qz 12].
Definition ex_bfn (q : nat) : string := "swap".
Definition ex_bfp (q : nat) : comp := CSingle "sw" 0.
Definition ex_bfbu (q : nat) (c : comp) : smat * res unit :=
  match c with
  | CSingle _ v => (mkMat 4 4 4 4 (fun i j => match i, j with 0%nat, 0%nat | 1%nat, 1%nat => 1 - v | 0%nat, 1%nat | 1%nat, 0%nat => v | 2%nat, 2%nat | 3%nat, 3%nat => 1 | _, _ => 0 end), Ok tt)
  | _ => (mat_empty, Throw LogicError)
  end.
Definition ex_bfops := [NBuffer "x" 1 0; NSys 0 "g"; NData ex_bfD; NAdd ex_bfa ["g"] None NDirect; NAdd ex_bfb ["g"] None NIndirect; NReg]%string%nat%Z.
Definition ex_bfts := [NPars (sof [("a", 1); ("b", 1); ("sw", 0)]%string); NEval; NEval].
Definition ex_bfd := sof [("a", qz 2); ("b", qz 3); ("sw", 1)]%string.
Definition ex_bfs := fst (nl_setParams (nlrun (nl_new ex_bfn ex_bfp ex_bfbu) (ex_bfops ++ ex_bfts)) ex_bfd).
Definition ex_bfM := fun q => fst (ex_bfbu q (nlPar ex_bfs q)).
Definition ex_bfr (b : bed) := with_contents b (responded ex_bfn ex_bfops ex_bfM b).
Definition ex_bfx := fst (sh_setBinMap (configured (buffers ex_bfops)) ex_bfD).
Definition ex_bfcut (b : bed) : list Qc := match sh_shrink ex_bfx (ex_bfr b) with Ok r => hCont (bdHist r) | _ => [] end.
Lemma ex_b4_reach n c : h_reach (bdHist (ex_b4 n c)).
Proof. apply hr_setBins, hr_new; [apply ar_adds; [constructor|repeat constructor; apply ex_axis_built; lia]|discriminate]. Qed.
Lemma ex_bfis q : is_sys ex_bfn ex_bfops q -> q = 0%nat.
Proof.
  intros [g H]. unfold group_in in H. assert (A : sys_accepted ex_bfn ex_bfops = [Add 0 "g"; AddDist "a" ["g"]; AddDist "b" ["g"]]%string%nat) by (vm_compute; reflexivity).
  rewrite A in H. unfold SystManSpec.added in H. cbn [flat_map app] in H. destruct (String.eqb g "g"); cbn in H; intuition.
Qed.
Definition qlist_eqb (l m : list Qc) : bool := Nat.eqb (List.length l) (List.length m) && forallb (fun p => qeqb (fst p) (snd p)) (combine l m).
Example C98_nonvacuous : let pdfs := NLLHSpec.added ex_bfops in let bs := buffers ex_bfops in
  (forall q, comp_ok (ex_bfp q)) /\ Forall (setting_up ["x"%string]) ex_bfops /\ registered ex_bfops /\ distinct_names ex_bfn ex_bfops /\ bb_in ex_bfops = false /\
  data_in ex_bfops = Some ex_bfD /\ h_reach (bdHist ex_bfD) /\ (Z.of_nat (hNBins (bdHist ex_bfD)) < 2 ^ 31)%Z /\
  NoDup (fitted pdfs) /\ direct_first pdfs /\ pdfs = [(ex_bfa, NDirect); (ex_bfb, NIndirect)] /\ (exists q, is_sys ex_bfn ex_bfops q) /\
  (forall b, In b pdfs -> hAxes (bdHist (fst b)) = hAxes (bdHist ex_bfD) /\ regd (bdName (fst b)) (sys_accepted ex_bfn ex_bfops) <> None) /\
  unsigned_sizes bs /\ (sizes bs < 2 ^ 31)%Z /\ Forall (fun a => (lower bs a + upper bs a < aNBins a)%nat) (acAxes (hAxes (bdHist ex_bfD))) /\
  Exists (fun a => (0 < lower bs a + upper bs a)%nat) (acAxes (hAxes (bdHist ex_bfD))) /\
  swf ex_bfd /\ (forall n, In n (fitted pdfs) -> has_key ex_bfd n) /\
  (forall q n, is_sys ex_bfn ex_bfops q -> ~ is_dict (ex_bfp q) -> In n (c_names (ex_bfp q)) -> has_key ex_bfd n) /\ Forall tuning ex_bfts /\
  (forall q, is_sys ex_bfn ex_bfops q -> snd (ex_bfbu q (nlPar ex_bfs q)) = Ok tt) /\ fits ex_bfn ex_bfops ex_bfM pdfs /\
  (** the systematic moves a's first bin into the kept region before the buffer is dropped *)
  qlist_eqb (hCont (bdHist (ex_bfr ex_bfa))) [qz 2; 1; qz 3; qz 4] = true /\
  qlist_eqb (ex_bfcut ex_bfa) [1; qz 3; qz 4] = true /\ qlist_eqb (ex_bfcut ex_bfb) [qz 5; qz 7; qz 8] = true.
Proof.
  cbv zeta. assert (P : NLLHSpec.added ex_bfops = [(ex_bfa, NDirect); (ex_bfb, NIndirect)]) by reflexivity.
  split; [intros q; exact I|]. split.
  { repeat (apply Forall_cons; [first [exact I|reflexivity|split; [reflexivity|apply ex_b4_reach]]|]); constructor. }
  split. { exists (firstn 5 ex_bfops), []. split; [reflexivity|repeat constructor]. }
  split. { intros q q' H H' _. apply ex_bfis in H, H'. congruence. }
  split; [reflexivity|]. split; [reflexivity|]. split; [apply ex_b4_reach|]. split; [vm_compute; reflexivity|].
  split; [repeat constructor; cbn; intuition discriminate|].
  split. { rewrite P. intros i j bi bj. destruct i as [|[|[|i]]], j as [|[|[|j]]]; cbn [nth_error]; intros; first [discriminate|lia|congruence]. }
  split; [exact P|]. split. { exists 0%nat, "g"%string. vm_compute. auto. }
  split. { rewrite P. intros b [<-|[<-|[]]]; (split; [reflexivity|vm_compute; discriminate]). }
  split. { intros n lo up [H|[]]. injection H as <- <- <-. lia. } split; [vm_compute; reflexivity|].
  split. { apply Forall_cons; [|constructor]. vm_compute; lia. }
  split. { left. vm_compute. lia. }
  split; [apply sof_gen_wf; apply sempty_wf|]. split; [intros n [<-|[<-|[]]]; eexists; reflexivity|].
  split; [intros q n H _; apply ex_bfis in H as ->; intros [<-|[]]; eexists; reflexivity|].
  split; [repeat constructor|]. split; [intros q H; apply ex_bfis in H as ->; vm_compute; reflexivity|].
  assert (S0 : sized 4 (ex_bfM 0)) by (split; vm_compute; reflexivity).
  assert (A1 : acting_on ex_bfn ex_bfops ex_bfa = [0]%nat) by (vm_compute; reflexivity).
  assert (A2 : acting_on ex_bfn ex_bfops ex_bfb = [0]%nat) by (vm_compute; reflexivity).
  split. { split.
    - intros g. exists 4%nat. apply Forall_forall. intros q Hq. assert (H : is_sys ex_bfn ex_bfops q) by (exists g; exact Hq). apply ex_bfis in H as ->; assumption.
    - rewrite P. intros p [<-|[<-|[]]]; cbn [fst]; rewrite ?A1, ?A2; repeat constructor; assumption. }
  repeat split; vm_compute; reflexivity.
Qed.

(** Without systematics the working pdfs are not rebuilt, and are recognised as already without buffers by their number of
    bins: for data of one axis, with buffers on that axis only, every evaluation is again the Poisson sum over the kept bins
    for the pdfs without their buffers.  (For more axes the number is computed wrongly: C30_*_refuted.) *)
Theorem C98_one_axis : forall names par build obs ops ts d D a, let pdfs := NLLHSpec.added ops in let bs := buffers ops in
  (forall q, comp_ok (par q)) -> Forall (setting_up obs) ops -> registered ops -> bb_in ops = false ->
  data_in ops = Some D -> h_reach (bdHist D) -> (Z.of_nat (hNBins (bdHist D)) < 2 ^ 31)%Z ->
  NoDup (fitted pdfs) -> direct_first pdfs -> pdfs <> [] -> (forall q, ~ is_sys names ops q) ->
  (forall b, In b pdfs -> hAxes (bdHist (fst b)) = hAxes (bdHist D)) ->
  unsigned_sizes bs -> (sizes bs < 2 ^ 31)%Z -> acAxes (hAxes (bdHist D)) = [a] -> Forall (only_axis (aName a)) bs -> (0 < lower bs a + upper bs a < aNBins a)%nat ->
  swf d -> (forall n, In n (fitted pdfs) -> has_key d n) -> Forall tuning ts ->
  exists (D' : bed) (Sh : bed -> hist), cut_down bs (bdHist D) (bdHist D') /\ (forall b, In b pdfs -> cut_down bs (bdHist (fst b)) (Sh (fst b))) /\
    ((forall b, In b pdfs -> match snd b with NDirect => total (Sh (fst b)) <> 0 | NIndirect => total (bdHist (fst b)) <> 0 \/ total (Sh (fst b)) = 0 | NFalse => True end) ->
     exists s p, nl_setParams (nlrun (nl_new names par build) (ops ++ ts)) d = (s, Ok tt) /\
     forall m, let s' := nlrun s (repeat NEval m) in
     nl_getParams s' = Ok p /\ (forall n v, sfind n d = Some v -> In n (fitted pdfs) -> sfind n p = Some v) /\
     snd (nl_eval s') = outcome (cont (bdHist D')) (fun k => qsum (map (fun b => norm_in d b * kept b (Sh (fst b)) k) pdfs)) (hNBins (bdHist D')) (cman_eval (con_in ops) p)).
Proof. exact one_axis_pkg. Qed.
Print Assumptions C98_one_axis.
(** the same pdfs without the systematic, buffers as overflow: the first bin is added to the second, the last to the third *)
Definition ex_boops := [NBuffer "x" 1 1; NOver true; NData ex_bfD; NAdd ex_bfa [""] None NDirect; NAdd ex_bfb [""] None NIndirect; NReg]%string%nat%Z.
Definition ex_bocut (b : bed) : list Qc := match sh_shrink (fst (sh_setBinMap (configured (buffers ex_boops)) ex_bfD)) b with Ok r => hCont (bdHist r) | _ => [] end.
Example C98_one_axis_nonvacuous : let pdfs := NLLHSpec.added ex_boops in let bs := buffers ex_boops in let a := ex_axis "x" 0 4 4 in
  (forall q, comp_ok (ex_bfp q)) /\ Forall (setting_up ["x"%string]) ex_boops /\ registered ex_boops /\ bb_in ex_boops = false /\
  data_in ex_boops = Some ex_bfD /\ h_reach (bdHist ex_bfD) /\ (Z.of_nat (hNBins (bdHist ex_bfD)) < 2 ^ 31)%Z /\
  NoDup (fitted pdfs) /\ direct_first pdfs /\ pdfs = [(ex_bfa, NDirect); (ex_bfb, NIndirect)] /\ (forall q, ~ is_sys ex_bfn ex_boops q) /\
  (forall b, In b pdfs -> hAxes (bdHist (fst b)) = hAxes (bdHist ex_bfD)) /\
  unsigned_sizes bs /\ (sizes bs < 2 ^ 31)%Z /\ acAxes (hAxes (bdHist ex_bfD)) = [a] /\ Forall (only_axis (aName a)) bs /\ (0 < lower bs a + upper bs a < aNBins a)%nat /\
  swf ex_bfd /\ (forall n, In n (fitted pdfs) -> has_key ex_bfd n) /\ Forall tuning ex_bfts /\
  qlist_eqb (ex_bocut ex_bfa) [qz 3; qz 7] = true /\ qlist_eqb (ex_bocut ex_bfb) [qz 11; qz 15] = true.
Proof.
  cbv zeta. assert (P : NLLHSpec.added ex_boops = [(ex_bfa, NDirect); (ex_bfb, NIndirect)]) by reflexivity.
  split; [intros q; exact I|]. split.
  { repeat (apply Forall_cons; [first [exact I|reflexivity|split; [reflexivity|apply ex_b4_reach]]|]); constructor. }
  split. { exists (firstn 5 ex_boops), []. split; [reflexivity|repeat constructor]. }
  split; [reflexivity|]. split; [reflexivity|]. split; [apply ex_b4_reach|]. split; [vm_compute; reflexivity|].
  split; [repeat constructor; cbn; intuition discriminate|].
  split. { rewrite P. intros i j bi bj. destruct i as [|[|[|i]]], j as [|[|[|j]]]; cbn [nth_error]; intros; first [discriminate|lia|congruence]. }
  split; [exact P|]. split.
  { intros q [g H]. unfold group_in in H. assert (A : sys_accepted ex_bfn ex_boops = [AddDist "a" [""]; AddDist "b" [""]]%string) by (vm_compute; reflexivity). rewrite A in H. destruct H. }
  split. { rewrite P. intros b [<-|[<-|[]]]; reflexivity. }
  split. { intros n lo up [H|[H|[]]]; [injection H as <- <- <-; lia|discriminate]. } split; [vm_compute; reflexivity|].
  split; [vm_compute; reflexivity|]. split; [repeat constructor|]. split; [vm_compute; lia|].
  split; [apply sof_gen_wf; apply sempty_wf|]. split; [intros n [<-|[<-|[]]]; eexists; reflexivity|].
  split; [repeat constructor|]. split; vm_compute; reflexivity.
Qed.
