(** C29: buffers and shrinking. *)
From Coq Require Import ZArith.
From Verif Require Import Base.Res Base.Num Base.SMap Model.Axis Model.Event Model.Hist Model.ED Model.Shrink
  Spec.AxisSpec Spec.HistSpec Spec.ShrinkSpec.
From Verif Require Import Proofs.ShrinkP3 Props.AxisProps.
Local Open Scope Qc_scope.

(** C29.  [b] is the distribution SetBinMap is called with, [d] any distribution on the same axes. *)
Theorem C29_shrink : forall ops b, unsigned_sizes ops -> some_buffer ops -> h_reach (bdHist b) ->
  (Z.of_nat (hNBins (bdHist b)) < 2 ^ 31)%Z ->
  Forall (fun a => (lower ops a + upper ops a < aNBins a)%nat) (acAxes (hAxes (bdHist b))) ->
  exists s, sh_setBinMap (configured ops) b = (s, Ok tt) /\
    forall d, h_reach (bdHist d) -> hAxes (bdHist d) = hAxes (bdHist b) ->
    exists d', sh_shrink s d = Ok d' /\ bdName d' = (bdName d ++ "_shrunk")%string /\
      osNames (bdObs d') = osNames (bdObs d) /\
      Forall2 (fun a a' => trimmed (lower ops a) (upper ops a) a a') (acAxes (hAxes (bdHist d))) (acAxes (hAxes (bdHist d'))) /\
      (over_wanted ops false = false -> forall J, in_shape (shape_of (bdHist d')) J ->
         cont_at (bdHist d') J = cont_at (bdHist d) (old_index (map (lower ops) (acAxes (hAxes (bdHist d)))) J)) /\
      (over_wanted ops false = true ->
         (forall J, in_shape (shape_of (bdHist d')) J ->
            cont_at (bdHist d') J =
            qsum (map (cont_at (bdHist d))
                   (filter (fun t => nlist_eqb (nearests (map (lower ops) (acAxes (hAxes (bdHist d)))) (shape_of (bdHist d')) t) J)
                           (tuples (shape_of (bdHist d)))))) /\
         total (bdHist d') = total (bdHist d)).
Proof. exact shrink_pkg. Qed.
Print Assumptions C29_shrink.
(** buffers that cover an axis are refused, as long as no pair of sizes adds up to 2^32 or more *)
Theorem C29_covering_buffers_throw_partial : forall ops b, unsigned_sizes ops -> h_reach (bdHist b) ->
  (Z.of_nat (hNBins (bdHist b)) < 2 ^ 31)%Z ->
  (forall a, (Z.of_nat (lower ops a) + Z.of_nat (upper ops a) < 2 ^ 32)%Z) ->
  Exists (fun a => (aNBins a <= lower ops a + upper ops a)%nat) (acAxes (hAxes (bdHist b))) ->
  snd (sh_setBinMap (configured ops) b) = Throw ValueError.
Proof. exact shrink_big_pkg. Qed.
Print Assumptions C29_covering_buffers_throw_partial.
Theorem C29_no_buffer : forall ops b d, unsigned_sizes ops -> ~ some_buffer ops ->
  sh_setBinMap (configured ops) b = (configured ops, Ok tt) /\ sh_shrink (configured ops) d = Ok d.
Proof. exact shrink_none_pkg. Qed.
Print Assumptions C29_no_buffer.

Definition ex_sac := fst (addAxes ac_empty [ex_axis "x" 0 4 4; ex_axis "y" 0 3 3]).
Lemma ex_sac_reach : ac_reach ex_sac.
Proof. apply ar_adds; [constructor|]. repeat constructor; apply ex_axis_built; lia. Qed.
Definition ex_sbed : bed :=
  mkBed "d" (fst (setBinContents (mk_hist ex_sac) (map qz [1;2;3; 4;5;6; 7;8;9; 10;11;12]%Z))) (mk_obsset ["x"; "y"]%string).
Lemma ex_sbed_reach : h_reach (bdHist ex_sbed).
Proof. apply hr_setBins, hr_new; [exact ex_sac_reach|discriminate]. Qed.
Definition ex_sops := [SBuf "y" 3 3; SBuf "x" 1 1; SOver true; SBuf "y" 0 1; SBuf "w" 7 7; SOver false]%string.

(** the full statement "buffers covering the axis throw ValueError" fails when the two sizes wrap around:
    std::length_error leaves the call instead *)
Theorem C29_covering_buffers_refuted : exists ops b, unsigned_sizes ops /\ h_reach (bdHist b) /\
  Exists (fun a => (aNBins a <= lower ops a + upper ops a)%nat) (acAxes (hAxes (bdHist b))) /\
  snd (sh_setBinMap (configured ops) b) = Throw std_logic_error.
Proof.
  exists [SBuf "x"%string (2 ^ 32 - 1) 2], ex_sbed. split; [|split; [exact ex_sbed_reach|split]].
  - intros n lo up [E|[]]. injection E as <- <- <-. lia.
  - apply Exists_cons_hd. unfold lower, upper.
    change (aNBins (ex_axis "x" 0 4 4)) with 4%nat. change (wanted [SBuf "x"%string (2 ^ 32 - 1) 2] (aName (ex_axis "x" 0 4 4)) (0%Z, 0%Z)) with ((2 ^ 32 - 1)%Z, 2%Z).
    cbn [fst snd]. lia.
  - vm_compute. reflexivity.
Qed.
Print Assumptions C29_covering_buffers_refuted.

Example C29_nonvacuous : unsigned_sizes ex_sops /\ some_buffer ex_sops /\ h_reach (bdHist ex_sbed) /\
  (Z.of_nat (hNBins (bdHist ex_sbed)) < 2 ^ 31)%Z /\
  Forall (fun a => (lower ex_sops a + upper ex_sops a < aNBins a)%nat) (acAxes (hAxes (bdHist ex_sbed))) /\
  rmap (fun b => hCont (bdHist b)) (sh_shrink (fst (sh_setBinMap (configured ex_sops) ex_sbed)) ex_sbed) = Ok (map qz [4; 5; 7; 8]%Z) /\
  rmap (fun b => hCont (bdHist b)) (sh_shrink (fst (sh_setBinMap (configured (ex_sops ++ [SOver true])) ex_sbed)) ex_sbed)
    = Ok (map qz [5; 16; 17; 40]%Z).
Proof.
  split; [|split; [|split; [exact ex_sbed_reach|split; [|split; [|split]]]]].
  - intros n lo up H. repeat (destruct H as [H|H]; [try discriminate H; injection H as <- <- <-; lia|]). destruct H.
  - exists "x"%string, 1%Z, 1%Z. cbn. tauto.
  - vm_compute. reflexivity.
  - repeat constructor; vm_compute; lia.
  - vm_compute. repeat f_equal; apply Qc_is_canon; reflexivity.
  - vm_compute. repeat f_equal; apply Qc_is_canon; reflexivity.
Qed.
