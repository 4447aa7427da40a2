(** Model of /repo/src/data/DataSetGenerator.cpp.
    Simplifications: the source data sets are OXSXDataSets whose contents do not change while the generator uses
    them (it holds pointers); progress printing and Reserve are dropped; fEventIndicies and fMaxs, which always have
    one entry per data set, are one list of slots; the value returned is the OXSXDataSet under construction (its
    address is 0).  size_t is Z modulo 2^64. *)
From Coq Require Import ZArith.
From Verif Require Import Base.Res Base.Num Base.SMap Model.Axis Model.Event Model.Cut Model.Hist Model.Shrink Model.Data Model.Rand.
Local Open Scope Z_scope.
Local Open Scope res_scope.

(** a source data set: OXSXDataSet.h:36-38 *)
Record src := mkSrc { sNames : list string; sEvs : list (list Qc) }.
(** fEventIndicies[i], fMaxs[i] (DataSetGenerator.h:49-50) *)
Definition slot := (list nat * Z)%type.
(** DataSetGenerator.h:46-55 *)
Record gen := mkGen { gSeq : list bool; gSets : list src; gRates : list Qc; gSlots : list slot; gBoot : list bool; gCuts : list cut }.
Definition gen_new : gen := mkGen [] [] [] [] [] [].
(** the size_t value -999 used for "not set" *)
Definition m999 : Z := w64 (-999).

(** DataSetGenerator.cpp:13-16, 18-21 *)
Definition g_setCuts (g : gen) (cs : list cut) : gen := mkGen (gSeq g) (gSets g) (gRates g) (gSlots g) (gBoot g) cs.
Definition g_addCut (g : gen) (c : cut) : gen := g_setCuts g (gCuts g ++ [c]).
(** 23-30 *)
Definition g_setSets (g : gen) (l : list src) : gen :=
  mkGen (gSeq g) l (gRates g) (repeat (([] : list nat), m999) (List.length l)) (gBoot g) (gCuts g).
(** 32-35 *)
Definition g_setRates (g : gen) (l : list Qc) : gen := mkGen (gSeq g) (gSets g) l (gSlots g) (gBoot g) (gCuts g).
(** 287-290, 357-360 *)
Definition g_setBoot (g : gen) (l : list bool) : gen := mkGen (gSeq g) (gSets g) (gRates g) (gSlots g) l (gCuts g).
Definition g_setSeq (g : gen) (l : list bool) : gen := mkGen l (gSets g) (gRates g) (gSlots g) (gBoot g) (gCuts g).
(** 272-279 *)
Definition g_add (g : gen) (d : src) (rate : Qc) (sequential : bool) : gen :=
  mkGen (gSeq g ++ [sequential]) (gSets g ++ [d]) (gRates g ++ [rate]) (gSlots g ++ [([], 0)]) (gBoot g) (gCuts g).
(** 292-299 *)
Definition g_clear (g : gen) : gen := mkGen [] [] [] [] (gBoot g) (gCuts g).
(** 172-177 *)
Definition g_reset (g : gen) : gen :=
  mkGen (gSeq g) (gSets g) (gRates g) (repeat (([] : list nat), m999) (List.length (gSets g))) (gBoot g) (gCuts g).

(** vector operator[] with a size_t index *)
Definition zidx {A} (l : list A) (i : Z) : res A := if (i <? 0) || (Z.of_nat (List.length l) <=? i) then UB else vidx l (Z.to_nat i).
Definition zupd {A} (l : list A) (i : Z) (a : A) : list A := upd l (Z.to_nat i) a.
(** origData->GetEntry(i), OXSXDataSet.cpp:22-32 *)
Definition s_get (s : src) (i : nat) : res (list Qc) :=
  match nth_error (sEvs s) i with Some e => Ok e | None => Throw NotFoundError end.
(** 221-222, 265-266, 347-348: apply the cuts and keep the event *)
Definition g_keep (cs : list cut) (s : src) (out : dset) (i : nat) : res dset :=
  do e <- s_get s i;
  do b <- passesCuts cs (mkEvent e (Some (sNames s)));
  if b then (do e' <- s_get s i; match ds_add 0 out e' with (o, Ok _) => Ok o | (_, Throw x) => Throw x
             | (_, UB) => UB | (_, NonFinite) => NonFinite | (_, Diverge) => Diverge end)
  else Ok out.
(** 189-195, 242-248, 316-323 *)
Definition g_start (n : nat) (sl : slot) : slot :=
  match fst sl with [] => (seq 0 n, w64 (Z.of_nat n - 1)) | _ => sl end.
(** 211-212, 258-259, 335-336 *)
Definition g_max (sl : slot) : Z := if snd sl =? m999 then w64 (Z.of_nat (List.length (fst sl)) - 1) else snd sl.
(** 216-218, 342-344: swap the entries draw and max *)
Definition g_swap (idx : list nat) (draw max : Z) : res (list nat) :=
  do cache <- zidx idx draw; do m <- zidx idx max; Ok (zupd (zupd idx draw m) max cache).

(** 206-226: one round of RandomDrawsNoReplacement with random number u.  An exception from the cuts or from AddEntry
    leaves the slot swapped but max not decremented. *)
Definition norep_step (cs : list cut) (s : src) (u : Qc) (sl : slot) (out : dset) : slot * res dset :=
  let max := g_max sl in
  let draw := w64 (rShoot (s32 max) u) in
  match g_swap (fst sl) draw max with
  | Ok idx =>
      match (do e <- zidx idx max; g_keep cs s out e) with
      | Ok o => ((idx, w64 (max - 1)), Ok o)
      | r => ((idx, max), r)
      end
  | Throw e => (sl, Throw e) | UB => (sl, UB) | NonFinite => (sl, NonFinite) | Diverge => (sl, Diverge)
  end.
(** 330-352: one round of SequentialDrawsNoReplacement *)
Definition seq_step (cs : list cut) (s : src) (sl : slot) (out : dset) : slot * res dset :=
  let max := g_max sl in
  match g_swap (fst sl) 0 max with
  | Ok idx =>
      match (do e <- zidx idx 0; g_keep cs s out e) with
      | Ok o => ((idx, w64 (max - 1)), Ok o)
      | r => ((idx, max), r)
      end
  | Throw e => (sl, Throw e) | UB => (sl, UB) | NonFinite => (sl, NonFinite) | Diverge => (sl, Diverge)
  end.
(** 253-267: one round of RandomDrawsWithReplacement *)
Definition rep_step (cs : list cut) (s : src) (u : Qc) (sl : slot) (out : dset) : slot * res dset :=
  let max := g_max sl in
  let draw := w64 (rShoot (s32 max) u) in
  ((fst sl, max), do e <- zidx (fst sl) draw; g_keep cs s out e).
(** the loops: rounds j, j+1, ... (n of them) *)
Fixpoint g_rounds (step : nat -> slot -> dset -> slot * res dset) (n j : nat) (sl : slot) (out : dset) : slot * res dset :=
  match n with
  | O => (sl, Ok out)
  | S n' => match step j sl out with
            | (sl', Ok o) => g_rounds step n' (S j) sl' o
            | r => r
            end
  end.
(** 179-229 RandomDrawsNoReplacement; u j is the value of Rndm() in round j *)
Definition draw_norep (cs : list cut) (s : src) (n : Z) (u : nat -> Qc) (sl : slot) (out : dset) : slot * res dset :=
  let sl1 := g_start (List.length (sEvs s)) sl in
  if Z.of_nat (List.length (sEvs s)) <? n then (sl1, Throw NotFoundError)
  else g_rounds (fun j => norep_step cs s (u j)) (Z.to_nat n) 0 sl1 out.
(** 301-355 SequentialDrawsNoReplacement *)
Definition draw_seq (cs : list cut) (s : src) (n : Z) (sl : slot) (out : dset) : slot * res dset :=
  if Z.of_nat (List.length (sEvs s)) <? n then (sl, Throw NotFoundError)
  else match sEvs s with
       | [] => (sl, Throw NotFoundError)
       | _ => g_rounds (fun _ => seq_step cs s) (Z.to_nat n) 0 (g_start (List.length (sEvs s)) sl) out
       end.
(** 231-270 RandomDrawsWithReplacement *)
Definition draw_rep (cs : list cut) (s : src) (n : Z) (u : nat -> Qc) (sl : slot) (out : dset) : slot * res dset :=
  match sEvs s with
  | [] => (sl, Throw NotFoundError)
  | _ => g_rounds (fun j => rep_step cs s (u j)) (Z.to_nat n) 0 (g_start (List.length (sEvs s)) sl) out
  end.

(** 58-73, 106-123: choose the way of drawing for data set i *)
Definition g_draw (g : gen) (i : nat) (s : src) (n : Z) (u : nat -> Qc) (sl : slot) (out : dset) : slot * res dset :=
  match gBoot g with
  | [] => (sl, Throw NotFoundError)
  | _ =>
    match vat (gBoot g) i with
    | Ok true => draw_rep (gCuts g) s n u sl out
    | Ok false =>
        match gSeq g with
        | [] => (sl, Throw NotFoundError)
        | _ => match vat (gSeq g) i with
               | Ok true => draw_seq (gCuts g) s n sl out
               | Ok false => draw_norep (gCuts g) s n u sl out
               | Throw e => (sl, Throw e) | UB => (sl, UB) | NonFinite => (sl, NonFinite) | Diverge => (sl, Diverge)
               end
        end
    | Throw e => (sl, Throw e) | UB => (sl, UB) | NonFinite => (sl, NonFinite) | Diverge => (sl, Diverge)
    end
  end.
(** 56: unsigned = round(double); a value outside unsigned is undefined *)
Definition qround (q : Qc) : Z := if qltb q 0%Qc then - qtrunc (- q + qhalf)%Qc else qtrunc (q + qhalf)%Qc.
Definition g_round (q : Qc) : res Z := let k := qround q in if (k <? 0) || (2 ^ 32 <=? k) then UB else Ok k.
(** the loop over the data sets, 54-76 and 102-127; [count i] is computed inside the loop *)
Fixpoint g_loop (g : gen) (count : nat -> res Z) (u : nat -> nat -> Qc) (i : nat) (sets : list src) (slots : list slot) (out : dset)
  (taken : list Z) : list slot * res (dset * list Z) :=
  match sets, slots with
  | [], _ => (slots, Ok (out, taken))
  | s :: sets', sl :: slots' =>
      match count i with
      | Ok n =>
          match g_draw g i s n (u i) sl out with
          | (sl', Ok o) => let (r, x) := g_loop g count u (S i) sets' slots' o (taken ++ [s32 n]) in (sl' :: r, x)
          | (sl', Throw e) => (sl' :: slots', Throw e)
          | (sl', UB) => (sl' :: slots', UB)
          | (sl', NonFinite) => (sl' :: slots', NonFinite)
          | (sl', Diverge) => (sl' :: slots', Diverge)
          end
      | Throw e => (sl :: slots', Throw e) | UB => (sl :: slots', UB) | NonFinite => (sl :: slots', NonFinite) | Diverge => (sl :: slots', Diverge)
      end
  | _ :: _, [] => (slots, UB)
  end.
Definition g_withSlots (g : gen) (l : list slot) : gen := mkGen (gSeq g) (gSets g) (gRates g) l (gBoot g) (gCuts g).
Definition g_generate (g : gen) (count : nat -> res Z) (u : nat -> nat -> Qc) : gen * res (dset * list Z) :=
  if negb (Nat.eqb (List.length (gRates g)) (List.length (gSets g))) then (g, Throw LogicError)
  else match gSets g with
       | [] => (g, Throw LogicError)
       | s0 :: _ => let (r, x) := g_loop g count u 0 (gSets g) (gSlots g) (ds_setNames ds_new (sNames s0)) [] in (g_withSlots g r, x)
       end.
(** 37-79 ExpectedRatesDataSet and 81-129 PoissonFluctuatedDataSet; [pois i] is what Rand::Poisson returns for set i.
    The second component of the result is what eventsTaken_ receives. *)
Definition g_expected (g : gen) (u : nat -> nat -> Qc) : gen * res (dset * list Z) :=
  g_generate g (fun i => do r <- vat (gRates g) i; g_round r) u.
Definition g_poisson (g : gen) (pois : nat -> nat) (u : nat -> nat -> Qc) : gen * res (dset * list Z) :=
  g_generate g (fun i => do r <- vat (gRates g) i; Ok (Z.of_nat (pois i))) u.

(** 131-155 AllValidEvents (the cuts are not applied) *)
Definition g_addTo (out : dset) (e : list Qc) : res dset :=
  match ds_add 0 out e with (o, Ok _) => Ok o | (_, Throw x) => Throw x | (_, UB) => UB | (_, NonFinite) => NonFinite | (_, Diverge) => Diverge end.
Definition g_allValid (g : gen) : res (dset * list Z) :=
  match gSets g with
  | [] => Throw std_out_of_range
  | s0 :: _ => do o <- foldM (fun o s => foldM g_addTo (sEvs s) o) (gSets g) (ds_setNames ds_new (sNames s0));
               Ok (o, map (fun s => s32 (Z.of_nat (List.length (sEvs s)))) (gSets g))
  end.
(** 386-394: rounds jEV = j, j+1, ..., nEvents over the remaining index entries *)
Fixpoint rem_loop (s : src) (idx : list nat) (j nEvents : Z) (out : dset) : res dset :=
  if nEvents <? j then Ok out
  else match idx with
       | [] => Throw std_out_of_range
       | e :: t => do x <- s_get s e; do o <- g_addTo out x; rem_loop s t (j + 1) nEvents o
       end.
(** 368-398 AllRemainingEvents: the data set returned and the final value of *eventsTaken_ *)
Definition g_remaining (g : gen) (i : nat) : res dset * Z :=
  match vat (gSets g) i, vat (gSlots g) i with
  | Ok s, Ok (idx, max) =>
      let n := if max =? m999 then w64 (Z.of_nat (List.length (sEvs s)) - 1) else max in
      let out := ds_setNames ds_new (sNames s) in
      if n =? w64 (-1) then (Ok out, 0)
      else match rem_loop s idx 0 n out with
           | Ok o => (Ok o, s32 n)
           | r => (r, 0)
           end
  | _, _ => (Throw std_out_of_range, 0)
  end.
