(** Model of /repo/src/eventSystematic (EventShift, EventScale, EventReconvolution),
    /repo/src/fitutil/EventSystematicManager.cpp and /repo/src/dist/DistFiller.cpp.
    Simplifications: a data set is the list of its events (names as in Model/Event.v); EventSystematic*
    pointers are modelled by value, in order; EventConvolution (random sampling) is left out; progress
    printing is dropped. *)
From Coq Require Import ZArith.
From Verif Require Import Base.Res Base.Num Base.SMap Model.Axis Model.Event Model.Hist Model.Cut Model.ED Model.Shrink.
Local Open Scope Qc_scope.
Local Open Scope res_scope.

(** EventShift.h, EventScale.h, EventReconvolution.h: kind, input and output observables, value, name of
    the parameter *)
Inductive eskind := KShift | KScale | KRecon.
Record evsys := mkEs { esKind : eskind; esIn : obsset; esOut : obsset; esVal : Qc; esPar : string }.
(** EventShift.h:10, EventScale.h:10, EventReconvolution.h:10 constructors *)
Definition es_new (k : eskind) : evsys :=
  mkEs k (mk_obsset []) (mk_obsset [])
       (match k with KShift => 0 | _ => 1 end)
       (match k with KShift => "shift" | KScale => "scale" | KRecon => "correction" end)%string.
(** EventSystematic.cpp:3-6, 14-17 *)
Definition es_setIn (s : evsys) (l : list string) : evsys := mkEs (esKind s) (mk_obsset l) (esOut s) (esVal s) (esPar s).
Definition es_setOut (s : evsys) (l : list string) : evsys := mkEs (esKind s) (esIn s) (mk_obsset l) (esVal s) (esPar s).
Definition es_withVal (s : evsys) (v : Qc) : evsys := mkEs (esKind s) (esIn s) (esOut s) v (esPar s).
(** EventShift.cpp:22-25 SetShift, EventScale.cpp:22-27 SetScale, EventReconvolution.cpp:29-34 SetCorrection *)
Definition es_setVal (s : evsys) (v : Qc) : evsys * res unit :=
  match esKind s with
  | KShift => (es_withVal s v, Ok tt)
  | KScale => if qleb v 0 then (s, Throw ValueError) else (es_withVal s v, Ok tt)
  | KRecon => if qltb v 0 then (s, Throw ValueError) else (es_withVal s v, Ok tt)
  end.
(** EventShift.cpp:34-39, EventScale.cpp:36-41, EventReconvolution.cpp:38-43 SetParameter *)
Definition es_setPar (s : evsys) (n : string) (v : Qc) : evsys * res unit :=
  if String.eqb n (esPar s) then (es_withVal s v, Ok tt) else (s, Throw ParameterError).
(** EventShift.cpp:49-59, EventScale.cpp:51-61, EventReconvolution.cpp:53-63 SetParameters *)
Definition es_setPars (s : evsys) (d : smap Qc) : evsys * res unit :=
  match sfind (esPar s) d with Some v => (es_withVal s v, Ok tt) | None => (s, Throw ParameterError) end.
(** GetParameter, GetParameters, RenameParameter *)
Definition es_getPar (s : evsys) (n : string) : res Qc := if String.eqb n (esPar s) then Ok (esVal s) else Throw ParameterError.
Definition es_rename (s : evsys) (o n : string) : evsys * res unit :=
  if String.eqb o (esPar s) then (mkEs (esKind s) (esIn s) (esOut s) (esVal s) n, Ok tt) else (s, Throw ParameterError).

(** EventShift.cpp:9-20, EventScale.cpp:10-20, EventReconvolution.cpp:11-27 operator() *)
Definition es_apply (s : evsys) (e : event) : res event :=
  match esKind s with
  | KShift => do n <- vat (osNames (esOut s)) 0; do v <- getDatum e n; setDatum e n (v + esVal s)
  | KScale => do n <- vat (osNames (esOut s)) 0; do v <- getDatum e n; setDatum e n (v * esVal s)
  | KRecon => do t <- vat (osNames (esIn s)) 0; do n <- vat (osNames (esOut s)) 0;
              do tv <- getDatum e t; do v <- getDatum e n; setDatum e n (tv + esVal s * (v - tv))
  end.
(** EventSystematicManager.cpp:27-36 ApplySystematics *)
Definition esm_apply (ss : list evsys) (e : event) : res event := foldM (fun e s => es_apply s e) ss e.

(** DataSet::GetEntry (OXSXDataSet.cpp, see Model/Data.v) *)
Definition get_entry (data : list event) (i : nat) : res event :=
  match nth_error data i with Some e => Ok e | None => Throw NotFoundError end.
(** BinnedED.cpp:41-51 Fill(Event, weight) *)
Definition dim_to_repr {A} (r : res A) : res A := match r with Throw DimensionError => Throw RepresentationError | _ => r end.
Definition bed_fillEvent (b : bed) (e : event) (w : Qc) : bed * res unit :=
  match (match toObsSet e (bdObs b) with
         | Ok vals => bed_on (fun h => fill h vals w) b
         | Throw x => (b, Throw x) | UB => (b, UB) | NonFinite => (b, NonFinite) | Diverge => (b, Diverge)
         end) with (b', r) => (b', dim_to_repr r) end.
(** DistFiller.cpp:14-15, 33-34: nEv_ is an int, the number of entries is converted to int *)
Definition n_events (data : list event) (nEv : Z) : nat :=
  Z.to_nat (if Z.ltb nEv 0 then s32 (Z.of_nat (List.length data)) else nEv).
(** DistFiller.cpp:9-26 FillDist *)
Definition fill_dist (b : bed) (data : list event) (cs : list cut) (ss : list evsys) (nEv : Z) : bed * res unit :=
  iterS (fun b i =>
           obind b (do e0 <- get_entry data i; esm_apply ss e0) (fun e =>
           obind b (passesCuts cs e) (fun pass =>
           if pass then bed_fillEvent b e 1 else (b, Ok tt))))
        (seq 0 (n_events data nEv)) b.
(** DistFiller.cpp:28-46 FillDist with a CutLog *)
Definition fill_distLog (b : bed) (data : list event) (cs : list cut) (log : cutlog) (ss : list evsys) (nEv : Z)
  : (bed * cutlog) * res unit :=
  iterS (fun st i =>
           obind st (do e0 <- get_entry data i; esm_apply ss e0) (fun e =>
           match passesCutsLog cs e (snd st) with
           | (l, r) => obind (fst st, l) r (fun pass =>
                 if pass then match bed_fillEvent (fst st) e 1 with (b', r') => ((b', l), r') end else ((fst st, l), Ok tt))
           end))
        (seq 0 (n_events data nEv)) (b, log).
