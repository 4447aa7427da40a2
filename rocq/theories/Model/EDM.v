(** Model of /repo/src/fitutil/EDManager.{h,cpp}: an un-normalised sum of distributions.
    Simplifications: doubles are exact rationals; fNormalisations is container 0 of the parameter manager's memory; the manager's own name is left out. *)
From Verif Require Import Base.Res Base.Num Base.SMap Model.Axis Model.Event Model.Hist Model.ED Model.Param Model.EDMan Model.Comp.
Local Open Scope Qc_scope.
Local Open Scope res_scope.

(** EDManager.h:40-44 *)
Record xman := mkXm { xmPm : pmgr; xmNDists : nat; xmNDims : nat; xmDists : list dist }.
(** EDManager.cpp:44-48 GetNormalisations; 58-68 GetNDims, GetNDists are the fields *)
Definition xmNorms (s : xman) : list Qc := mCnt (pmMem (xmPm s)) 0%nat.
Definition xm_withPm (s : xman) (p : pmgr) : xman := mkXm p (xmNDists s) (xmNDims s) (xmDists s).
(** EDManager.h:14 constructor *)
Definition xm_new : xman := mkXm (pm_new (mkMem (fun _ => 0) (fun _ => []))) 0 0 [].
(** EDManager.cpp:72-80 RegisterParameters *)
Definition xm_register (s : xman) : xman * res unit :=
  let p := pm_clear (xmPm s) in
  match pm_addContainer p 0%nat (map dname (xmDists s)) with (p', r) => (xm_withPm s p', r) end.
(** EDManager.cpp:12-25 AddDist *)
Definition xm_add (s : xman) (d : dist) : xman * res unit :=
  let s0 := if Nat.eqb (List.length (xmDists s)) 0 then Some (mkXm (xmPm s) (xmNDists s) (dndims d) (xmDists s))
            else if negb (Nat.eqb (dndims d) (xmNDims s)) then None else Some s in
  match s0 with
  | None => (s, Throw DimensionError)
  | Some s1 =>
      let n := S (xmNDists s1) in
      xm_register (mkXm (pm_setC (xmPm s1) 0%nat (vresize (xmNorms s1) n)) n (xmNDims s1) (xmDists s1 ++ [dclone d]))
  end.
(** EDManager.cpp:27-32 AddDists *)
Definition xm_adds (s : xman) (l : list dist) : xman * res unit :=
  match iterS xm_add l s with
  | (s', Ok _) => xm_register s'
  | r => r
  end.
(** EDManager.cpp:34-42 Probability *)
Definition xm_prob (s : xman) (e : event) : res Qc :=
  foldM (fun p i => do n <- vat (xmNorms s) i; do d <- vat (xmDists s) i; do q <- dprob e d; Ok (p + n * q)) (seq 0 (List.length (xmDists s))) 0.
(** EDManager.cpp:50-56 SetNormalisations *)
Definition xm_setNorms (s : xman) (l : list Qc) : xman * res unit :=
  if negb (Nat.eqb (List.length l) (xmNDists s)) then (s, Throw DimensionError)
  else (xm_withPm s (pm_setC (xmPm s) 0%nat l), Ok tt).
(** EDManager.cpp:94-130: the FitComponent interface forwards to the parameter manager *)
Definition xm_fwd (s : xman) (pr : pmgr * res unit) : xman * res unit := (xm_withPm s (fst pr), snd pr).
Definition xm_rename (s : xman) (o n : string) : xman * res unit := xm_fwd s (pm_rename (xmPm s) o n).
Definition xm_set (s : xman) (n : string) (v : Qc) : xman * res unit := xm_fwd s (pm_set (xmPm s) n v).
Definition xm_setAll (s : xman) (d : smap Qc) : xman * res unit := xm_fwd s (pm_setAll (xmPm s) d).
Definition xm_get (s : xman) (n : string) : res Qc := pm_get (xmPm s) n.
Definition xm_getAll (s : xman) : res (smap Qc) := pm_getAll (xmPm s).
Definition xm_names (s : xman) : list string := pm_names (xmPm s).
Definition xm_count (s : xman) : nat := pm_count (xmPm s).
