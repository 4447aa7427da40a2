(** Model of the arithmetic, slices and bin searches of /repo/src/dist/BinnedED.cpp (the rest is in Model/ED.v and Model/Comp.v).
    The warnings printed about different observables are left out. *)
From Verif Require Import Base.Res Base.Num Base.SMap Model.Axis Model.Event Model.Hist Model.ED Model.Param.
Local Open Scope Qc_scope.
Local Open Scope res_scope.

(** a ValueError of the histogram is thrown again as a ValueError *)
Definition bo_on (f : hist -> hres unit) (b : bed) : bed * res unit := bed_on f b.
(** BinnedED.cpp:272-284 Add, 286-298 Multiply, 300-312 Divide *)
Definition bed_add (b o : bed) (w : Qc) : bed * res unit := bo_on (fun h => h_add h (bdHist o) w) b.
Definition bed_multiply (b o : bed) : bed * res unit := bo_on (fun h => h_multiply h (bdHist o)) b.
Definition bed_divide (b o : bed) : bed * res unit := bo_on (fun h => h_divide h (bdHist o)) b.
(** BinnedED.cpp:314-317 AddPadding *)
Definition bed_padding (b : bed) (p : Qc) : bed := bed_setHist b (addPadding (bdHist b) p).
(** BinnedED.cpp:53-64 FindBin of an event; a DimensionError, wherever it comes from, becomes a RepresentationError *)
Definition bed_findBin (b : bed) (e : event) : res nat :=
  match (do vals <- toObsSet e (bdObs b); h_findBin (bdHist b) vals) with
  | Throw DimensionError => Throw RepresentationError
  | r => r
  end.
(** BinnedED.cpp:205-215 Means, Variances *)
Definition bed_means (b : bed) : res (list Qc) := means (bdHist b).
Definition bed_variances (b : bed) : res (list Qc) := variances (bdHist b).
(** BinnedED.cpp:246-264: the axes left free, and the name of the slice *)
Definition sliceObs (axNames : list string) (fixed : smap nat) : list string := filter (fun n => negb (shas n fixed)) axNames.
Definition sliceName (name : string) (axNames : list string) (fixed : smap nat) : string :=
  (fold_left (fun s n => match sfind n fixed with Some b => s ++ "_" ++ n ++ dec b | None => s end) axNames name ++ "_slice")%string.
(** BinnedED.cpp:242-270 GetSlice *)
Definition bed_slice (b : bed) (fixed : smap nat) : res bed :=
  let axNames := acNames (hAxes (bdHist b)) in
  do h <- getSlice (bdHist b) fixed;
  Ok (bed_setObs (bed_ofHist (sliceName (bdName b) axNames fixed) h) (sliceObs axNames fixed)).
