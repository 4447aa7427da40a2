(** Model of /repo/src/dist/BinnedED.{h,cpp}: a histogram with a name and the observables it reads.
    Printing a warning is not modelled. *)
From Verif Require Import Base.Res Base.Num Base.SMap Model.Axis Model.Event Model.Hist.
Local Open Scope Qc_scope.
Local Open Scope res_scope.

(** BinnedED.h:79-82 *)
Record bed := mkBed { bdName : string; bdHist : hist; bdObs : obsset }.
(** BinnedED.h:21 default constructor *)
Definition bed0 : bed := mkBed EmptyString hist0 (mk_obsset []).
(** BinnedED.cpp:7-17 the two constructors (no observables set) *)
Definition bed_ofAxes (n : string) (ac : axcol) : bed := mkBed n (mk_hist ac) (mk_obsset []).
Definition bed_ofHist (n : string) (h : hist) : bed := mkBed n h (mk_obsset []).
(** BinnedED.cpp:19-22 SetObservables; 36-39 SetHistogram; 78-81 SetName *)
Definition bed_setObs (b : bed) (l : list string) : bed := mkBed (bdName b) (bdHist b) (mk_obsset l).
Definition bed_setHist (b : bed) (h : hist) : bed := mkBed (bdName b) h (bdObs b).
Definition bed_setName (b : bed) (n : string) : bed := mkBed n (bdHist b) (bdObs b).

(** the forwarded calls (BinnedED.cpp:87-203) act on bdHist: lifted here *)
Definition bed_on (f : hist -> hres unit) (b : bed) : bed * res unit :=
  match f (bdHist b) with (h, o) => (bed_setHist b h, o) end.
Definition bed_ret (r : bed * res unit) : res bed := match r with (b, o) => do u <- o; Ok b end.
(** BinnedED.cpp:200-203 SetBinContents; 124-127 Normalise; 129-132 Scale; 178-181 Empty; 161-164, 156-159 *)
Definition bed_setContents (b : bed) (d : list Qc) : bed * res unit := bed_on (fun h => setBinContents h d) b.
Definition bed_normalise (b : bed) : bed * res unit := bed_on normalise b.
Definition bed_scale (b : bed) (s : Qc) : bed * res unit := bed_on (fun h => scale h s) b.
Definition bed_empty (b : bed) : bed * res unit := bed_on empty_bins b.
Definition bed_addBin (b : bed) (i : nat) (w : Qc) : bed * res unit := bed_on (fun h => addBinContent h i w) b.
