(** Independent vocabulary for the systematics (C22-C26, C63). *)
From Verif Require Import Base.Res Base.Num Model.Axis Model.Event Model.Matrix Model.Syst Spec.AxisSpec.
Local Open Scope Qc_scope.

(** length of the intersection of the intervals [a,b] and [c,d] *)
Definition overlap (a b c d : Qc) : Qc := qmax 0 (qmin b d - qmax a c).

(** two index tuples differ at most in position ax *)
Definition agree_off (ax : nat) (I J : list nat) : Prop := forall k, k <> ax -> nth k I 0%nat = nth k J 0%nat.

(** bins touch and none is empty *)
Definition fine (a : axis) : Prop :=
  contiguous a /\ forall i, (i < aNBins a)%nat -> lo_of a i < hi_of a i.

(** a Shift/Scale/ScaleFunction on which SetTransformationObs({tn}), SetDistributionObs(dn) and SetAxes(ac)
    were called *)
Definition w_cfg (k : wkind) (ac : axcol) (dn : list string) (tn : string) : warp :=
  w_onB (w_onB (w_onB (w_new k) (fun b => sb_setTrans b (mk_obsset [tn])))
               (fun b => sb_setDist b (mk_obsset dn)))
        (fun b => sb_setAxes b ac).

(** tn is observable number ax of the distribution and a is the axis at that position *)
Definition targets (ac : axcol) (dn : list string) (tn : string) (ax : nat) (a : axis) : Prop :=
  ac_reach ac /\ NoDup dn /\ nth_error dn ax = Some tn /\ nth_error (acAxes ac) ax = Some a.

(** entry (i,j) of the response of a systematic *)
Definition resp (b : sbase) (i j : nat) : Qc := sF (sbResp b) i j.
(** the response is an n by n matrix, consistently *)
Definition square (m : smat) (n : nat) : Prop := sNR m = n /\ sNC m = n /\ sR m = n /\ sC m = n.

Definition nshape (ac : axcol) : list nat := map aNBins (acAxes ac).

(** fraction of the interval [x,y] that lies inside the axis range *)
Definition frac_inside (a : axis) (x y : Qc) : Qc := overlap x y (aMin a) (aMax a) / (y - x).

(** the transformed observables tns sit at positions rel of the distribution's observables, whose axes are axs *)
Definition selects (ac : axcol) (dn tns : list string) (rel : list nat) (axs : list axis) : Prop :=
  ac_reach ac /\ NoDup dn /\ NoDup tns /\ tns <> [] /\
  Forall2 (fun t r => nth_error dn r = Some t) tns rel /\
  Forall2 (fun r a => nth_error (acAxes ac) r = Some a) rel axs.

(** the part of an index tuple at the given positions *)
Definition at_pos (rel : list nat) (J : list nat) : list nat := map (fun r => nth r J 0%nat) rel.

(** centre, low and high corner of the box with the given per-axis indices *)
Definition ctr_of (a : axis) (i : nat) : Qc := nth i (aCentre a) 0.
Definition centres (axs : list axis) (t : list nat) : list Qc := map (fun p => ctr_of (fst p) (snd p)) (combine axs t).
Definition lows (axs : list axis) (t : list nat) : list Qc := map (fun p => lo_of (fst p) (snd p)) (combine axs t).
Definition highs (axs : list axis) (t : list nat) : list Qc := map (fun p => hi_of (fst p) (snd p)) (combine axs t).

(** a Shape / Convolution after SetTransformationObs(tns), SetDistributionObs(dn), SetAxes(ac) *)
Definition base_cfg (ac : axcol) (dn tns : list string) : sbase :=
  sb_setAxes (sb_setDist (sb_setTrans sb_new (mk_obsset tns)) (mk_obsset dn)) ac.
Definition sh_cfg (f : list Qc -> Qc) (ac : axcol) (dn tns : list string) : shape :=
  sh_onB (sh_onB (sh_onB (sh_setFun sh_new f) (fun b => sb_setTrans b (mk_obsset tns))) (fun b => sb_setDist b (mk_obsset dn))) (fun b => sb_setAxes b ac).
Definition cv_cfg (k : kernel) (ac : axcol) (dn tns : list string) : conv :=
  cv_onB (cv_onB (cv_onB (cv_setDist cv_new k) (fun b => sb_setTrans b (mk_obsset tns))) (fun b => sb_setDist b (mk_obsset dn))) (fun b => sb_setAxes b ac).

(** tuples that agree on every axis not in rel *)
Definition agree_outside (rel : list nat) (I J : list nat) : Prop :=
  forall k, ~ In k rel -> nth k I 0%nat = nth k J 0%nat.
(** the transformed observables are listed in the order of the axes *)
Definition ascending (rel : list nat) : Prop := forall i j, (i < j < List.length rel)%nat -> (nth i rel 0 < nth j rel 0)%nat.

(** number of entries of the lower triangle of an n by n matrix *)
Definition tri (n : nat) : nat := Nat.div (n * (n + 1)) 2.

(** calls a user can make after configuring: new parameter values (or functions) and Construct *)
Inductive wop := WSet (k : wkind) | WConstruct.
Definition wstep (w : warp) (o : wop) : warp :=
  match o with WSet k => w_setKind w k | WConstruct => fst (w_construct w) end.
Definition wrun (w : warp) (l : list wop) : warp := fold_left wstep l w.
Inductive shop := ShFun (f : list Qc -> Qc) | ShConstruct.
Definition shstep (s : shape) (o : shop) : shape :=
  match o with ShFun f => sh_setFun s f | ShConstruct => fst (sh_construct s) end.
Definition shrun (s : shape) (l : list shop) : shape := fold_left shstep l s.
Inductive cvop := CvDist (k : kernel) | CvConstruct.
Definition cvstep (c : conv) (o : cvop) : conv :=
  match o with CvDist k => cv_setDist c k | CvConstruct => fst (cv_construct c) end.
Definition cvrun (c : conv) (l : list cvop) : conv := fold_left cvstep l c.
