(** Independent vocabulary for C56, C57. *)
From Coq Require Import ZArith.
From Verif Require Import Base.Res Base.Num Base.SMap Model.Axis Model.Event Model.Hist Model.ED Model.Comp Spec.AxisSpec Spec.HistSpec Spec.FillSpec.
Local Open Scope Qc_scope.
(** product of numbers *)
Definition product (l : list Qc) : Qc := fold_right Qcmult 1 l.
(** a bed whose histogram a user can hold *)
Definition bed_ok (b : bed) : Prop := h_reach (bdHist b).
(** distributions a user can build, whose binned parts have a non-zero total: AnalyticED's norm is 1 after every call of its interface *)
Inductive dist_ok : dist -> Prop :=
| ok_bin b : bed_ok b -> total (bdHist b) <> 0 -> dist_ok (DBin b)
| ok_ana a : anNorm a = 1 -> dist_ok (DAna a)
| ok_comp n l : (forall d, In d l -> dist_ok d) -> dist_ok (DComp n l).
(** the event has the observables the bed reads, one per axis, and they fall into bin i *)
Definition falls (b : bed) (e : event) (i : nat) : Prop :=
  exists vals, values (osNames (bdObs b)) e vals /\ List.length vals = hNDims (bdHist b) /\ h_findBin (bdHist b) vals = Ok i.
(** contents of the bins before b *)
Definition before (h : hist) (b : nat) : Qc := qsum (map (cont h) (seq 0 b)).
(** bin b is where the cumulative distribution reaches u *)
Definition reaches (h : hist) (u : Qc) (b : nat) : Prop := (b < hNBins h)%nat /\ before h b < u * total h /\ u * total h <= before h (S b).
(** a pdf one can draw from *)
Definition drawable (b : bed) : Prop := bed_ok b /\ (forall i, 0 <= cont (bdHist b) i) /\ 0 < total (bdHist b).
(** which pdf and random number each draw uses: pdfs in order, each as many times as its count, random numbers in order *)
Fixpoint draws (bs : list bed) (counts : list nat) (us : nat -> Qc) (k : nat) : list (bed * Qc) :=
  match bs, counts with
  | b :: bs', c :: cs' => map (fun j => (b, us j)) (seq k c) ++ draws bs' cs' us (k + c)
  | _, _ => []
  end.
