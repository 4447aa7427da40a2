(** Independent vocabulary for the pdf manager properties (C28, C69). *)
From Verif Require Import Base.Res Base.Num Base.SMap Model.Axis Model.Event Model.Hist Model.ED Model.Param Model.EDMan
  Spec.HistSpec Spec.ParamSpec.
Local Open Scope Qc_scope.

(** calls on a pdf manager, in any order *)
Inductive emop :=
| EAdd (b : bed) (st : nfs)
| EAdds (bs : list bed) (sts : option (list nfs))
| ENorms (l : list Qc)
| ESet (n : string) (v : Qc)
| ESets (d : smap Qc)
| EBin (k : nat)
| EReassert (calcing : bool).
Definition emdo (s : edman) (o : emop) : edman :=
  match o with
  | EAdd b st => fst (em_addPdf s b st)
  | EAdds bs sts => fst (em_addPdfs s bs sts)
  | ENorms l => fst (em_setNorms s l)
  | ESet n v => fst (em_set s n v)
  | ESets d => fst (em_setAll s d)
  | EBin k => fst (em_binProb s k)
  | EReassert c => fst (em_reassert c s)
  end.
Definition emrun (s : edman) (ops : list emop) : edman := fold_left emdo ops s.
(** calls that only ask for a probability *)
Definition asks (o : emop) : Prop := match o with EBin _ | EReassert _ => True | _ => False end.

(** the pdfs handed in, with their status (AddPdfs without statuses means INDIRECT; a list of statuses of
    the wrong length is refused) *)
Definition pdfs_by (o : emop) : list (bed * nfs) :=
  match o with
  | EAdd b st => [(b, st)]
  | EAdds bs None => map (fun b => (b, NIndirect)) bs
  | EAdds bs (Some l) => if Nat.eqb (List.length bs) (List.length l) then combine bs l else []
  | _ => []
  end.
Definition pdfs_of (ops : list emop) : list (bed * nfs) := flat_map pdfs_by ops.

(** pdfs whose normalisation is a fit parameter, and the names of those parameters *)
Definition fitted (pdfs : list (bed * nfs)) : list string := map (fun p => bdName (fst p)) (filter (fun p => fittable (snd p)) pdfs).
(** no DIRECT pdf comes after an INDIRECT one *)
Definition direct_first (pdfs : list (bed * nfs)) : Prop :=
  forall i j bi bj, nth_error pdfs i = Some (bi, NIndirect) -> nth_error pdfs j = Some (bj, NDirect) -> (j < i)%nat.
Definition all_direct (pdfs : list (bed * nfs)) : Prop := Forall (fun p => snd p = NDirect) pdfs.

(** the normalisation a pdf should get from the values d *)
Definition norm_in (d : smap Qc) (p : bed * nfs) : Qc :=
  if fittable (snd p) then match sfind (bdName (fst p)) d with Some v => v | None => 0 end else 1.
Definition has_bin (k : nat) (p : bed * nfs) : Prop := h_reach (bdHist (fst p)) /\ (k < hNBins (bdHist (fst p)))%nat.
