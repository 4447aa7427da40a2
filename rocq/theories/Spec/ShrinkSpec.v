(** Independent vocabulary for the buffer/shrinking property (C29). *)
From Coq Require Import ZArith.
From Verif Require Import Base.Res Base.Num Base.SMap Model.Axis Model.Event Model.Hist Model.ED Model.Shrink
  Spec.AxisSpec Spec.HistSpec.
Local Open Scope Qc_scope.

(** configuration calls a user makes on a new shrinker, in any order and number *)
Inductive shop := SBuf (n : string) (lo up : Z) | SOver (b : bool).
Definition sh_do (s : shrinker) (o : shop) : shrinker :=
  match o with SBuf n lo up => sh_setBuffer s n lo up | SOver b => sh_setOver s b end.
Definition configured (ops : list shop) : shrinker := fold_left sh_do ops sh_new.
(** what the calls ask for: the last buffer given for an axis (none: 0,0), the last overflow flag *)
Fixpoint wanted (ops : list shop) (n : string) (cur : Z * Z) : Z * Z :=
  match ops with
  | [] => cur
  | SBuf m lo up :: t => wanted t n (if String.eqb m n then (lo, up) else cur)
  | SOver _ :: t => wanted t n cur
  end.
Fixpoint over_wanted (ops : list shop) (cur : bool) : bool :=
  match ops with [] => cur | SBuf _ _ _ :: t => over_wanted t cur | SOver b :: t => over_wanted t b end.
Definition some_buffer (ops : list shop) : Prop := exists n lo up, In (SBuf n lo up) ops.
(** the sizes are values of type unsigned *)
Definition unsigned_sizes (ops : list shop) : Prop :=
  forall n lo up, In (SBuf n lo up) ops -> (0 <= lo < 2 ^ 32 /\ 0 <= up < 2 ^ 32)%Z.

Definition lower (ops : list shop) (a : axis) : nat := Z.to_nat (fst (wanted ops (aName a) (0, 0)%Z)).
Definition upper (ops : list shop) (a : axis) : nat := Z.to_nat (snd (wanted ops (aName a) (0, 0)%Z)).

(** a' is a with the first lo and the last up bins removed *)
Definition trimmed (lo up : nat) (a a' : axis) : Prop :=
  aName a' = aName a /\ aNBins a = (lo + aNBins a' + up)%nat /\ (0 < aNBins a')%nat /\
  forall i, (i < aNBins a')%nat -> lo_of a' i = lo_of a (lo + i) /\ hi_of a' i = hi_of a (lo + i).

(** nearest kept bin of bin i of an axis with lo removed low bins and n kept bins *)
Definition nearest (lo n i : nat) : nat := if Nat.ltb i lo then 0%nat else Nat.min (i - lo) (n - 1).
Fixpoint nearests (los ns idx : list nat) : list nat :=
  match los, ns, idx with
  | lo :: los', n :: ns', i :: idx' => nearest lo n i :: nearests los' ns' idx'
  | _, _, _ => []
  end.
(** the old index tuple of a new one *)
Fixpoint old_index (los idx : list nat) : list nat :=
  match los, idx with lo :: los', i :: idx' => (lo + i)%nat :: old_index los' idx' | _, _ => [] end.
