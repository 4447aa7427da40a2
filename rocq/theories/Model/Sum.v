(** Model of /repo/src/teststat/StatisticSum.cpp and .h.
    A StatisticSum holds raw pointers to the statistics it adds, so the objects live in a heap from addresses
    to objects: a sum is (its pointers, its ConstraintManager), anything else is a leaf of some type T with the
    operations of a TestStatistic (TestStatistic.h:71-78).  Values are exact reals; an inf/nan value is NonFinite.
    Pointer chains that never end (a sum added to itself) recurse for ever: [fuel] counts the nesting and
    0 is Diverge. *)
From Coq Require Import Reals.
From Verif Require Import Base.Res Base.Num Base.RNum Base.SMap Model.Constraint Model.NLLH.
Local Open Scope nat_scope.
Local Open Scope res_scope.

(** TestStatistic.h:71-78: the virtual functions of a statistic with state T *)
Record tsops (T : Type) := mkTs {
  lEval : T -> T * res R;
  lSet : T -> smap Qc -> T * res unit;
  lGet : T -> res (smap Qc);
  lReg : T -> T * res unit }.
Arguments lEval {T}. Arguments lSet {T}. Arguments lGet {T}. Arguments lReg {T}.

(** StatisticSum.h:30 fStats and TestStatistic.h:82 fConstraintManager *)
Inductive tobj (T : Type) := TLeaf (x : T) | TSum (stats : list nat) (cons : cman).
Arguments TLeaf {T}. Arguments TSum {T}.
(** an address with nothing in it is a dangling pointer *)
Definition theap (T : Type) := nat -> option (tobj T).
Definition tput {T} (h : theap T) (p : nat) (o : tobj T) : theap T := fun q => if Nat.eqb q p then Some o else h q.

(** the two running totals: an inf or nan summand makes the total NonFinite, but a later summand can still throw *)
Definition tplus (x y : res R) : res R :=
  match x, y with Ok a, Ok b => Ok (a + b)%R | _, _ => NonFinite end.

(** StatisticSum.cpp:26-36 GetParameters; map::insert of a range keeps what is there *)
Definition dmerge (acc d : smap Qc) : smap Qc := fold_left (fun m kv => sinsert (fst kv) (snd kv) m) d acc.
Fixpoint ts_get {T} (o : tsops T) (fuel : nat) (h : theap T) (p : nat) : res (smap Qc) :=
  match fuel with
  | 0 => Diverge
  | S f => match h p with
           | None => UB
           | Some (TLeaf x) => lGet o x
           | Some (TSum l _) => foldM (fun acc q => do d <- ts_get o f h q; Ok (dmerge acc d)) l sempty
           end
  end.
(** StatisticSum.cpp:38-42 GetParameterNames and 55-60 GetParameterCount of a sum *)
Definition ts_names {T} (o : tsops T) fuel (h : theap T) p : res (list string) := rmap skeys (ts_get o fuel h p).
Definition ts_count {T} (o : tsops T) fuel (h : theap T) p : res nat := rmap (fun d => List.length d) (ts_get o fuel h p).

(** StatisticSum.cpp:20-24 SetParameters and 44-48 RegisterFitComponents: the same loop over the components *)
Fixpoint ts_each {T} (f : T -> T * res unit) (fuel : nat) (h : theap T) (p : nat) : theap T * res unit :=
  match fuel with
  | 0 => (h, Diverge)
  | S g => match h p with
           | None => (h, UB)
           | Some (TLeaf x) => let (x', r) := f x in (tput h p (TLeaf x'), r)
           | Some (TSum l _) => iterS (ts_each f g) l h
           end
  end.
Definition ts_set {T} (o : tsops T) fuel (h : theap T) p (d : smap Qc) := ts_each (fun x => lSet o x d) fuel h p.
Definition ts_reg {T} (o : tsops T) fuel (h : theap T) p := ts_each (lReg o) fuel h p.

(** StatisticSum.cpp:10-18 Evaluate.  The loop 14-15: *)
Fixpoint ts_loop {T} (ev : theap T -> nat -> theap T * res R) (l : list nat) (h : theap T) (acc : res R)
  : theap T * res (res R) :=
  match l with
  | [] => (h, Ok acc)
  | q :: t => match ev h q with
              | (h', Ok v) => ts_loop ev t h' (tplus acc (Ok v))
              | (h', NonFinite) => ts_loop ev t h' NonFinite
              | (h', Throw e) => (h', Throw e) | (h', UB) => (h', UB) | (h', Diverge) => (h', Diverge)
              end
  end.
(** 16-17: line 16 asks the components for their parameters after all of them have been evaluated *)
Definition ts_constr (c : cman) (d : res (smap Qc)) (acc : res R) : res R :=
  do d' <- d;
  match cman_eval c d' with
  | Ok v => tplus acc (Ok (qr v))
  | NonFinite => NonFinite
  | Throw e => Throw e | UB => UB | Diverge => Diverge
  end.
Fixpoint ts_eval {T} (o : tsops T) (fuel : nat) (h : theap T) (p : nat) : theap T * res R :=
  match fuel with
  | 0 => (h, Diverge)
  | S f => match h p with
           | None => (h, UB)
           | Some (TLeaf x) => let (x', r) := lEval o x in (tput h p (TLeaf x'), r)
           | Some (TSum l c) =>
               match ts_loop (ts_eval o f) l h (Ok 0%R) with
               | (h', Ok acc) => (h', ts_constr c (ts_get o fuel h' p) acc)
               | (h', Throw e) => (h', Throw e)
               | (h', UB) => (h', UB) | (h', NonFinite) => (h', NonFinite) | (h', Diverge) => (h', Diverge)
               end
           end
  end.

(** StatisticSum.cpp:4-8, 50-53: the constructor and AddStat on a sum object (AddStat of a leaf does not typecheck) *)
Definition sum_two {T} (p q : nat) : tobj T := TSum [p; q] cman_new.
Definition sum_add {T} (s : tobj T) (q : nat) : tobj T :=
  match s with TSum l c => TSum (l ++ [q]) c | TLeaf x => TLeaf x end.
(** StatisticSum.cpp:64-67 operator+(TestStatistic&, TestStatistic&): also chosen by overload resolution for
    statistic + sum, because the overload at 76-79 is not declared in StatisticSum.h:33-35 *)
Definition op_plus {T} (p q : nat) : tobj T := sum_two p q.
(** StatisticSum.cpp:69-74 operator+(StatisticSum&, TestStatistic&): a copy of the sum object at p, constraints
    included, with q appended *)
Definition op_plus_sum {T} (s : tobj T) (q : nat) : tobj T := sum_add s q.
(** StatisticSum.cpp:80-86 *)
Definition op_sum {T} (l : list nat) : tobj T := fold_left sum_add l (TSum [] cman_new).

(** the binned likelihood as a statistic: BinnedNLLH.cpp:12-124, TestStatistic.cpp SetParameters/GetParameters, BinnedNLLH RegisterFitComponents *)
Definition nl_tsops : tsops nllh := mkTs nllh nl_eval nl_setParams nl_getParams (fun s => (nl_register s, Ok tt)).
