(** Model of /repo/src/optimise/GridSearch.{h,cpp}.
    The statistic is a function [f] from parameter values to the outcome of SetParameters + Evaluate (the statistic's own
    behaviour is modelled elsewhere).  Simplifications: doubles are exact rationals; progress printing and the unsigned
    counters used only for it are dropped; a loop that does not end is cut off by [fuel] and then gives Diverge.
    The list of points evaluated is returned with the result. *)
From Coq Require Import ZArith.
From Verif Require Import Base.Res Base.Num Base.SMap Model.Axis Model.Hist Model.Rand.
Local Open Scope Qc_scope.
Local Open Scope res_scope.

(** GridSearch.h:37-47, the settings *)
Record grid := mkGrid { grMin : smap Qc; grMax : smap Qc; grStep : smap Qc; grMaximise : bool }.
(** std::map operator== *)
Fixpoint dict_eqb (a b : smap Qc) : bool :=
  match a, b with
  | [], [] => true
  | (k, x) :: a', (k', y) :: b' => String.eqb k k' && qeqb x y && dict_eqb a' b'
  | _, _ => false
  end.
Fixpoint keys_eqb (a b : list string) : bool :=
  match a, b with
  | [], [] => true
  | x :: a', y :: b' => String.eqb x y && keys_eqb a' b'
  | _, _ => false
  end.
(** ContainerTools.hpp:102-106 *)
Definition hasSameKeys {A B} (a : smap A) (b : smap B) : bool := keys_eqb (skeys a) (skeys b).

(** GridSearch.cpp:123-150 Increment: [rest] are the keys from it_ on, [it] and [last] the positions of it_ and end_ *)
Fixpoint gInc (g : grid) (rest : list string) (it last : Z) (vals : smap Qc) : res (bool * smap Qc) :=
  match rest with
  | [] => UB
  | k :: rest' =>
      if dict_eqb (grMin g) (grMax g) then Ok (false, vals)
      else
        do s <- sat k (grStep g);
        do mx <- sat k (grMax g);
        let v := match sfind k vals with Some x => x | None => Q2Qc 0 end + s in
        if qltb mx v then
          do mn <- sat k (grMin g);
          if (it =? last)%Z then Ok (false, sset k mn vals)
          else gInc g rest' (it + 1)%Z (last - 1)%Z (sset k mn vals)
        else Ok (true, sset k v vals)
  end.

(** GridSearch.cpp:73-81: static_cast<size_t>((max - min) / step); inf, nan and values outside the type are undefined *)
Definition gCount (g : grid) (kv : string * Qc) : res Z :=
  let mx := match sfind (fst kv) (grMax g) with Some x => x | None => Q2Qc 0 end in
  let st := match sfind (fst kv) (grStep g) with Some x => x | None => Q2Qc 0 end in
  if qeqb st 0 then UB
  else let c := qtrunc ((mx - snd kv) / st) in if (c <? 0)%Z || (2 ^ 64 <=? c)%Z then UB else Ok c.

Record gres := mkGres { grBest : smap Qc; grVal : Qc; grSeen : list (smap Qc) }.
(** GridSearch.cpp:96-121 *)
Fixpoint gLoop (g : grid) (f : smap Qc -> res Qc) (fuel : nat) (vals : smap Qc) (r : gres) : res gres :=
  match fuel with
  | 0%nat => Diverge
  | S fuel' =>
      do p <- gInc g (skeys (grStep g)) 0 (Z.of_nat (List.length (grStep g))) vals;
      if fst p then
        do e <- f (snd p);
        let v := if grMaximise g then e * - (1) else e in
        let seen := grSeen r ++ [snd p] in
        gLoop g f fuel' (snd p)
          (if qltb v (grVal r) || qeqb (grVal r) 0 then mkGres (snd p) v seen else mkGres (grBest r) (grVal r) seen)
      else Ok r
  end.
(** GridSearch.cpp:47-121 Optimise *)
Definition gOptimise (g : grid) (f : smap Qc -> res Qc) (fuel : nat) : res gres :=
  if negb (hasSameKeys (grStep g) (grMax g)) || negb (hasSameKeys (grStep g) (grMin g)) then Throw LogicError
  else do _ <- mapM (gCount g) (grMin g); gLoop g f fuel (grMin g) (mkGres sempty 0 []).
