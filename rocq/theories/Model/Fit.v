(** Model of /repo/src/optimise/GridSearch.cpp driving a live BinnedNLLH: the statistic is the object of Model/NLLH.v, with its own state,
    and not a function of the parameters as in Model/Grid.v.
    Simplifications: as in Model/Grid.v and Model/NLLH.v; a value that is not finite ends the search as NonFinite. *)
From Coq Require Import ZArith Reals.
From Verif Require Import Base.Res Base.Num Base.RNum Base.SMap Model.Axis Model.Event Model.Hist Model.ED Model.Param Model.EDMan Model.NLLH Model.Grid.
Local Open Scope res_scope.

(** running on with a value, or stopping with the state reached *)
Definition fbind {A B} (s : nllh) (x : res A) (k : A -> nllh * res B) : nllh * res B :=
  match x with Ok a => k a | Throw e => (s, Throw e) | UB => (s, UB) | NonFinite => (s, NonFinite) | Diverge => (s, Diverge) end.
Record fres := mkFres { fBest : smap Qc; fVal : R; fSeen : list (smap Qc) }.
(** GridSearch.cpp:103-104 SetParameters, Evaluate *)
Definition fit_value (s : nllh) (p : smap Qc) : nllh * res R :=
  match nl_setParams s p with
  | (s1, Ok _) => nl_eval s1
  | (s1, Throw e) => (s1, Throw e)
  | (s1, UB) => (s1, UB) | (s1, NonFinite) => (s1, NonFinite) | (s1, Diverge) => (s1, Diverge)
  end.
(** GridSearch.cpp:106-114: the sign, and the comparison with the best value so far (0 means there is none yet) *)
Definition fbetter (mx : bool) (p : smap Qc) (e : R) (r : fres) : fres :=
  let v := if mx then (e * - (1))%R else e in
  let take := if Rlt_dec v (fVal r) then true else if Req_EM_T (fVal r) 0 then true else false in
  let seen := fSeen r ++ [p] in
  if take then mkFres p v seen else mkFres (fBest r) (fVal r) seen.
(** GridSearch.cpp:91-115 *)
Fixpoint fLoop (g : grid) (fuel : nat) (s : nllh) (vals : smap Qc) (r : fres) : nllh * res fres :=
  match fuel with
  | 0%nat => (s, Diverge)
  | S fuel' =>
      fbind s (gInc g (skeys (grStep g)) 0 (Z.of_nat (List.length (grStep g))) vals) (fun p =>
      if fst p then
        match fit_value s (snd p) with
        | (s1, e) => fbind s1 e (fun x => fLoop g fuel' s1 (snd p) (fbetter (grMaximise g) (snd p) x r))
        end
      else (s, Ok r))
  end.
(** GridSearch.cpp:47-119 Optimise *)
Definition fOptimise (g : grid) (s : nllh) (fuel : nat) : nllh * res fres :=
  let s0 := nl_register s in
  fbind s0 (nl_getParams s0) (fun _ =>
  if negb (hasSameKeys (grStep g) (grMax g)) || negb (hasSameKeys (grStep g) (grMin g)) then (s0, Throw LogicError)
  else fbind s0 (mapM (gCount g) (grMin g)) (fun _ => fLoop g fuel s0 (grMin g) (mkFres sempty 0 []))).
