(** Model of the saved chain of MCMCSamples: /repo/src/optimise/MCMCSamples.cpp:18-26, 106-126, 152-166, 184-188, and of
    AutoCorrelationCalc::Var (/repo/src/optimise/AutoCorrelationCalc.cpp:43-49).
    parvals is a vector of size 0 whose storage is only reserved (line 115); its elements are addressed (123) and written (158)
    through operator[].  [usable] says whether an implementation lets reserved storage be used that way; for the standard it is
    undefined.  Simplifications: the tree is the list of its rows, a row the values of its branches in order; StepTime is left out;
    fChain is None until it is set. *)
From Coq Require Import ZArith.
From Verif Require Import Base.Res Base.Num Base.SMap Model.Axis Model.Hist Model.HistTools Model.Shrink Model.MCMC.
Local Open Scope Qc_scope.
Local Open Scope res_scope.

(** the branches LogL, Accepted, Step, and those of the parameters *)
Record chainrow := mkRw { chLogL : Qc; chAcc : bool; chStep : nat; chVals : list Qc }.
(** MCMCSamples.h:79-88: fSaveChain, parvals, fChain with the names of its parameter branches *)
Record schain := mkSc { scS : samples; scOn : bool; scVals : list Qc; scBranches : list string; scRows : option (list chainrow) }.
(** MCMCSamples.h:14-19 and MCMCSamples.cpp:18-26 *)
Definition sc_new (s : samples) : schain := mkSc s false [] [] None.
Definition sc_setSave (c : schain) (b : bool) : schain := mkSc (scS c) b (scVals c) (scBranches c) (scRows c).

(** MCMCSamples.cpp:120-122: the first '-' (character 45) becomes '_' (95) *)
Fixpoint branch_name (n : string) : string :=
  match n with
  | EmptyString => EmptyString
  | String a t => if Ascii.eqb a (Ascii.ascii_of_nat 45) then String (Ascii.ascii_of_nat 95) t else String a (branch_name t)
  end.
(** std::vector::operator[] on reserved storage *)
Definition vwrite (usable : bool) (l : list Qc) (i : nat) (v : Qc) : res (list Qc) :=
  if usable && Nat.ltb i (List.length l) then Ok (upd l i v) else UB.
(** MCMCSamples.cpp:106-126 *)
Definition scInit (usable : bool) (minima : smap Qc) (c : schain) (s1 : samples) : res schain :=
  if scOn c then
    let n := List.length minima in
    let vals := scVals c ++ repeat 0 (n - List.length (scVals c)) in
    if usable || Nat.eqb n 0 then Ok (mkSc s1 true vals (map branch_name (skeys minima)) (Some []))
    else UB
  else Ok (mkSc s1 false (scVals c) (scBranches c) (scRows c)).
(** MCMCSamples.cpp:131-169 Fill; the samples without the chain are sFill *)
Definition scFill (usable : bool) (guess : nat -> nat -> nat) (minima maxima : smap Qc) (maxIter : nat)
    (c : schain) (p : smap Qc) (v : Qc) (accepted : bool) : res schain :=
  do c1 <- (if sInit (scS c) then Ok c
            else do s1 <- initHists guess minima maxima maxIter (scS c); scInit usable minima c s1);
  do s2 <- sFill guess minima maxima maxIter (scS c1) p v accepted;
  if scOn c1 then
    do w <- foldM (fun (acc : list Qc * nat) kv => do l <- vwrite usable (fst acc) (snd acc) (snd kv); Ok (l, S (snd acc))) p (scVals c1, 0%nat);
    match scRows c1 with
    | None => UB
    | Some rows =>
        Ok (mkSc s2 true (fst w) (scBranches c1)
              (Some (rows ++ [mkRw v accepted (sTot (scS c1)) (firstn (List.length (scBranches c1)) (fst w))])))
    end
  else Ok (mkSc s2 false (scVals c1) (scBranches c1) (scRows c1)).
(** MCMCSamples.cpp:219-229 Clear *)
Definition scClear (c : schain) : schain := mkSc (sClear (scS c)) (scOn c) (scVals c) (scBranches c) (scRows c).

(** conversion of a double to int: towards zero; out of range is undefined *)
Definition to_int (q : Qc) : res Z :=
  let z := Z.quot (Qnum (this q)) (Zpos (Qden (this q))) in
  if Z.leb (-2147483648) z && Z.leb z 2147483647 then Ok z else UB.
(** AutoCorrelationCalc.cpp:43-49 Var: the accumulator of std::inner_product has the type of its initial value, int *)
Definition cVar (c : acalc) : res Qc :=
  do m <- cMean (cValues c);
  do s <- foldM (fun acc v => to_int (qz acc + v * v)) (cValues c) 0%Z;
  Ok (qz s - m * m).
