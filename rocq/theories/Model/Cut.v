(** Model of /repo/src/cut/*. *)
From Coq Require Import ZArith.
From Verif Require Import Base.Res Base.Num Model.Event.
Local Open Scope res_scope.

(** BoxCut.h:27-31, LineCut.h:30-34, BoolCut.h:16-20 (the unused fDim dropped).  A Cut* in a
    collection is one of these clones. *)
Inductive cut :=
| BoxCut (name obs : string) (lower upper : Qc)
| LineCut (name obs : string) (val : Qc) (side : string)
| BoolCut (name obs : string) (val : Qc).

(** LineCut.cpp:46-52 SetSidedness, LineCut.cpp:5-12 constructor *)
Definition mk_line (name obs : string) (val : Qc) (side : string) : res cut :=
  if String.eqb side "upper" || String.eqb side "lower" then Ok (LineCut name obs val side)
  else Throw ValueError.

(** GetName *)
Definition cutName (c : cut) : string :=
  match c with BoxCut n _ _ _ => n | LineCut n _ _ _ => n | BoolCut n _ _ => n end.

(** BoxCut.cpp:4-17, LineCut.cpp:19-35, BoolCut.cpp:5-18 PassesCut.  The catch of NotFoundError
    rethrows NotFoundError. *)
Definition passesCut (c : cut) (e : event) : res bool :=
  match c with
  | BoxCut _ obs lo hi => do v <- getDatum e obs; Ok (qltb v hi && qltb lo v)
  | LineCut _ obs x side => do v <- getDatum e obs; Ok (if String.eqb side "lower" then qltb x v else qltb v x)
  | BoolCut _ obs x => do v <- getDatum e obs; Ok (qeqb v x)
  end.

(** CutCollection.cpp:8-14 *)
Fixpoint passesCuts (cs : list cut) (e : event) : res bool :=
  match cs with
  | [] => Ok true
  | c :: t => do b <- passesCut c e; if negb b then Ok false else passesCuts t e
  end.

(** CutLog.h:27-34.  int is Z (no overflow). *)
Record cutlog := mkLog {
  lCounts : list Z; lRem : list Z; lCutPct : list Qc; lRemPct : list Qc; lNames : list string; lN : Z }.
(** CutLog.h:9-10 *)
Definition mk_log (names : list string) : cutlog :=
  mkLog (repeat 0%Z (List.length names)) [] [] [] names 0.
(** CutLog.cpp:31-34 *)
Definition logPass (l : cutlog) : cutlog :=
  mkLog (lCounts l) (lRem l) (lCutPct l) (lRemPct l) (lNames l) (lN l + 1).
(** CutLog.cpp:36-42; the log is unchanged when it throws *)
Definition logCut (l : cutlog) (i : nat) : cutlog * res unit :=
  match nth_error (lCounts l) i with
  | Some k => (mkLog (upd (lCounts l) i (k + 1)%Z) (lRem l) (lCutPct l) (lRemPct l) (lNames l) (lN l + 1), Ok tt)
  | None => (l, Throw NotFoundError)
  end.
(** CutCollection.cpp:16-26 PassesCuts(event, log): [i] is the loop counter *)
Fixpoint passesCutsLogFrom (cs : list cut) (i : nat) (e : event) (l : cutlog) : cutlog * res bool :=
  match cs with
  | [] => (logPass l, Ok true)
  | c :: t =>
      match passesCut c e with
      | Ok true => passesCutsLogFrom t (S i) e l
      | Ok false => match logCut l i with (l', r) => (l', do u <- r; Ok false) end
      | Throw x => (l, Throw x) | UB => (l, UB) | NonFinite => (l, NonFinite) | Diverge => (l, Diverge)
      end
  end.
Definition passesCutsLog (cs : list cut) (e : event) (l : cutlog) : cutlog * res bool := passesCutsLogFrom cs 0 e l.

(** CutLog.cpp:8-29 CalculateMeta, the loop over the counts; [rem] is numRemaining.
    With no events logged the percentages are 0/0: NonFinite. *)
Fixpoint metaLoop (n rem : Z) (counts : list Z) : res (list (Z * Qc * Qc)) :=
  match counts with
  | [] => Ok []
  | c :: t =>
      let rem' := (rem - c)%Z in
      if Z.eqb n 0 then NonFinite
      else do r <- metaLoop n rem' t; Ok ((rem', (qz c * qz 100 / qz n)%Qc, (qz rem' * qz 100 / qz n)%Qc) :: r)
  end.
Definition calculateMeta (l : cutlog) : res cutlog :=
  do r <- metaLoop (lN l) (lN l) (lCounts l);
  Ok (mkLog (lCounts l) (map (fun x => fst (fst x)) r) (map (fun x => snd (fst x)) r) (map snd r) (lNames l) (lN l)).
