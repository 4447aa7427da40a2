(** Model of /repo/src/data/ROOTNtuple.{h,cpp} and ROOTTree.{h,cpp}.
    Simplifications: ROOT itself is modelled by what its documentation says: a file is unreadable (a zombie) or holds objects by name; a tree has
    branches in order, each with leaves in order, and every leaf a value for every entry (the first element of an array leaf, as TLeaf::GetValue()
    returns); a TNtuple is a tree whose branches have one leaf each; TTree::GetLeaf(n) finds the first leaf of the tree called n or branch.leaf = n
    (names with '/' and friend trees are left out).  Values are exact rationals.  The names an event points to are kept by value (see Model/Event.v). *)
From Coq Require Import ZArith.
From Verif Require Import Base.Res Base.Num Base.SMap Model.Axis Model.Event.
Local Open Scope res_scope.

Record leaf := mkLeaf { lfName : string; lfVal : Z -> Qc }.
Record branch := mkBranch { brName : string; brLeaves : list leaf }.
Record ttree := mkTree { trEntries : Z; trBranches : list branch }.
Inductive robj := RNtuple (t : ttree) | RTree (t : ttree) | ROther.
(** None: missing or zombie *)
Definition rfile := option (smap robj).
(** ROOTNtuple.h:32, 38-39 and ROOTTree.h:34-35, 41-42: what a data set holds; leaves are NULL when not found *)
Record rntuple := mkRN { rnTree : ttree; rnNames : list string }.
Record rtree := mkRT { rtTree : ttree; rtNames : list string; rtLeaves : list (option leaf) }.
(** conversion of a Long64_t or Int_t to unsigned *)
Definition u32r (z : Z) : Z := Z.modulo z (2 ^ 32).
(** ROOTNtuple.cpp:83-93 GetNEntries, GetNObservables; ROOTTree.cpp:100-110 *)
Definition tr_entries (t : ttree) : Z := u32r (trEntries t).
Definition tr_nobs (t : ttree) : nat := List.length (trBranches t).
(** ROOTNtuple.cpp:60-67 GatherObservableNames: At(i) of the branch list *)
Definition rn_gather (t : ttree) : res (list string) :=
  foldM (fun ns i => match nth_error (trBranches t) i with Some b => Ok (ns ++ [brName b]) | None => UB end) (seq 0 (tr_nobs t)) [].
(** ROOTNtuple.cpp:8-26 constructor; a TTree that is no TNtuple fails the dynamic_cast *)
Definition rn_open (f : rfile) (tree : string) : res rntuple :=
  match f with
  | None => Throw IOError
  | Some d => match sfind tree d with
              | Some (RNtuple t) => do ns <- rn_gather t; Ok (mkRN t ns)
              | _ => Throw IOError
              end
  end.
(** TNtuple::GetArgs after GetEntry(i): the value of each column *)
Definition args (t : ttree) (i : Z) : list Qc := flat_map (fun b => map (fun l => lfVal l i) (firstn 1 (brLeaves b))) (trBranches t).
(** ROOTNtuple.cpp:41-58 GetEntry; the first GetNObservables floats are read *)
Definition rn_get (d : rntuple) (i : Z) : res event :=
  if Z.leb (tr_entries (rnTree d)) i then Throw NotFoundError
  else let a := args (rnTree d) i in
       if Nat.ltb (List.length a) (tr_nobs (rnTree d)) then UB
       else Ok (ev_setNames (mk_event (firstn (tr_nobs (rnTree d)) a)) (rnNames d)).

(** TTree::GetLeaf *)
Fixpoint findLeaf (br : string) (ls : list leaf) (n : string) : option leaf :=
  match ls with
  | [] => None
  | l :: t => if (String.eqb (lfName l) n || String.eqb (br ++ "." ++ lfName l) n)%bool then Some l else findLeaf br t n
  end.
Fixpoint getLeaf (bs : list branch) (n : string) : option leaf :=
  match bs with
  | [] => None
  | b :: t => match findLeaf (brName b) (brLeaves b) n with Some l => Some l | None => getLeaf t n end
  end.
(** ROOTTree.cpp:71-84 GatherObservableNames *)
Definition rt_gather (t : ttree) : res (list string * list (option leaf)) :=
  foldM (fun s i => match nth_error (trBranches t) i with
                    | Some b => Ok (fst s ++ [brName b], snd s ++ [getLeaf (trBranches t) (brName b)])
                    | None => UB
                    end) (seq 0 (tr_nobs t)) ([], []).
(** ROOTTree.cpp:9-27 constructor; a TNtuple is a TTree *)
Definition rt_open (f : rfile) (tree : string) : res rtree :=
  match f with
  | None => Throw IOError
  | Some d => match sfind tree d with
              | Some (RNtuple t) | Some (RTree t) => do s <- rt_gather t; Ok (mkRT t (fst s) (snd s))
              | _ => Throw IOError
              end
  end.
(** ROOTTree.cpp:42-69 GetEntry: a NULL leaf is dereferenced *)
Definition rt_get (d : rtree) (i : Z) : res event :=
  if Z.leb (tr_entries (rtTree d)) i then Throw NotFoundError
  else do vs <- mapM (fun l => match l with Some l => Ok (lfVal l i) | None => UB end) (rtLeaves d);
       Ok (ev_setNames (mk_event vs) (rtNames d)).
