(** Model of /repo/src/data/Event.{h,cpp} and ObsSet.{h,cpp}.
    Simplification: the pointer to the observable names held by an event is modelled by value
    (None = NULL); the life time of the pointed-to vector is the subject of Model/Data.v. *)
From Verif Require Import Base.Res Base.Num Base.SMap Model.Axis.
Local Open Scope res_scope.

(** ObsSet.h:35-37 *)
Record obsset := mkObs { osNames : list string; osInv : smap nat }.
(** ObsSet.cpp:21-27 SetNames: on a repeated name the last index wins *)
Definition mk_obsset (names : list string) : obsset :=
  mkObs names (fold_left (fun m ni => sset (fst ni) (snd ni) m) (combine names (seq 0 (List.length names))) sempty).
(** ObsSet.cpp:29-33 GetIndex: map::at *)
Definition os_index (o : obsset) (n : string) : res nat := sat n (osInv o).
(** ObsSet.cpp:41-56 GetRelativeIndices *)
Definition relativeIndices (o other : obsset) : res (list nat) :=
  if Nat.ltb (List.length (osNames other)) (List.length (osNames o)) then Throw RepresentationError
  else mapM (os_index other) (osNames o).

(** Event.h:42-45 *)
Record event := mkEvent { evObs : list Qc; evNames : option (list string) }.
(** Event.cpp:9-14 *)
Definition mk_event (obs : list Qc) : event := mkEvent obs None.
(** Event.cpp:91-94 SetObservableNames *)
Definition ev_setNames (e : event) (ns : list string) : event := mkEvent (evObs e) (Some ns).
(** Event.cpp:28-40 GetDatum(index) *)
Definition getDatumIdx (e : event) (i : nat) : res Qc :=
  match nth_error (evObs e) i with Some v => Ok v | None => Throw NotFoundError end.
(** Event.cpp:42-53 SetDatum(index): operator[] never throws, out of bounds is undefined *)
Definition setDatumIdx (e : event) (i : nat) (v : Qc) : res event :=
  if Nat.ltb i (List.length (evObs e)) then Ok (mkEvent (upd (evObs e) i v) (evNames e)) else UB.
(** Event.cpp:66-76 GetDatum(name): std::find over *fObsNames, undefined when never set *)
Definition getDatum (e : event) (n : string) : res Qc :=
  match evNames e with
  | None => UB
  | Some ns => match index_of n ns with Some i => getDatumIdx e i | None => Throw NotFoundError end
  end.
(** Event.cpp:55-64 SetDatum(name) *)
Definition setDatum (e : event) (n : string) (v : Qc) : res event :=
  match evNames e with
  | None => UB
  | Some ns => match index_of n ns with Some i => setDatumIdx e i v | None => Throw NotFoundError end
  end.
(** Event.cpp:78-89 ToObsSet *)
Definition toObsSet (e : event) (o : obsset) : res (list Qc) := mapM (getDatum e) (osNames o).
(** Event.cpp:96-102 GetObservableNames *)
Definition ev_getNames (e : event) : res (list string) :=
  match evNames e with None => Throw NULLPointerAccessError | Some ns => Ok ns end.
(** Event.cpp:22-26 GetDataMap; CreateMap asserts equal sizes (ContainerTools.hpp:16), modelled as UB
    when they differ (abort, or out-of-bounds reads with NDEBUG) *)
Definition getDataMap (e : event) : res (smap Qc) :=
  do ns <- ev_getNames e;
  if Nat.eqb (List.length ns) (List.length (evObs e)) then Ok (sof (combine ns (evObs e))) else UB.
