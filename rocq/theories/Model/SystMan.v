(** Model of /repo/src/fitutil/SystematicManager.{h,cpp}.
    Simplifications: a Systematic* is a number; the object it points to is its name, its current response
    matrix and what its Construct() does with the current parameters (new response and outcome), so a
    parameter change is a change of that pair; every pointer handed in is valid; std::set<std::string> is
    a list of the names inserted so far. *)
From Verif Require Import Base.Res Base.Num Base.SMap Model.Axis Model.Event Model.Hist Model.Matrix Model.ED.
Local Open Scope Qc_scope.
Local Open Scope res_scope.

(** Systematic.h:40-43 (GetName, GetResponse, Construct) *)
Record syst := mkSyst { syName : string; syResp : smat; syBuild : smat * res unit }.

(** SystematicManager.h:62-66; fNGroups is uninitialised (None) until the first Add *)
Record sman := mkSman { smObj : nat -> syst; smNGroups : option nat; smTotal : smap smat;
                        smGroups : smap (list nat); smDists : smap (list string) }.
(** SystematicManager.h:22-26 *)
Definition sm_new (obj : nat -> syst) : sman := mkSman obj None sempty [(EmptyString, [])] sempty.
Definition sm_setObj (s : sman) (p : nat) (o : syst) : sman :=
  mkSman (fun q => if Nat.eqb q p then o else smObj s q) (smNGroups s) (smTotal s) (smGroups s) (smDists s).
Definition sm_setGroups (s : sman) (g : smap (list nat)) : sman :=
  mkSman (smObj s) (Some (List.length g)) (smTotal s) g (smDists s).
Definition sm_setTotal (s : sman) (k : string) (m : smat) : sman :=
  mkSman (smObj s) (smNGroups s) (sset k m (smTotal s)) (smGroups s) (smDists s).
Definition sm_names (s : sman) (l : list nat) : list string := map (fun p => syName (smObj s p)) l.
(** fGroups[name]: an unknown name gives an empty vector *)
Definition sm_grp (s : sman) (n : string) : list nat := match sfind n (smGroups s) with Some l => l | None => [] end.

Definition inb (n : string) (l : list string) : bool := existsb (String.eqb n) l.

(** SystematicManager.cpp:75-100 checkAllOtherGroups: the global group first, then the others *)
Definition see (seen : list string) (n : string) : res (list string) :=
  if inb n seen then Throw NotFoundError else Ok (n :: seen).
Definition sm_checkOthers (s : sman) (p : nat) : res unit :=
  do g <- sat EmptyString (smGroups s);
  do s1 <- foldM see (sm_names s g) [syName (smObj s p)];
  do s2 <- foldM (fun seen (kv : string * list nat) =>
                    if String.eqb (fst kv) EmptyString then Ok seen else foldM see (sm_names s (snd kv)) seen)
                 (smGroups s) s1;
  Ok tt.
(** SystematicManager.cpp:68-73 Add(sys) *)
Definition sm_addGlobal (s : sman) (p : nat) : sman * res unit :=
  obind s (sm_checkOthers s p) (fun _ =>
    (sm_setGroups s (sset EmptyString (sm_grp s EmptyString ++ [p]) (smGroups s)), Ok tt)).
(** SystematicManager.cpp:56-66 Add(sys, group) *)
Definition sm_add (s : sman) (p : nat) (g : string) : sman * res unit :=
  if String.eqb g EmptyString then sm_addGlobal s p
  else (sm_setGroups s (sset g (sm_grp s g ++ [p]) (smGroups s)), Ok tt).

(** SystematicManager.cpp:111-117; on a repeat the message reads group.at(i) with the index of the group *)
Definition sm_seeGroup (s : sman) (g : list nat) (i : nat) (seen : list string) : res (list string) :=
  foldM (fun sn n => if inb n sn then do x <- vat g i; Throw NotFoundError else Ok (n :: sn)) (sm_names s g) seen.
(** SystematicManager.cpp:102-132 UniqueSystematics *)
Definition sm_unique (s : sman) (gs : list string) : res unit :=
  do seen <- foldM (fun sn (ig : nat * string) =>
                      match sfind (snd ig) (smGroups s) with
                      | None => Throw NotFoundError
                      | Some g => sm_seeGroup s g (fst ig) sn
                      end) (combine (seq 0 (List.length gs)) gs) [];
  if list_eq_dec string_dec gs [EmptyString] then Ok tt
  else do s2 <- foldM see (sm_names s (sm_grp s EmptyString)) seen; Ok tt.
(** SystematicManager.cpp:134-143 AddDist *)
Definition sm_addDist (s : sman) (name : string) (gs : list string) : sman * res unit :=
  obind s (sm_unique s gs) (fun _ =>
    (mkSman (smObj s) (smNGroups s) (smTotal s) (smGroups s) (sset name gs (smDists s)), Ok tt)).

(** SystematicManager.cpp:265-272 CountNSystematics *)
Definition sm_count (s : sman) : nat := list_sum (map (fun kv => List.length (snd kv)) (smGroups s)).

(** Systematic::Construct on object p *)
Definition sm_construct1 (s : sman) (p : nat) : sman * res unit :=
  let o := smObj s p in
  (sm_setObj s p (mkSyst (syName o) (fst (syBuild o)) (syBuild o)), snd (syBuild o)).
(** SystematicManager.cpp:32-38: the total response of one group.  [holder * resp] evaluates to the
    product and also overwrites the copy [holder] *)
Definition sm_groupResp (s : sman) (g : list nat) : res smat :=
  do p0 <- vat g 0;
  foldM (fun r p => match m_mul (syResp (smObj s p)) r with (m, o) => do u <- o; Ok m end)
        (tl g) (syResp (smObj s p0)).
(** SystematicManager.cpp:9-40 Construct *)
Definition sm_construct (s : sman) : sman * res unit :=
  if Nat.eqb (sm_count s) 0 then (s, Ok tt)
  else
    match iterS (fun s1 (kv : string * list nat) => iterS sm_construct1 (snd kv) s1) (smGroups s) s with
    | (s1, Ok _) =>
        iterS (fun s2 (kv : string * list nat) =>
                 if String.eqb (fst kv) EmptyString && Nat.eqb (List.length (snd kv)) 0 then (s2, Ok tt)
                 else obind s2 (sm_groupResp s2 (snd kv)) (fun m => (sm_setTotal s2 (fst kv) m, Ok tt)))
              (smGroups s) s1
    | r => r
    end.

(** SystematicManager.cpp:42-54 GetTotalResponse *)
Definition sm_total (s : sman) (g : string) : res smat :=
  match sfind g (smTotal s) with Some m => Ok m | None => Throw NotFoundError end.
(** SystematicManager.cpp:162, 178 *)
Definition sm_applyGroup (s : sman) (g : string) (b : bed) : res bed :=
  do m <- sm_total s g;
  do c <- m_apply m (hCont (bdHist b));
  bed_ret (bed_setContents b c).
(** SystematicManager.cpp:157-179: the distorted copy of one registered distribution *)
Definition sm_distort1 (s : sman) (gs : list string) (orig : bed) : res bed :=
  do g0 <- sat EmptyString (smGroups s);
  do b0 <- (if negb (inb EmptyString gs) && negb (Nat.eqb (List.length g0) 0)
            then sm_applyGroup s EmptyString orig else Ok orig);
  foldM (fun b g =>
           if String.eqb g EmptyString && Nat.eqb (List.length g0) 0 then Ok b
           else do l <- sat g (smGroups s);
                if Nat.eqb (List.length l) 0 then Throw LogicError else sm_applyGroup s g b) gs b0.
(** SystematicManager.cpp:145-185 DistortEDs.  [norms] is the optional output vector (None = nullptr);
    writing past its end is undefined.  On failure the result drops the working distributions distorted before it (the code leaves
    them changed); every later evaluation distorts all of them again from the originals, so nothing can see it. *)
Definition sm_distort (s : sman) (origs works : list bed) (norms : option (list Qc))
  : res (list bed * option (list Qc)) :=
  foldM (fun (st : list bed * option (list Qc)) j =>
           do o <- vat origs j;
           match sfind (bdName o) (smDists s) with
           | None => Ok st
           | Some gs =>
               do b <- sm_distort1 s gs o;
               match snd st with
               | None => Ok (upd (fst st) j b, None)
               | Some ns =>
                   do i <- integral (bdHist b);
                   if Nat.ltb j (List.length ns) then Ok (upd (fst st) j b, Some (upd ns j i)) else UB
               end
           end)
        (seq 0 (List.length works)) (works, norms).

(** SystematicManager.cpp:189-200 GetNSystematicsInGroup: find()->second, undefined when unknown *)
Definition sm_nInGroup (s : sman) (g : string) : res nat :=
  match sfind g (smGroups s) with Some l => Ok (List.length l) | None => UB end.
(** SystematicManager.cpp:208-225, 246-257 GetSystematicsNamesInGroup, GetGroup *)
Definition sm_namesIn (s : sman) (g : string) : res (list string) :=
  match sfind g (smGroups s) with Some l => Ok (sm_names s l) | None => Throw NotFoundError end.
(** SystematicManager.cpp:280-284 GetNGroups *)
Definition sm_nGroups (s : sman) : res nat := match smNGroups s with Some n => Ok n | None => UB end.
