(** Model of /repo/src/config/ini.hpp (Parser) and ConfigLoader.cpp/.hh/.hpp.
    Simplifications: characters and lines are lists of bytes; conversion of a value to a number (istringstream >>) is in Model/Conv.v;
    Parser::dump is not modelled; a Level's parent pointer is the place it has in the tree (see [cursor] below). *)
From Coq Require Import ZArith Ascii.
From Verif Require Import Base.Res Base.SMap.
Local Open Scope res_scope.

Definition chars := list ascii.
(** std::string::substr(pos, count): pos beyond the end throws; a negative count is converted to a size_t larger than any
    string (strings are shorter than 2^63) and so, like any count that is too large, means the rest *)
Definition substr (s : chars) (pos : nat) (count : Z) : res chars :=
  if Nat.ltb (List.length s) pos then Throw std_out_of_range
  else if (count <? 0)%Z then Ok (skipn pos s)
  else Ok (firstn (Z.to_nat count) (skipn pos s)).
(** strchr(" \t\r\n", c) is not NULL: also for the terminating NUL *)
Definition blank (c : ascii) : bool := existsb (Ascii.eqb c) [" "%char; "009"%char; "013"%char; "010"%char; "000"%char].
(** ini.hpp:93-95: advance from the left while blank *)
Fixpoint firstNonBlank (s : chars) : nat := match s with [] => O | c :: t => if blank c then S (firstNonBlank t) else O end.
(** ini.hpp:96-98: go back from the right while blank; -1 when none is left *)
Definition lastNonBlank (s : chars) : Z := (Z.of_nat (List.length s) - 1 - Z.of_nat (firstNonBlank (rev s)))%Z.
(** ini.hpp:88-100 trim *)
Definition trim (s : chars) : res chars :=
  let sp := firstNonBlank s in
  let ep := lastNonBlank s in
  substr s sp (ep - Z.of_nat sp + 1).

(** ini.hpp:40-59 Level *)
Inductive level := mkLevel (values : smap string) (sections : smap level) (ordered_values ordered_sections : list string) (depth : nat) (hasParent : bool).
Definition lVals (l : level) := match l with mkLevel v _ _ _ _ _ => v end.
Definition lSecs (l : level) := match l with mkLevel _ s _ _ _ _ => s end.
Definition lDepth (l : level) := match l with mkLevel _ _ _ _ d _ => d end.
Definition lParent (l : level) := match l with mkLevel _ _ _ _ _ p => p end.
Definition newLevel : level := mkLevel sempty sempty [] [] 0 false.
(** a Level* into the tree: the section names on the way down from top_; its parent is one name shorter *)
Definition cursor := list string.
Fixpoint deref (p : cursor) (top : level) : option level :=
  match p with [] => Some top | n :: q => match sfind n (lSecs top) with Some c => deref q c | None => None end end.
Definition putSec (n : string) (c : level) (l : level) : level :=
  match l with mkLevel v s ov os d p => mkLevel v (sset n c s) ov os d p end.
Fixpoint assign (p : cursor) (f : level -> level) (top : level) : level :=
  match p with
  | [] => f top
  | n :: q => match sfind n (lSecs top) with Some c => putSec n (assign q f c) top | None => top end
  end.
(** lp->parent, NULL for the top level *)
Definition parentOf (p : cursor) : res cursor := match p with [] => UB | _ => Ok (removelast p) end.
Fixpoint climb (n : nat) (p : cursor) : res cursor := match n with O => Ok p | S m => do q <- parentOf p; climb m q end.

(** ini.hpp:110-119 parseSLine *)
Fixpoint countOpen (s : chars) : nat := match s with [] => O | c :: t => if Ascii.eqb c "[" then S (countOpen t) else O end.
Definition parseSLine (line : chars) : res (string * nat) :=
  let depth := countOpen line in
  do n <- substr line depth (Z.of_nat (List.length line) - 2 * Z.of_nat depth);
  Ok (string_of_list_ascii n, depth).
(** ini.hpp:131-161 a section heading read while filling the level at [cur] *)
Definition parseSection (top : level) (cur : cursor) (line : chars) : res (level * cursor) :=
  match deref cur top with
  | None => UB
  | Some l =>
      do sd <- parseSLine line;
      let sname := fst sd in let depth := snd sd in
      if Nat.ltb (lDepth l + 1) depth then Throw std_runtime_error
      else
        do parent <- (if Nat.eqb (lDepth l) (depth - 1) then Ok cur
                      else do q <- parentOf cur; climb (lDepth l - depth) q);
        match deref parent top with
        | None => UB
        | Some pl =>
            let lp := match sfind sname (lSecs pl) with Some c => c | None => newLevel end in (* sections[sname] *)
            if negb (Nat.eqb (lDepth lp) 0) then Throw std_runtime_error
            else
              let lp' := if lParent lp then lp else match lp with mkLevel v s ov os _ _ => mkLevel v s ov os depth true end in
              let pl' := match putSec sname lp' pl with mkLevel v s ov os d p => mkLevel v s ov (os ++ [sname]) d p end in
              Ok (assign parent (fun _ => pl') top, parent ++ [sname])
        end
  end.
(** line_.find('=') *)
Fixpoint findEq (s : chars) : option nat := match s with [] => None | c :: t => if Ascii.eqb c "=" then Some O else option_map S (findEq t) end.
(** ini.hpp:163-174 a key=value line; std::map::insert does not overwrite *)
Definition parseValue (top : level) (cur : cursor) (line : chars) : res (level * cursor) :=
  match deref cur top with
  | None => UB
  | Some l =>
      match findEq line with
      | None => Throw std_runtime_error
      | Some n =>
          do k0 <- substr line 0 (Z.of_nat n); do k <- trim k0;
          do v0 <- substr line (n + 1) (Z.of_nat (List.length line) - Z.of_nat n - 1); do v <- trim v0;
          let k := string_of_list_ascii k in let v := string_of_list_ascii v in
          match sfind k (lVals l) with
          | Some _ => Throw std_runtime_error
          | None => Ok (assign cur (fun l => match l with mkLevel vs s ov os d p => mkLevel (sset k v vs) s (ov ++ [k]) os d p end) top, cur)
          end
      end
  end.
(** ini.hpp:124-130: one turn of the loop *)
Definition parseLine (st : level * cursor) (line : chars) : res (level * cursor) :=
  let '(top, cur) := st in
  match line with
  | c :: _ => if Ascii.eqb c "#" || Ascii.eqb c ";" then Ok st
              else do t <- trim line;
                   match t with
                   | [] => Ok st
                   | c :: _ => if Ascii.eqb c "[" then parseSection top cur t else parseValue top cur t
                   end
  | [] => Ok st
  end.
(** ini.hpp:121-177 parse: the call parse( *lp) at the end of a heading reads all lines that are left, after which every
    enclosing call finds the end of the file; so the nest of calls is one loop with a current level *)
Definition parseLines (lines : list chars) : res level :=
  do st <- foldM parseLine lines (newLevel, []); Ok (fst st).
(** std::getline until the end: the last line need not be terminated *)
Fixpoint getlines (delim : ascii) (s : chars) (acc : chars) : list chars :=
  match s with
  | [] => match acc with [] => [] | _ => [rev acc] end
  | c :: t => if Ascii.eqb c delim then rev acc :: getlines delim t [] else getlines delim t (c :: acc)
  end.
(** ini.hpp:63 Parser(std::istream&) *)
Definition parseText (s : chars) : res level := parseLines (getlines "010" s []).

(** ConfigLoader.cpp:6: the static fParser: NULL, a live parser, or a pointer to a deleted one *)
Inductive loader := Null | Live (top : level) | Dangling.
(** ConfigLoader.cpp:15-25 Open: [file] is None when it cannot be opened *)
Definition cOpen (file : option chars) (st : loader) : loader * res unit :=
  match file with
  | None => (st, Throw IOError)
  | Some text =>
      match st with
      | Dangling => (Dangling, UB)                     (* delete of a deleted pointer *)
      | _ => match parseText text with
             | Ok top => (Live top, Ok tt)
             | Throw e => (match st with Null => Null | _ => Dangling end, Throw e)
             | UB => (st, UB) | NonFinite => (st, NonFinite) | Diverge => (st, Diverge)
             end
      end
  end.
(** ConfigLoader.cpp:27-31 Close *)
Definition cClose (st : loader) : loader * res unit := match st with Dangling => (Dangling, UB) | _ => (Null, Ok tt) end.
(** ConfigLoader.cpp:42-50 CheckExists and 8-13 Load into a string *)
Definition cLoad (section field : string) (st : loader) : res string :=
  match st with
  | Live top =>
      match sfind section (lSecs top) with
      | None => Throw ConfigSectionMissing
      | Some l => match sfind field (lVals l) with None => Throw ConfigFieldMissing | Some v => Ok v end
      end
  | _ => UB
  end.
(** ContainerTools.hpp:150-162 Split *)
Definition split (delim : ascii) (s : chars) : list chars := filter (fun x => match x with [] => false | _ => true end) (getlines delim s []).
(** ConfigLoader.hpp:13-18, 33-41 Load into a container of strings: items are appended *)
Definition cLoadList (section field : string) (old : list string) (st : loader) : res (list string) :=
  do v <- cLoad section field st;
  Ok (old ++ map string_of_list_ascii (split "," (list_ascii_of_string v))).
(** ConfigLoader.cpp:33-40 ListSections *)
Definition cListSections (st : loader) : res (list string) :=
  match st with Null => Ok [] | Live top => Ok (skeys (lSecs top)) | Dangling => UB end.
