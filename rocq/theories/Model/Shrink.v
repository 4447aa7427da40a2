(** Model of /repo/src/fitutil/BinnedEDShrinker.{h,cpp}.
    Simplifications: doubles are exact rationals; size_t is nat; the 32-bit arithmetic of the buffer sizes
    (unsigned) and of the shifted index (int, wrapping conversion) is kept; fBinVec holds int, here nat
    (the same below 2^31 bins). *)
From Coq Require Import ZArith.
From Verif Require Import Base.Res Base.Num Base.SMap Model.Axis Model.Event Model.Hist Model.ED.
Local Open Scope Qc_scope.
Local Open Scope res_scope.

(** unsigned and int arithmetic *)
Definition u32 (z : Z) : Z := Z.modulo z (2 ^ 32).
Definition s32 (z : Z) : Z := (Z.modulo (z + 2 ^ 31) (2 ^ 32) - 2 ^ 31)%Z.

(** BinnedEDShrinker.h:34-38 *)
Record shrinker := mkShr { shBuf : smap (Z * Z); shBin : list nat; shUse : list bool; shOver : bool; shAxes : axcol }.
(** BinnedEDShrinker.cpp:5-8 *)
Definition sh_new : shrinker := mkShr sempty [] [] false ac_empty.
(** BinnedEDShrinker.cpp:10-13 SetBuffer (both sizes are converted to unsigned) *)
Definition sh_setBuffer (s : shrinker) (n : string) (lo up : Z) : shrinker :=
  mkShr (sset n (u32 lo, u32 up) (shBuf s)) (shBin s) (shUse s) (shOver s) (shAxes s).
(** BinnedEDShrinker.cpp:15-26 GetBuffer *)
Definition sh_getBuffer (s : shrinker) (n : string) : res (Z * Z) :=
  match sfind n (shBuf s) with Some p => Ok p | None => Throw NotFoundError end.
(** BinnedEDShrinker.cpp:166-174 SetUsingOverflows *)
Definition sh_setOver (s : shrinker) (b : bool) : shrinker :=
  mkShr (shBuf s) (shBin s) (shUse s) b (shAxes s).

(** BinnedEDShrinker.cpp:34-62 ShrinkAxis.  The test at 42 adds in 32 bits; a larger true sum makes
    newBinCount (49) wrap to nearly 2^64, and std::vector's constructor throws std::length_error *)
Definition sh_axis (a : axis) (lo up : Z) : res axis :=
  if (Z.eqb lo 0 && Z.eqb up 0)%bool then Ok a
  else if Z.leb (Z.of_nat (aNBins a)) (u32 (lo + up)) then Throw ValueError
  else if Z.ltb (Z.of_nat (aNBins a)) (lo + up) then Throw std_logic_error
  else
    let n := Z.to_nat (Z.of_nat (aNBins a) - up - lo) in
    do low <- mapM (fun i => binLow a (Z.to_nat lo + i)) (seq 0 n);
    do high <- mapM (fun i => binHigh a (Z.to_nat lo + i)) (seq 0 n);
    mk_var (aName a) low high (aLatex a).

(** BinnedEDShrinker.cpp:77-86: append the axes, shrunk if they have a buffer *)
Definition sh_addAxis (s : shrinker) (a : axis) : shrinker * res unit :=
  obind s (match sfind (aName a) (shBuf s) with
           | None => Ok a
           | Some p => sh_axis a (fst p) (snd p)
           end) (fun a' =>
  obind s (addAxis (shAxes s) a') (fun ac =>
    (mkShr (shBuf s) (shBin s) (shUse s) (shOver s) ac, Ok tt))).

(** BinnedEDShrinker.cpp:101-124: index of old bin i along dimension j in the shrunk axis, and whether it
    fell outside *)
Definition sh_dim (s : shrinker) (axes : axcol) (i j : nat) : res (nat * bool) :=
  do a <- getAxis axes j;
  do x <- unflatten axes i j;
  let off := match sfind (aName a) (shBuf s) with
             | Some p => s32 (s32 (Z.of_nat x) - fst p)
             | None => s32 (Z.of_nat x)
             end in
  do na <- getAxis (shAxes s) j;
  let under := Z.ltb off 0 in
  let off1 := if under then 0%Z else off in
  let over := Z.leb (Z.of_nat (aNBins na)) off1 in
  Ok ((if over then aNBins na - 1 else Z.to_nat off1)%nat, (under || over)%bool).

(** BinnedEDShrinker.cpp:97-130: one bin of the old distribution *)
Definition sh_mapBin (axes : axcol) (nd : nat) (s : shrinker) (i : nat) : shrinker * res unit :=
  let s1 := mkShr (shBuf s) (shBin s) (shUse s ++ [true]) (shOver s) (shAxes s) in
  obind s1
    (foldM (fun (st : list nat * list bool) j =>
              do p <- sh_dim s axes i j;
              if (snd p && negb (shOver s))%bool
              then if Nat.ltb i (List.length (snd st)) then Ok (fst st ++ [fst p], upd (snd st) i false)
                   else Throw std_out_of_range
              else Ok (fst st ++ [fst p], snd st))
           (seq 0 nd) ([], shUse s1)) (fun st =>
  let s2 := mkShr (shBuf s) (shBin s) (snd st) (shOver s) (shAxes s) in
  obind s2 (flatten (shAxes s) (fst st)) (fun b =>
    (mkShr (shBuf s) (shBin s ++ [b]) (snd st) (shOver s) (shAxes s), Ok tt))).

(** BinnedEDShrinker.cpp:64-131 SetBinMap.  Called again on the same object it appends to the axes of the
    first call *)
Definition sh_setBinMap (s : shrinker) (b : bed) : shrinker * res unit :=
  match shBuf s with
  | [] => (s, Ok tt)
  | _ =>
      match iterS sh_addAxis (acAxes (hAxes (bdHist b))) s with
      | (s1, Ok _) =>
          iterS (sh_mapBin (hAxes (bdHist b)) (hNDims (bdHist b))) (seq 0 (hNBins (bdHist b))) s1
      | r => r
      end
  end.

(** BinnedEDShrinker.cpp:133-164 ShrinkDist *)
Definition sh_shrink (s : shrinker) (b : bed) : res bed :=
  match shBuf s with
  | [] => Ok b
  | _ =>
      do h <- foldM (fun h i =>
                do c <- getBinContent (bdHist b) i;
                if qeqb c 0 then Ok h
                else
                  do k <- vat (shBin s) i;
                  do u <- vat (shUse s) i;
                  if u then ret (addBinContent h k c) else Ok h)
              (seq 0 (hNBins (bdHist b))) (mk_hist (shAxes s));
      Ok (mkBed (bdName b ++ "_shrunk")%string h (mk_obsset (osNames (bdObs b))))
  end.
