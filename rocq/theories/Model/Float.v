(** Model of the rounding of double arithmetic, and of the places of the code that the rest of the model computes with exact
    rationals although the result depends on rounding.  Not modelled: overflow to infinity, NaN, signed zeros. *)
From Coq Require Import ZArith QArith Qcanon Qround.
From Verif Require Import Base.Res Base.Num Base.SMap Model.Axis Model.Hist Model.Rand Model.Grid.
Local Open Scope Qc_scope.
Local Open Scope res_scope.

(** IEEE 754 round to nearest, ties to even: the exponent of the last bit is a function [fexp] of the magnitude *)
Definition two_pow (e : Z) : Qc := if Z.leb 0 e then qz (2 ^ e) else / qz (2 ^ (- e)).
(** 2^(mag-1) <= |x| < 2^mag *)
Definition mag2 (x : Qc) : Z :=
  let k := (Z.log2 (Z.abs (Qnum (this x))) - Z.log2 (Z.pos (Qden (this x))))%Z in
  if qleb (two_pow k) (qabs x) then (k + 1)%Z else k.
Definition nearest_even (x : Qc) : Z :=
  let f := Qfloor (this x) in
  match Qcompare (this x - inject_Z f)%Q (1 # 2)%Q with
  | Lt => f | Gt => (f + 1)%Z | Eq => if Z.even f then f else (f + 1)%Z
  end.
Definition rne (fexp : Z -> Z) (x : Qc) : Qc :=
  if qeqb x 0 then 0
  else let e := fexp (mag2 x) in qz (nearest_even (x * two_pow (- e))) * two_pow e.
(** double: 53 bits, the last not below 2^-1074 *)
Definition b64 : Qc -> Qc := rne (fun m => Z.max (m - 53) (-1074)).

(** BinAxis.cpp:6-34 with every operation rounded by [r]; size_t values are converted to double *)
Definition edgeF (r : Qc -> Qc) (mn w x : Qc) : Qc := r (mn + r (x * w)).
Definition mk_equalF (r : Qc -> Qc) (name : string) (mn mx : Qc) (n : nat) (latex : string) : res axis :=
  if qleb mx mn || Nat.eqb n 0 then Throw LogicError
  else
    let w := r (r (mx - mn) / r (qn n)) in
    Ok {| aNBins := n; aMin := mn; aMax := mx; aName := name;
          aLatex := if String.eqb latex "" then name else latex;
          aLow := map (fun i => edgeF r mn w (r (qn i))) (seq 0 n);
          aHigh := map (fun i => edgeF r mn w (r (qn (i + 1)))) (seq 0 n);
          aCentre := map (fun i => edgeF r mn w (r (r (qn i) + qhalf))) (seq 0 n);
          aWidth := repeat w n |}.

(** Histogram.cpp:30-37 Integral *)
Definition integralF (r : Qc -> Qc) (h : hist) : res Qc :=
  foldM (fun s i => do c <- vidx (hCont h) i; Ok (r (s + c))) (seq 0 (hNBins h)) 0.
(** Histogram.cpp:55-60 Normalise *)
Definition normaliseF (r : Qc -> Qc) (h : hist) : hres unit :=
  match integralF r h with
  | Ok s => map_bins (fun _ x => rmap r (qdiv x s)) h
  | Throw e => (h, Throw e) | UB => (h, UB) | NonFinite => (h, NonFinite) | Diverge => (h, Diverge)
  end.
(** Histogram.cpp:68-74 Fill(vector) *)
Definition fillF (r : Qc -> Qc) (h : hist) (vals : list Qc) (w : Qc) : hres unit :=
  if negb (Nat.eqb (List.length vals) (hNDims h)) then (h, Throw DimensionError)
  else match h_findBin h vals with
       | Ok b => put h b (r (nth b (hCont h) 0 + w))
       | Throw e => (h, Throw e) | UB => (h, UB) | NonFinite => (h, NonFinite) | Diverge => (h, Diverge)
       end.

(** GridSearch.cpp:123-150 Increment *)
Fixpoint gIncF (r : Qc -> Qc) (g : grid) (rest : list string) (it last : Z) (vals : smap Qc) : res (bool * smap Qc) :=
  match rest with
  | [] => UB
  | k :: rest' =>
      if dict_eqb (grMin g) (grMax g) then Ok (false, vals)
      else
        do s <- sat k (grStep g);
        do mx <- sat k (grMax g);
        let v := r (match sfind k vals with Some x => x | None => Q2Qc 0 end + s) in
        if qltb mx v then
          do mn <- sat k (grMin g);
          if (it =? last)%Z then Ok (false, sset k mn vals)
          else gIncF r g rest' (it + 1)%Z (last - 1)%Z (sset k mn vals)
        else Ok (true, sset k v vals)
  end.
(** GridSearch.cpp:73-81 *)
Definition gCountF (r : Qc -> Qc) (g : grid) (kv : string * Qc) : res Z :=
  let mx := match sfind (fst kv) (grMax g) with Some x => x | None => Q2Qc 0 end in
  let st := match sfind (fst kv) (grStep g) with Some x => x | None => Q2Qc 0 end in
  if qeqb st 0 then UB
  else let c := qtrunc (r (r (mx - snd kv) / st)) in if (c <? 0)%Z || (2 ^ 64 <=? c)%Z then UB else Ok c.
(** GridSearch.cpp:96-121 *)
Fixpoint gLoopF (r : Qc -> Qc) (g : grid) (f : smap Qc -> res Qc) (fuel : nat) (vals : smap Qc) (b : gres) : res gres :=
  match fuel with
  | 0%nat => Diverge
  | S fuel' =>
      do p <- gIncF r g (skeys (grStep g)) 0 (Z.of_nat (List.length (grStep g))) vals;
      if fst p then
        do e <- f (snd p);
        let v := if grMaximise g then e * - (1) else e in
        let seen := grSeen b ++ [snd p] in
        gLoopF r g f fuel' (snd p)
          (if qltb v (grVal b) || qeqb (grVal b) 0 then mkGres (snd p) v seen else mkGres (grBest b) (grVal b) seen)
      else Ok b
  end.
(** GridSearch.cpp:47-121 Optimise *)
Definition gOptimiseF (r : Qc -> Qc) (g : grid) (f : smap Qc -> res Qc) (fuel : nat) : res gres :=
  if negb (hasSameKeys (grStep g) (grMax g)) || negb (hasSameKeys (grStep g) (grMin g)) then Throw LogicError
  else do _ <- mapM (gCountF r g) (grMin g); gLoopF r g f fuel (grMin g) (mkGres sempty 0 []).
