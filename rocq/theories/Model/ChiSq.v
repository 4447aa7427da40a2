(** Model of /repo/src/teststat/ChiSquare.{h,cpp} on top of TestStatistic.{h,cpp}.  ChiSquare declares private members with the names of
    those of TestStatistic (ChiSquare.h:31-38, TestStatistic.h:81-92) and hides SetDataSet and GetDataSet, which are not virtual; the other
    setters are inherited and reach the members of TestStatistic.  [ts...] are the members of the base, [cs...] those of ChiSquare.
    Simplifications: as in Model/NLLH.v; systematics are numbers with a component and a response; a pointer that has not been assigned
    (ChiSquare.h:35) is None, the null pointer is Some None.  GetNDims of the unbinned data distribution and the sum are computed exactly. *)
From Coq Require Import ZArith.
From Verif Require Import Base.Res Base.Num Base.SMap Model.Axis Model.Event Model.Cut Model.Hist Model.ED Model.Comp
  Model.Param Model.Matrix Model.SystMan Model.Shrink Model.EDMan Model.Fill Model.Constraint Model.NLLH Model.Bulk.
Local Open Scope Qc_scope.
Local Open Scope res_scope.

(** TestStatistic.h:81-92 *)
Record tstat := mkTst { tsSm : sman; tsCm : cman; tsComps : list comp; tsCalc : bool; tsSet : option (list event); tsCuts : list cut;
                        tsEff : Qc; tsLog : cutlog; tsDebug : bool }.
(** ChiSquare.h:31-38, with the base *)
Record chisq := mkCs { csBase : tstat; csCalc : bool; csData : bed; csSet : option (option (list event)); csPm : edman; csSm : sman;
                       csReg : list cref; csPar : nat -> comp }.
(** TestStatistic.h:24 and ChiSquare.h:17 constructors; [names], [par] and [resp] describe the systematics of the program *)
Definition cs_new (obj : nat -> syst) (par : nat -> comp) : chisq :=
  mkCs (mkTst (sm_new obj) cman_new [] false None [] 1 (mk_log []) false) false bed0 None em_new (sm_new obj) [] par.
Definition cs_withBase (s : chisq) (b : tstat) : chisq := mkCs b (csCalc s) (csData s) (csSet s) (csPm s) (csSm s) (csReg s) (csPar s).
Definition cs_withPm (s : chisq) (p : edman) : chisq := mkCs (csBase s) (csCalc s) (csData s) (csSet s) p (csSm s) (csReg s) (csPar s).
Definition cs_withSm (s : chisq) (m : sman) : chisq := mkCs (csBase s) (csCalc s) (csData s) (csSet s) (csPm s) m (csReg s) (csPar s).
Definition cs_withData (s : chisq) (b : bed) (calc : bool) : chisq := mkCs (csBase s) calc b (csSet s) (csPm s) (csSm s) (csReg s) (csPar s).
Definition cs_withReg (s : chisq) (l : list cref) : chisq := mkCs (csBase s) (csCalc s) (csData s) (csSet s) (csPm s) (csSm s) l (csPar s).
Definition cs_withPar (s : chisq) (f : nat -> comp) : chisq := mkCs (csBase s) (csCalc s) (csData s) (csSet s) (csPm s) (csSm s) (csReg s) f.

(** ChiSquare.cpp:100-109 SetDataSet, GetDataSet: the member of ChiSquare; fCalculatedDataDist is left as it is *)
Definition cs_setSet (s : chisq) (d : option (list event)) : chisq :=
  mkCs (csBase s) (csCalc s) (csData s) (Some d) (csPm s) (csSm s) (csReg s) (csPar s).
Definition cs_getSet (s : chisq) : res (option (list event)) := match csSet s with None => UB | Some d => Ok d end.
(** the inherited setters: TestStatistic.cpp:5-8, 20-23, 35-38, 50-74, 76-106, 108-112, 120-123, 130-138, 151-154, 162-171 *)
Definition ts_withSm (b : tstat) (m : sman) : tstat := mkTst m (tsCm b) (tsComps b) (tsCalc b) (tsSet b) (tsCuts b) (tsEff b) (tsLog b) (tsDebug b).
Definition ts_addSys (b : tstat) (p : nat) (g : string) : tstat * res unit := match sm_add (tsSm b) p g with (m, r) => (ts_withSm b m, r) end.
Definition ts_addSystematics (b : tstat) (ps : list nat) : tstat * res unit := iterS (fun b1 p => ts_addSys b1 p EmptyString) ps b.
Definition ts_addSystematicsG (b : tstat) (ps : list nat) (gs : list string) : tstat * res unit :=
  if negb (Nat.eqb (List.length gs) (List.length ps)) then (b, Throw DimensionError)
  else iterS (fun b1 i => obind b1 (vat ps i) (fun p => obind b1 (vat gs i) (fun g => ts_addSys b1 p g))) (seq 0 (List.length ps)) b.
Definition ts_onCm (b : tstat) (f : cman -> cman * res unit) : tstat * res unit :=
  match f (tsCm b) with (c, r) => (mkTst (tsSm b) c (tsComps b) (tsCalc b) (tsSet b) (tsCuts b) (tsEff b) (tsLog b) (tsDebug b), r) end.
Definition ts_setComps (b : tstat) (l : list comp) : tstat := mkTst (tsSm b) (tsCm b) l (tsCalc b) (tsSet b) (tsCuts b) (tsEff b) (tsLog b) (tsDebug b).
Definition ts_setSet (b : tstat) (d : option (list event)) : tstat := mkTst (tsSm b) (tsCm b) (tsComps b) false d (tsCuts b) (tsEff b) (tsLog b) (tsDebug b).
Definition ts_setCalc (b : tstat) (x : bool) : tstat := mkTst (tsSm b) (tsCm b) (tsComps b) x (tsSet b) (tsCuts b) (tsEff b) (tsLog b) (tsDebug b).
Definition ts_setCuts (b : tstat) (l : list cut) : tstat := mkTst (tsSm b) (tsCm b) (tsComps b) (tsCalc b) (tsSet b) l (tsEff b) (tsLog b) (tsDebug b).
Definition ts_setEff (b : tstat) (x : Qc) : tstat := mkTst (tsSm b) (tsCm b) (tsComps b) (tsCalc b) (tsSet b) (tsCuts b) x (tsLog b) (tsDebug b).
Definition ts_setLog (b : tstat) (l : cutlog) : tstat := mkTst (tsSm b) (tsCm b) (tsComps b) (tsCalc b) (tsSet b) (tsCuts b) (tsEff b) l (tsDebug b).
Definition ts_setDebug (b : tstat) (x : bool) : tstat := mkTst (tsSm b) (tsCm b) (tsComps b) (tsCalc b) (tsSet b) (tsCuts b) (tsEff b) (tsLog b) x.

(** ChiSquare.cpp:50-68 RegisterFitComponents: the components are added to those already there *)
Definition cs_register (s : chisq) : chisq := cs_withReg s (csReg s ++ RPdfs :: nl_sysRefs (csSm s)).
Definition cs_comp (s : chisq) (c : cref) : comp := match c with RPdfs => CPm (emPm (csPm s)) | RSys p => csPar s p end.
Definition cs_putComp (s : chisq) (rc : cref * comp) : chisq :=
  match rc with
  | (RPdfs, CPm p) => cs_withPm s (em_withPm (csPm s) p)
  | (RPdfs, _) => s
  | (RSys p, c) => cs_withPar s (fun q => if Nat.eqb q p then c else csPar s q)
  end.
(** ChiSquare.cpp:70-80 SetParameters, 82-86 GetParameters, 88-98 GetParameterCount, GetParameterNames (virtual) *)
Definition cs_setParams (s : chisq) (d : smap Qc) : chisq * res unit :=
  match cm_setAll (map (cs_comp s) (csReg s)) d with (cs, r) => (fold_left cs_putComp (combine (csReg s) cs) s, r) end.
Definition cs_getParams (s : chisq) : res (smap Qc) := cm_getAll (map (cs_comp s) (csReg s)).
Definition cs_names (s : chisq) : res (list string) := rmap skeys (cs_getParams s).
Definition cs_count (s : chisq) : res nat := rmap (@List.length _) (cs_getParams s).

(** ChiSquare.cpp:36-48 BinData *)
Definition cs_binData (s : chisq) : chisq * res unit :=
  obind s (vat (emOrig (csPm s)) 0) (fun o =>
  match bed_empty o with
  | (b0, r) =>
      obind s r (fun _ =>
      match csSet s with
      | Some (Some data) => match iterS (fun b e => bed_fillEvent b e 1) data b0 with (b1, r1) => obind s r1 (fun _ => (cs_withData s b1 (csCalc s), Ok tt)) end
      | _ => (s, UB)
      end)
  end).
(** ChiSquare.cpp:23-31: bin i of the loop; the event made from the bin centres has no names *)
Definition cs_bin (st : chisq * Qc) (i : nat) : (chisq * Qc) * res unit :=
  let s := fst st in
  obind st (binCentres (hAxes (bdHist (csData s))) i) (fun c =>
  match em_prob (csPm s) (mk_event c) with
  | (p, r) =>
      let s1 := cs_withPm s p in
      obind (s1, snd st) (do mu <- r; do n <- getBinContent (bdHist (csData s)) i; qdiv ((n - mu) * (n - mu)) mu)
        (fun t => ((s1, snd st + t), Ok tt))
  end).
(** ChiSquare.cpp:6-34 Evaluate *)
Definition cs_eval (s : chisq) : chisq * res Qc :=
  let go :=
    chain (chain (if csCalc s then (s, Ok tt)
                  else match cs_binData s with (s1, Ok _) => (cs_withData s1 (csData s1) true, Ok tt) | r => r end)
      (fun s1 => match sm_construct (csSm s1) with (m, r) => (cs_withSm s1 m, r) end))
      (fun s1 => match em_systematics (csPm s1) (csSm s1) with (p, r) => (cs_withPm s1 p, r) end) in
  match go with
  | (s1, Ok _) => match iterS cs_bin (seq 0 (hNBins (bdHist (csData s1)))) (s1, 0) with
                  | ((s2, v), Ok _) => (s2, Ok v)
                  | ((s2, _), Throw e) => (s2, Throw e)
                  | ((s2, _), UB) => (s2, UB) | ((s2, _), NonFinite) => (s2, NonFinite) | ((s2, _), Diverge) => (s2, Diverge)
                  end
  | (s1, Throw e) => (s1, Throw e)
  | (s1, UB) => (s1, UB) | (s1, NonFinite) => (s1, NonFinite) | (s1, Diverge) => (s1, Diverge)
  end.
