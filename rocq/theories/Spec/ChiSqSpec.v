(** Independent vocabulary for C111: the public calls on a ChiSquare. *)
From Coq Require Import ZArith.
From Verif Require Import Base.Res Base.Num Base.SMap Model.Event Model.Cut Model.Param Model.SystMan Model.Constraint Model.ChiSq.

(** what a program can call; the second data set is set through a TestStatistic&, a constraint call is any call on, or replacement of, the
    constraint manager; cuts, efficiency, log and flags are the inherited ones *)
Inductive cscall :=
| XData (d : option (list event)) | XBaseData (d : option (list event)) | XRegister | XParams (d : smap Qc) | XEvaluate
| XSys (p : nat) (g : string) | XSystematics (ps : list nat) | XSystematicsG (ps : list nat) (gs : list string) | XSystMan (m : sman)
| XConstraint (f : cman -> cman * res unit) | XCompMan (l : list comp) | XCalc (b : bool) | XCuts (l : list cut) | XAddCut (c : cut)
| XEff (x : Qc) | XLog (l : cutlog) | XDebug (b : bool).
Definition cs_step (s : chisq) (c : cscall) : chisq :=
  match c with
  | XData d => cs_setSet s d
  | XBaseData d => cs_withBase s (ts_setSet (csBase s) d)
  | XRegister => cs_register s
  | XParams d => fst (cs_setParams s d)
  | XEvaluate => fst (cs_eval s)
  | XSys p g => cs_withBase s (fst (ts_addSys (csBase s) p g))
  | XSystematics ps => cs_withBase s (fst (ts_addSystematics (csBase s) ps))
  | XSystematicsG ps gs => cs_withBase s (fst (ts_addSystematicsG (csBase s) ps gs))
  | XSystMan m => cs_withBase s (ts_withSm (csBase s) m)
  | XConstraint f => cs_withBase s (fst (ts_onCm (csBase s) f))
  | XCompMan l => cs_withBase s (ts_setComps (csBase s) l)
  | XCalc b => cs_withBase s (ts_setCalc (csBase s) b)
  | XCuts l => cs_withBase s (ts_setCuts (csBase s) l)
  | XAddCut c => cs_withBase s (ts_setCuts (csBase s) (tsCuts (csBase s) ++ [c]))
  | XEff x => cs_withBase s (ts_setEff (csBase s) x)
  | XLog l => cs_withBase s (ts_setLog (csBase s) l)
  | XDebug b => cs_withBase s (ts_setDebug (csBase s) b)
  end.
(** a program's calls on a new object *)
Definition program (obj : nat -> syst) (par : nat -> comp) (calls : list cscall) : chisq := fold_left cs_step calls (cs_new obj par).
(** the data set given last, directly and through the base *)
Definition given (calls : list cscall) : option (option (list event)) :=
  fold_left (fun a c => match c with XData d => Some d | _ => a end) calls None.
Definition base_given (calls : list cscall) : option (list event) :=
  fold_left (fun a c => match c with XBaseData d => d | _ => a end) calls None.
(** the systematics and cuts the calls describe *)
Definition sys_calls (c : cscall) (m : sman) : sman :=
  match c with
  | XSys p g => fst (sm_add m p g)
  | XSystematics ps => fst (iterS (fun m p => sm_add m p EmptyString) ps m)
  | XSystematicsG ps gs => if Nat.eqb (List.length ps) (List.length gs)
                           then fst (iterS (fun m pg => sm_add m (fst pg) (snd pg)) (combine ps gs) m) else m
  | XSystMan m' => m'
  | _ => m
  end.
Definition cut_calls (c : cscall) (l : list cut) : list cut :=
  match c with XCuts l' => l' | XAddCut c => l ++ [c] | _ => l end.
