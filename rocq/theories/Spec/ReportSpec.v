(** Independent vocabulary for C109. *)
From Coq Require Import ZArith Reals Permutation Sorted.
From Verif Require Import Base.Res Base.Num Base.RNum Base.SMap Model.Axis Model.Event Model.Cut Model.Fill Model.Count Model.Report
  Spec.CutSpec Spec.FillSpec Spec.CountSpec.
Local Open Scope Qc_scope.

(** a cut log as a user makes it: a list of cuts, then events that pass or are cut *)
Inductive logop := LPass | LCut (i : nat).
Definition logdo (l : cutlog) (o : logop) : cutlog := match o with LPass => logPass l | LCut i => fst (logCut l i) end.
Definition logrun (names : list string) (ops : list logop) : cutlog := fold_left logdo ops (mk_log names).

(** calls on a counting experiment *)
Inductive reop := RCut (c : cut) | RSys (s : evsys) | RBg (data : list event) (rate : Qc) (n : string) | RSignal (data : list event) (n : string).
Definition redo (s : rexp) (o : reop) : rexp :=
  match o with RCut c => re_addCut s c | RSys y => re_addSys s y | RBg d r n => re_addBg s d r n | RSignal d n => re_setSignal s d n end.
Definition rerun (ops : list reop) : rexp := fold_left redo ops re_new.
Definition r_cuts (ops : list reop) : list cut := flat_map (fun o => match o with RCut c => [c] | _ => [] end) ops.
Definition r_sys (ops : list reop) : list evsys := flat_map (fun o => match o with RSys s => [s] | _ => [] end) ops.
Definition r_bgs (ops : list reop) : list (list event * Qc * string) := flat_map (fun o => match o with RBg d r n => [(d, r, n)] | _ => [] end) ops.
Definition r_signal (ops : list reop) : option (list event * string) :=
  fold_left (fun a o => match o with RSignal d n => Some (d, n) | _ => a end) ops None.

(** how a list of events fares with the cuts: [Some i] if cut i is the first to reject the event, [None] if all accept it *)
Definition sorts_out (cs : list cut) (evs : list event) (cls : event -> option nat) : Prop :=
  forall e, In e evs -> match cls e with Some i => charged_to cs e i | None => passes_all cs e end.
Definition left_after (i : nat) (c : option nat) : bool := match c with None => true | Some k => Nat.ltb i k end.
Definition is_cut_by (i : nat) (c : option nat) : bool := match c with None => false | Some k => Nat.eqb k i end.
Definition survives (c : option nat) : bool := match c with None => true | Some _ => false end.
Definition percent (k : Z) (evs : list event) : Qc := qz k * qz 100 / qz (Z.of_nat (List.length evs)).
(** the table of a log accounts for the events: one line per cut, in order *)
Definition accounts (cs : list cut) (evs : list event) (cls : event -> option nat) (t : list logrow) : Prop :=
  List.length t = List.length cs /\
  forall i c row, nth_error cs i = Some c -> nth_error t i = Some row ->
    let cutted := zcount (fun e => is_cut_by i (cls e)) evs in
    let remaining := zcount (fun e => left_after i (cls e)) evs in
    rwCut row = cutName c /\ rwCount row = cutted /\ rwRem row = remaining /\
    (evs <> [] -> rwPct row = Ok (percent cutted evs) /\ rwRemPct row = Ok (percent remaining evs)) /\
    (evs = [] -> rwPct row = NonFinite /\ rwRemPct row = NonFinite).

(** what happens to the events of a data set: the systematics turn them into evs, on which every cut finds its observable *)
Definition become (cs : list cut) (ss : list evsys) (data evs : list event) : Prop :=
  Forall2 (in_order ss) data evs /\ forall e, In e evs -> cuttable cs e.

(** std::sort by decreasing second component *)
Definition std_sort (srt : list (string * Qc) -> list (string * Qc)) : Prop :=
  forall l, Permutation l (srt l) /\ Sorted (fun a b => snd b <= snd a) (srt l).
(** the line of the summary for a background (data, norm, name) whose events, after the systematics, are evs *)
Definition own_line (cls : event -> option nat) (p : list event * Qc * string * list event) : string * Qc * R :=
  let '(data, norm, name, evs) := p in
  let k := zcount (fun e => survives (cls e)) evs in
  (name, qz k * norm / qn (List.length data), (sqrt (IZR k) * qr norm / INR (List.length data))%R).
