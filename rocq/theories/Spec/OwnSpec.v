(** What programs over objects with parts should do (C93): variables hold values. *)
From Verif Require Import Base.Res Base.Num Model.Own.
Definition vcls (v : val) : cls := match v with V c _ _ _ => c end.
Definition vkids (v : val) : list val := match v with V _ _ ks _ => ks end.
Definition val_at (vs : list (option val)) (i : nat) : option val := match nth_error vs i with Some o => o | None => None end.
Definition is_a (vs : list (option val)) (i : nat) (c : cls) : Prop := exists v, val_at vs i = Some v /\ vcls v = c.
(** SetParameter reaches the pdf or functions inside *)
Fixpoint param (x : Qc) (o : val) : val :=
  match o with
  | V c y ks fs =>
      match c with
      | KPdf | KFun => V c x ks fs
      | KVary => V c y ks (map (param x) fs)
      | KAna | KConv | KJump | KEvConv => V c y (map (param x) ks) fs
      | _ => o
      end
  end.
(** a plain pdf given as kernel is wrapped in a JumpPDF *)
Definition packed (c : cls) (o : val) : val :=
  match c, vcls o with (KEvConv | KConv | KVary), KPdf => V KJump 0 [o] [] | _, _ => o end.
(** the object after being given another: collections grow, holders replace their part *)
Definition given (t o : val) : val :=
  match t with
  | V c x ks fs =>
      match c, vcls o with
      | KVary, KFun => V c x ks (fs ++ [o])
      | (KCuts | KEdm), _ => V c x (ks ++ [o]) fs
      | _, _ => V c x [packed c o] fs
      end
  end.
Definition typed (vs : list (option val)) (i : nat) (f : cls -> bool) : bool := match val_at vs i with Some v => f (vcls v) | None => false end.
(** value semantics: every variable has its own value, a copy is the same value, assignment replaces the value, nothing else changes *)
Definition vexec (vs : list (option val)) (o : stmt) : list (option val) :=
  match o with
  | SNew c x => if bare c then vs ++ [Some (V c x [] [])] else vs
  | SFrom c is =>
      if forallb (fun i => typed vs i (built_from c)) is && (match c with KComp => true | _ => Nat.eqb (List.length is) 1 end) then
        match all_some (map (val_at vs) is) with Some ps => vs ++ [Some (V c 0 ps [])] | None => vs end
      else vs
  | SCopy i => match val_at vs i with Some v => vs ++ [Some v] | None => vs end
  | SClone i => match val_at vs i with Some v => if clonable (vcls v) then vs ++ [Some v] else vs | None => vs end
  | SAssign i j =>
      match val_at vs i, val_at vs j with Some t, Some v => if cls_eqb (vcls t) (vcls v) then upd vs i (Some v) else vs | _, _ => vs end
  | SGive i j =>
      match val_at vs i, val_at vs j with Some t, Some v => if takes (vcls t) (vcls v) then upd vs i (Some (given t v)) else vs | _, _ => vs end
  | SParam i x => match val_at vs i with Some v => upd vs i (Some (param x v)) | None => vs end
  | SDestroy i => match val_at vs i with Some _ => upd vs i None | None => vs end
  end.
Definition vrun (p : list stmt) : list (option val) := fold_left vexec p [].

(** the statements for which copies are really independent: *)
Definition allowed (vs : list (option val)) (o : stmt) : Prop :=
  match o with
  (* no copies of a CompositeED, Convolution, EDManager or VaryingCDF *)
  | SCopy i => ~ is_a vs i KComp /\ ~ is_a vs i KConv /\ ~ is_a vs i KEdm /\ ~ is_a vs i KVary
  | SClone i => ~ is_a vs i KVary
  (* no assignment to an AnalyticED, CompositeED, Convolution, EDManager, VaryingCDF or FitResult, nor of a CutCollection to itself *)
  | SAssign i j => ~ is_a vs i KAna /\ ~ is_a vs i KComp /\ ~ is_a vs i KConv /\ ~ is_a vs i KEdm /\ ~ is_a vs i KVary /\ ~ is_a vs i KRes /\
                   (is_a vs i KCuts -> i <> j)
  (* a VaryingCDF is not given as a kernel *)
  | SGive i j => ~ is_a vs j KVary
  (* a Convolution has a kernel before its parameters are set, a VaryingCDF before it is destroyed *)
  | SParam i x => ~ (exists v, val_at vs i = Some v /\ vcls v = KConv /\ vkids v = [])
  | SDestroy i => ~ (exists v, val_at vs i = Some v /\ vcls v = KVary /\ vkids v = [])
  | _ => True
  end.
(** the statements that do not leak: no JumpPDF or EventConvolution that has a part is assigned to, no kernel or histogram is replaced (except in a
    Convolution) *)
Definition tidy (vs : list (option val)) (o : stmt) : Prop :=
  match o with
  | SAssign i j => forall v, val_at vs i = Some v -> vcls v = KJump \/ vcls v = KEvConv -> vkids v = []
  | SGive i j => forall v, val_at vs i = Some v -> vcls v = KEvConv \/ vcls v = KRes \/ (vcls v = KVary /\ ~ is_a vs j KFun) -> vkids v = []
  | _ => True
  end.
(** every statement of a program meets a condition on the values at that point *)
Definition throughout (P : list (option val) -> stmt -> Prop) (p : list stmt) : Prop :=
  forall pre o post, p = pre ++ o :: post -> P (vrun pre) o.
