(** Vocabulary for the order of configuration calls (C107). *)
From Coq Require Import ZArith.
From Verif Require Import Base.Res Base.Num Base.SMap Model.Axis Model.Event Model.Hist Model.ED Model.EDMan Model.NLLH Spec.NLLHSpec.

(** what a call is about; [Other]: evaluating, setting or registering parameters, normalisations, cuts, overflow mode *)
Inductive topic := Pdf (name : string) | Systematics | Data | Constraints | BarlowBeeston | Other.
Definition about (o : nlop) : topic :=
  match o with
  | NAdd b _ _ _ => Pdf (bdName b)
  | NSys _ _ => Systematics
  | NData _ | NDataSet _ => Data
  | NCon _ => Constraints
  | NBB _ => BarlowBeeston
  | _ => Other
  end.
(** calls that may be exchanged: pdfs of different names; a pdf and anything but a systematic or the Barlow-Beeston switch (which decide whether
    the pdf is accepted); otherwise calls about different things *)
Definition exchangeable (o o' : nlop) : Prop :=
  match about o, about o' with
  | Pdf n, Pdf n' => n <> n'
  | Pdf _, Systematics | Pdf _, BarlowBeeston | Systematics, Pdf _ | BarlowBeeston, Pdf _ => False
  | Systematics, Systematics | Data, Data | Constraints, Constraints | BarlowBeeston, BarlowBeeston => False
  | _, _ => True
  end.
(** one program is the other with neighbouring calls exchanged, any number of times *)
Inductive shuffled : list nlop -> list nlop -> Prop :=
| sh_same ops : shuffled ops ops
| sh_swap a o o' b ops : exchangeable o o' -> shuffled (a ++ o' :: o :: b) ops -> shuffled (a ++ o :: o' :: b) ops.
