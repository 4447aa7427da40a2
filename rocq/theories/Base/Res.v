(** Outcome of a C++ call.  Not repo content: the result type shared by all model files.

    [Throw e]    an exception of class [e] leaves the call
    [UB]         the C++ standard gives the call no meaning (out-of-bounds operator[],
                 dereferencing end() or NULL, ...)
    [NonFinite]  a floating point division by zero: the C++ code carries on with inf/nan,
                 the model stops here and says so
    [Diverge]    a loop of the C++ code that never terminates *)
From Coq Require Export List Arith Lia Bool String.
Export ListNotations.
Set Implicit Arguments.

(** /repo/src/core/Exceptions.h:6-97 (classes) and the std exceptions the code lets escape *)
Inductive exn : Type :=
| DimensionError | ValueError | NotFoundError | IOError | RepresentationError
| ParameterError | LogicError | NULLPointerAccessError | ConfigSectionMissing | ConfigFieldMissing
| OXSXException | std_out_of_range | std_runtime_error | std_logic_error.

Inductive res (A : Type) : Type :=
| Ok (a : A)
| Throw (e : exn)
| UB
| NonFinite
| Diverge.
Arguments Ok {A} a.
Arguments Throw {A} e.
Arguments UB {A}.
Arguments NonFinite {A}.
Arguments Diverge {A}.

Definition bind {A B : Type} (x : res A) (f : A -> res B) : res B :=
  match x with
  | Ok a => f a
  | Throw e => Throw e
  | UB => UB
  | NonFinite => NonFinite
  | Diverge => Diverge
  end.

Definition rmap {A B : Type} (f : A -> B) (x : res A) : res B := bind x (fun a => Ok (f a)).

Declare Scope res_scope.
Delimit Scope res_scope with res.
Notation "'do' x <- e ; k" := (bind e (fun x => k))
  (at level 200, x name, e at level 100, k at level 200) : res_scope.
Notation "'do' ' p <- e ; k" := (bind e (fun p => k))
  (at level 200, p strict pattern, e at level 100, k at level 200) : res_scope.

(** sequence a list of outcomes left to right, stopping at the first that is not [Ok] *)
Fixpoint seqM {A : Type} (l : list (res A)) : res (list A) :=
  match l with
  | [] => Ok []
  | x :: t => bind x (fun a => bind (seqM t) (fun r => Ok (a :: r)))
  end.

Definition mapM {A B : Type} (f : A -> res B) (l : list A) : res (list B) := seqM (map f l).

(** left fold with outcomes: a C++ for loop over a container that updates a state *)
Fixpoint foldM {A S : Type} (f : S -> A -> res S) (l : list A) (s : S) : res S :=
  match l with
  | [] => Ok s
  | x :: t => bind (f s x) (fun s' => foldM f t s')
  end.

(** std::vector::at *)
Definition vat {A : Type} (l : list A) (i : nat) : res A :=
  match nth_error l i with Some a => Ok a | None => Throw std_out_of_range end.
(** std::vector::operator[] : out of bounds is undefined behaviour *)
Definition vidx {A : Type} (l : list A) (i : nat) : res A :=
  match nth_error l i with Some a => Ok a | None => UB end.

(** replace element i (no effect out of range; callers check the range themselves) *)
Fixpoint upd {A : Type} (l : list A) (i : nat) (a : A) : list A :=
  match l, i with
  | [], _ => []
  | _ :: t, 0 => a :: t
  | x :: t, S j => x :: upd t j a
  end.

(** a C++ loop over a container that changes an object step by step and may stop with an exception:
    the object is returned as the last completed or failed step left it *)
Fixpoint iterS {A S : Type} (f : S -> A -> S * res unit) (l : list A) (s : S) : S * res unit :=
  match l with
  | [] => (s, Ok tt)
  | x :: t => match f s x with
              | (s', Ok _) => iterS f t s'
              | (s', e) => (s', e)
              end
  end.
(** "do a computation that leaves the object s alone, then go on with its result" *)
Definition obind {A S : Type} (s : S) (x : res A) (k : A -> S * res unit) : S * res unit :=
  match x with
  | Ok a => k a
  | Throw e => (s, Throw e)
  | UB => (s, UB)
  | NonFinite => (s, NonFinite)
  | Diverge => (s, Diverge)
  end.
