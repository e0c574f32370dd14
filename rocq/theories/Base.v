(** Common vocabulary of the gul14 model: outcomes of C++ calls and byte strings. *)
From Coq Require Export ZArith Ascii String Bool Lia.
From Coq Require Export List.
Export ListNotations.
Open Scope list_scope.

(** Exceptions thrown by the modelled functions. *)
Inductive exn : Type :=
| OutOfRange | InvalidArgument | RuntimeError | LengthError | LogicError
| BadOptionalAccess | BadExpectedAccess | BadVariantAccess | FutureError | UserException.

(** The result of a C++ call: a normal return, an exception, undefined behaviour, or
    [Diverge] when the fuel given to a model loop is used up (the theorems show that this
    never happens with the fuel the model supplies). *)
Inductive outcome (A : Type) : Type :=
| Ok (a : A)
| Throw (e : exn)
| UB
| Diverge.
Arguments Ok {A} a.
Arguments Throw {A} e.
Arguments UB {A}.
Arguments Diverge {A}.

Definition bind {A B : Type} (x : outcome A) (f : A -> outcome B) : outcome B :=
  match x with
  | Ok a => f a
  | Throw e => Throw e
  | UB => UB
  | Diverge => Diverge
  end.

Declare Scope outcome_scope.
Delimit Scope outcome_scope with outcome.
Notation "x <- e ;; f" := (bind e (fun x => f))
  (at level 61, e at next level, right associativity) : outcome_scope.
Notation "' p <- e ;; f" := (bind e (fun x => match x with p => f end))
  (at level 61, p pattern, e at next level, right associativity) : outcome_scope.

(** Byte strings: the contents of a std::string or string_view.  A [char] is one of the
    256 values of [ascii]. *)
Notation str := (list ascii) (only parsing).

(** Byte-string literals, e.g. [!"abc"]. *)
Definition lit (s : string) : str := list_ascii_of_string s.
Notation "! s" := (lit s%string) (at level 0, s at level 0, format "! s").

(** Value of a byte as unsigned char (0..255) and as signed char (-128..127). *)
Definition uc (c : ascii) : Z := Z.of_N (N_of_ascii c).
Definition sc (c : ascii) : Z := if (uc c <? 128)%Z then uc c else (uc c - 256)%Z.
(** The byte with a given value, modulo 256 (static_cast<char>). *)
Definition chr (z : Z) : ascii := ascii_of_N (Z.to_N (z mod 256)).

Definition zlen {A : Type} (l : list A) : Z := Z.of_nat (length l).

(** Membership of a byte in a byte string. *)
Definition memb (c : ascii) (s : str) : bool := existsb (Ascii.eqb c) s.
