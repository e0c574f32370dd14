(** Specification of the selection of an alternative by a value of arithmetic type: what the types can
    hold, and which of several types is closest. *)
From Verif Require Import Base VtSelModel.
Local Open Scope Z_scope.

(** The values of a type *)
Definition value_of (t : arith) (v : value) : Prop :=
  match v, kind_of t with
  | Whole z, Integer lo hi => lo <= z <= hi
  | Dyadic m e, Floating p emin etop =>
      (Z.odd m = true \/ (m = 0 /\ e = 0)) /\
      Z.abs m < 2 ^ p /\ emin <= e /\ e + Z.log2 (Z.abs m) < etop
  | Special _, Floating _ _ _ => True
  | _, _ => False
  end.
(** Every value of s is a value of t. *)
Definition holds_all (s t : arith) : Prop := forall v, value_of s v -> value_of t v.

(** Alternatives that can be chosen for an argument of type s: bool only for bool, an arithmetic type
    if it can hold all values of s (this rules out floating-point types for integers, which are
    different values here), other types if they convert from s. *)
Definition takes (s : arith) (a : alternative) : Prop :=
  match a with
  | Arith Bool => s = Bool
  | Arith t => holds_all s t
  | Other accepts => accepts = true
  end.
(** Promotion: of float to double and of the integer types smaller than int, and of bool and the wide
    character types, to int, or to unsigned int if int cannot hold all their values *)
Definition promotes (s t : arith) : Prop :=
  match s with
  | Bool | Char | SChar | UChar | WChar | Char16 | Char32 | Short | UShort =>
      (holds_all s Int /\ t = Int) \/ (~ holds_all s Int /\ t = UInt)
  | Float => t = Double
  | _ => False
  end.
Definition promotion (s : arith) (a : alternative) : Prop := match a with Arith t => promotes s t | Other _ => False end.
Definition arithmetic (a : alternative) : Prop := match a with Arith _ => True | Other _ => False end.
(** a is closer to s than b: its own type is closest, then comes the promotion, then the other arithmetic
    types, then the rest. *)
Definition closer (s : arith) (a b : alternative) : Prop :=
  (a = Arith s /\ b <> Arith s) \/
  (promotion s a /\ b <> Arith s /\ ~ promotion s b) \/
  (arithmetic a /\ ~ arithmetic b).
(** Alternative i is chosen: it takes s and is closer than any other that does. *)
Definition chosen (s : arith) (ts : list alternative) (i : nat) : Prop :=
  exists a, nth_error ts i = Some a /\ takes s a /\
    forall j b, nth_error ts j = Some b -> takes s b -> j <> i -> closer s a b.
