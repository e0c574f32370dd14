(** Model of include/gul14/variant.h:1419-1481: which alternative a variant constructed from, or
    assigned, an argument of an arithmetic type gets (best_match), and its value.

    The types are those of the x86-64 Linux ABI: char and wchar_t are signed, long has 64 bits, long
    double is the 80-bit format.  What the compiler does with the templates is modelled by the rules
    of the C++ standard for narrowing [dcl.init.list], for integral and floating-point promotion
    [conv.prom, conv.fpprom] and for overload resolution [over.match.best, over.ics.rank].
    Simplifications: alternatives are not cv-qualified; an alternative that is not of an
    arithmetic type (nor an enumeration) takes part with a user-defined conversion from the argument
    type, or not at all. *)
From Verif Require Import Base.
Local Open Scope Z_scope.

Inductive arith :=
  Bool | Char | SChar | UChar | WChar | Char16 | Char32 | Short | UShort | Int | UInt
| Long | ULong | LLong | ULLong | Float | Double | LDouble.
Definition arith_eqb (a b : arith) : bool :=
  match a, b with
  | Bool, Bool | Char, Char | SChar, SChar | UChar, UChar | WChar, WChar | Char16, Char16
  | Char32, Char32 | Short, Short | UShort, UShort | Int, Int | UInt, UInt | Long, Long
  | ULong, ULong | LLong, LLong | ULLong, ULLong | Float, Float | Double, Double
  | LDouble, LDouble => true
  | _, _ => false
  end.

(** Integer types: smallest and largest value.  Floating-point types: the finite values are m * 2^e with
    |m| < 2^p and emin <= e, and less than 2^etop. *)
Inductive kind := Integer (lo hi : Z) | Floating (p emin etop : Z).
Definition signed (n : Z) : kind := Integer (- 2 ^ (n - 1)) (2 ^ (n - 1) - 1).
Definition unsigned (n : Z) : kind := Integer 0 (2 ^ n - 1).
Definition kind_of (t : arith) : kind :=
  match t with
  | Bool => Integer 0 1
  | Char | SChar => signed 8 | UChar => unsigned 8
  | Short => signed 16 | UShort | Char16 => unsigned 16
  | Int | WChar => signed 32 | UInt | Char32 => unsigned 32
  | Long | LLong => signed 64 | ULong | ULLong => unsigned 64
  | Float => Floating 24 (-149) 128
  | Double => Floating 53 (-1074) 1024
  | LDouble => Floating 64 (-16445) 16384
  end.
Definition float_rank (t : arith) : Z := match t with Float => 1 | Double => 2 | LDouble => 3 | _ => 0 end.

(** variant.h:1419-1431 is_non_narrowing_convertible<From, To>: T x[1] = {from} is well-formed if
    the conversion does not narrow.  The initializer is not a constant expression. *)
Definition non_narrowing (from to : arith) : bool :=
  match kind_of from, kind_of to with
  | Integer lo hi, Integer lo' hi' => (lo' <=? lo) && (hi <=? hi')
  | Floating _ _ _, Floating _ _ _ => float_rank from <=? float_rank to
  | Integer _ _, Floating _ _ _ | Floating _ _ _, Integer _ _ => false
  end.

(** An alternative: an arithmetic type, or a type that does or does not convert from the argument *)
Inductive alternative := Arith (t : arith) | Other (accepts : bool).
(** variant.h:1433-1462 overload_leaf: is there a function for this alternative?  For types that are
    not arithmetic there always is, but the call may not be possible. *)
Definition viable (arg : arith) (a : alternative) : bool :=
  match a with
  | Arith t => if arith_eqb t Bool then arith_eqb arg Bool else non_narrowing arg t
  | Other accepts => accepts
  end.

(** Implicit conversion sequences, the best first *)
Definition promoted (t : arith) : option arith :=
  match t with
  | Bool | Char | SChar | UChar | Short | UShort | Char16 | WChar => Some Int
  | Char32 => Some UInt
  | Float => Some Double
  | _ => None
  end.
Definition rank (arg : arith) (a : alternative) : Z :=
  match a with
  | Arith t =>
      if arith_eqb arg t then 1
      else match promoted arg with Some t' => if arith_eqb t' t then 2 else 3 | None => 3 end
  | Other _ => 4
  end.

(** variant.h:1464-1481 overload, best_match: the viable function that is better than all other
    viable ones; without one the constructor does not take part. *)
Fixpoint candidates (arg : arith) (i : nat) (ts : list alternative) : list (nat * Z) :=
  match ts with
  | [] => []
  | a :: r => if viable arg a then (i, rank arg a) :: candidates arg (S i) r else candidates arg (S i) r
  end.
Definition better_than_others (cs : list (nat * Z)) (c : nat * Z) : bool :=
  forallb (fun c' => Nat.eqb (fst c) (fst c') || (snd c <? snd c')) cs.
Definition best_match (arg : arith) (ts : list alternative) : option nat :=
  match filter (better_than_others (candidates arg 0 ts)) (candidates arg 0 ts) with
  | c :: _ => Some (fst c)
  | [] => None
  end.

(** Values: an integer, or a floating-point value m * 2^e with odd m, zero being 0 * 2^0, or a special
    one (negative zero, infinities, not a number) *)
Inductive value := Whole (z : Z) | Dyadic (m e : Z) | Special (n : nat).
(** Conversion to an arithmetic type [conv.integral, conv.double, conv.fpint, conv.bool].
    [other] stands for the result where it is rounded, truncated, or undefined. *)
Definition converted (other : arith -> value -> value) (t : arith) (v : value) : value :=
  match v, kind_of t with
  | Whole z, Integer lo hi =>
      if arith_eqb t Bool then Whole (if z =? 0 then 0 else 1)
      else Whole ((z - lo) mod (hi - lo + 1) + lo)
  | Dyadic m e, Floating p emin etop =>
      if (Z.abs m <? 2 ^ p) && (emin <=? e) && (e + Z.log2 (Z.abs m) <? etop) then v else other t v
  | Special _, Floating _ _ _ => v
  | _, _ => other t v
  end.
(** variant(Arg&&), variant.h:1521-1533, and operator=(Arg&&), 1599-1613: the number of the alternative
    and, for an arithmetic alternative, its value; None when the program does not compile *)
Definition construct (other : arith -> value -> value) (arg : arith) (ts : list alternative) (v : value) :
  option (nat * option value) :=
  match best_match arg ts with
  | Some i => match nth_error ts i with
              | Some (Arith t) => Some (i, Some (converted other t v))
              | _ => Some (i, None)
              end
  | None => None
  end.
