(** Vocabulary of the span properties. *)
From Verif Require Import Base SpanModel.
Open Scope Z_scope.

Section Elems.
Context {A : Type}.

(** The sequence of elements a span denotes. *)
Definition elems (m : list A) (s : span) : list A :=
  match ptr s with
  | None => []
  | Some i => firstn (Z.to_nat (size s)) (skipn (Z.to_nat i) m)
  end.

(** A span that designates elements of the array [m] only.  An array has fewer than
    2^63 elements (its size in bytes must fit into std::ptrdiff_t). *)
Definition valid (m : list A) (s : span) : Prop :=
  zlen m < 2 ^ 63 /\ 0 <= size s /\
  match ptr s with
  | None => size s = 0
  | Some i => 0 <= i /\ i + size s <= zlen m
  end.

(** The elements of [t] lie inside those of [s]: every position [t] may access is one
    [s] may access. *)
Definition within (t s : span) : Prop :=
  match ptr t with
  | None => size t = 0
  | Some j => exists i, ptr s = Some i /\ i <= j /\ j + size t <= i + size s
  end.

(** List slicing: the [n] elements from position [o]. *)
Definition slice (l : list A) (o n : Z) : list A :=
  firstn (Z.to_nat n) (skipn (Z.to_nat o) l).
End Elems.

(** [l] comes before [r] in the lexicographic order for the element order [lt] with
    converse [gt]: either they agree on a proper prefix and then [l] has the smaller
    element, or [l] is a proper prefix of [r].  Two elements agree when neither is
    smaller than the other. *)
Inductive lex {A B : Type} (lt gt : A -> B -> bool) : list A -> list B -> Prop :=
| lex_end b r : lex lt gt [] (b :: r)
| lex_less a l b r : lt a b = true -> lex lt gt (a :: l) (b :: r)
| lex_same a l b r : lt a b = false -> gt a b = false -> lex lt gt l r ->
    lex lt gt (a :: l) (b :: r).
