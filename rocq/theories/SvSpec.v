(** Specification vocabulary for string_view, independent of the model's search loops. *)
From Verif Require Import Base SvModel.
Local Open Scope Z_scope.

(** A valid view: it lies inside the memory block it points into.  No C++ object is larger
    than 2^63 - 1 bytes (PTRDIFF_MAX). *)
Definition valid (v : view) : Prop :=
  0 <= v_off v /\ 0 <= v_len v < 2 ^ 63 /\ v_off v + v_len v <= zlen (v_mem v).

(** The characters the view refers to. *)
Definition content (v : view) : str :=
  firstn (Z.to_nat (v_len v)) (skipn (Z.to_nat (v_off v)) (v_mem v)).

Definition is_size_t (z : Z) : Prop := 0 <= z < 2 ^ 64.

(** [needle] occurs in [hay] at position [p]. *)
Definition occurs_at (needle hay : str) (p : Z) : Prop :=
  exists a b, hay = a ++ needle ++ b /\ zlen a = p.

(** The character of [hay] at position [p] exists and (does not) belong(s) to [set]. *)
Definition char_in (set hay : str) (p : Z) : Prop :=
  exists a c b, hay = a ++ c :: b /\ zlen a = p /\ In c set.
Definition char_not_in (set hay : str) (p : Z) : Prop :=
  exists a c b, hay = a ++ c :: b /\ zlen a = p /\ ~ In c set.

(** [r] is the smallest position >= [pos] with property [P], or npos if there is none. *)
Definition is_first (P : Z -> Prop) (pos r : Z) : Prop :=
  (r = npos /\ forall p, pos <= p -> ~ P p) \/
  (pos <= r < npos /\ P r /\ forall p, pos <= p < r -> ~ P p).

(** [r] is the largest position <= [pos] with property [P], or npos if there is none. *)
Definition is_last (P : Z -> Prop) (pos r : Z) : Prop :=
  (r = npos /\ forall p, p <= pos -> ~ P p) \/
  (r <= pos /\ r < npos /\ P r /\ forall p, r < p <= pos -> ~ P p).

(** Lexicographic order by unsigned byte value; a proper prefix is smaller. *)
Inductive lex_lt : str -> str -> Prop :=
| lex_prefix c t : lex_lt [] (c :: t)
| lex_head a b s t : uc a < uc b -> lex_lt (a :: s) (b :: t)
| lex_tail c s t : lex_lt s t -> lex_lt (c :: s) (c :: t).
