(** The arguments of the literals of date.h *)
From Coq Require Import ZArith.
Local Open Scope Z_scope.

(** Values of unsigned long long *)
Definition ulonglong (n : Z) : Prop := 0 <= n < 2 ^ 64.
