(** What toc should return *)
From Coq Require Import ZArith.
From Verif Require Import Base IntModel TocModel.
Local Open Scope Z_scope.

(** A unit of [k] nanoseconds, and the number of whole units in [elapsed] nanoseconds *)
Definition unit_ns (p : period) (k : Z) : Prop := 0 < den p /\ 0 < num p /\ 0 < k /\ 1000000000 * num p = k * den p.
Definition whole_units (k elapsed q : Z) : Prop := q * k <= elapsed < (q + 1) * k.
(** Two readings of the steady clock, the first one before the second, not 292 years apart *)
Definition readings (t0 now : Z) : Prop := in_range i64 t0 /\ in_range i64 now /\ t0 <= now /\ now - t0 <= imax i64.
(** A unit of which [m] make up a nanosecond *)
Definition unit_of_ns (p : period) (m : Z) : Prop := 0 < num p /\ 0 < m /\ den p = m * (1000000000 * num p).
