(** Vocabulary for the properties of num_util.h, gcd_lcm.h and bit_manip.h. *)
From Verif Require Import Base.
Local Open Scope Z_scope.

(** A comparison function is a strict weak order: "less" is irreflexive and transitive, and
    "neither is less" is transitive. *)
Definition strict_weak_order {T} (lt : T -> T -> bool) : Prop :=
  (forall x, lt x x = false) /\
  (forall x y z, lt x y = true -> lt y z = true -> lt x z = true) /\
  (forall x y z, lt x y = false -> lt y x = false -> lt y z = false -> lt z y = false ->
     lt x z = false /\ lt z x = false).

(** d is a common divisor; m is a common multiple *)
Definition common_divisor (d a b : Z) : Prop := (d | a) /\ (d | b).
Definition common_multiple (m a b : Z) : Prop := (a | m) /\ (b | m).
Definition is_gcd (g a b : Z) : Prop :=
  0 <= g /\ common_divisor g a b /\ forall d, common_divisor d a b -> (d | g).
(** The least positive common multiple *)
Definition is_lcm (m a b : Z) : Prop :=
  0 < m /\ common_multiple m a b /\ forall k, 0 < k -> common_multiple k a b -> m <= k.
