(** The duration of a sleep *)
From Coq Require Import ZArith Reals.
From Flocq Require Import Core.Core IEEE754.BinarySingleNaN.

(** The correctly rounded number of nanoseconds in s seconds *)
Notation exact_ns s := (round radix2 (SpecFloat.fexp 53 1024) ZnearestE (B2R s * 1000000000))%R.
