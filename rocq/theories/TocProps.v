(** Property C84: tic and toc *)
From Coq Require Import ZArith Reals Lia Lra.
From Flocq Require Import Core.Core IEEE754.BinarySingleNaN.
From Verif Require Import Base IntModel FloatModel TocModel TocSpec TocProofs.
Local Open Scope Z_scope.

(** toc with an integer representation returns the number of whole units that have passed, if it can
    be represented *)
Theorem C84_units : forall (t : ity) (p : period) (k t0 now q : Z), is_ity t -> unit_ns p k -> readings t0 now ->
  whole_units k (now - t0) q -> in_range t q -> toc_int t p t0 now = Ok q.
Proof. exact toc_units. Qed.
(** It never decreases, and is never negative *)
Theorem C84_monotone : forall (t : ity) (p : period) (k t0 now1 now2 q1 q2 : Z), is_ity t -> unit_ns p k ->
  readings t0 now1 -> readings t0 now2 -> now1 <= now2 ->
  in_range t (Z.quot (now1 - t0) k) -> in_range t (Z.quot (now2 - t0) k) ->
  toc_int t p t0 now1 = Ok q1 -> toc_int t p t0 now2 = Ok q2 -> 0 <= q1 <= q2.
Proof.
  intros t p k t0 n1 n2 q1 q2 Ht Hp R1 R2 L I1 I2 E1 E2. assert (Hk : 0 < k) by apply Hp.
  assert (L1 : 0 <= n1 - t0) by (destruct R1 as (_ & _ & ? & _); lia). assert (L2 : 0 <= n2 - t0) by (destruct R2 as (_ & _ & ? & _); lia).
  rewrite (C84_units t p k t0 n1 _ Ht Hp R1 (quot_unit k _ Hk L1) I1) in E1.
  rewrite (C84_units t p k t0 n2 _ Ht Hp R2 (quot_unit k _ Hk L2) I2) in E2.
  injection E1 as <-. injection E2 as <-. split; [apply Z.quot_pos; lia|apply Z.quot_le_mono; lia].
Qed.
(** After at least n units have passed (for instance in a sleep that is not interrupted), it is at least n *)
Theorem C84_at_least : forall (t : ity) (p : period) (k t0 now n q : Z), is_ity t -> unit_ns p k -> readings t0 now ->
  in_range t (Z.quot (now - t0) k) -> t0 + n * k <= now -> toc_int t p t0 now = Ok q -> n <= q.
Proof.
  intros t p k t0 now n q Ht Hp R Hi Hn E. assert (Hk : 0 < k) by apply Hp.
  assert (L : 0 <= now - t0) by (destruct R as (_ & _ & ? & _); lia).
  pose proof (quot_unit k _ Hk L) as W. rewrite (C84_units t p k t0 now _ Ht Hp R W Hi) in E. injection E as <-. unfold whole_units in W. nia.
Qed.
(** toc without a unit returns the elapsed seconds; the error is at most 3 * 2^-53 of them ... *)
Theorem C84_seconds : forall t0 now : Z, readings t0 now -> exists r, toc t0 now = Ok r /\ is_finite r = true /\
  let s := (IZR (now - t0) / 1000000000)%R in (Rabs (B2R r - s) <= 3 / 2 ^ 53 * s)%R.
Proof.
  intros t0 now R. destruct (toc_value t0 now R) as (r & E & F & V). exists r. split; [exact E|]. split; [exact F|]. cbv zeta.
  destruct R as (_ & _ & L & _). apply seconds_error; [lia|exact V].
Qed.
(** ... and during the first hundred days it is correctly rounded *)
Theorem C84_rounded : forall t0 now : Z, readings t0 now -> now - t0 <= 2 ^ 53 -> exists r, toc t0 now = Ok r /\ is_finite r = true /\
  B2R r = round radix2 (SpecFloat.fexp 53 1024) ZnearestE (IZR (now - t0) / 1000000000).
Proof.
  intros t0 now R H. destruct (toc_value t0 now R) as (r & E & F & V). exists r. split; [exact E|]. split; [exact F|].
  rewrite V. f_equal. f_equal. apply rnd_small. destruct R as (_ & _ & L & _). lia.
Qed.
(** it never decreases, and is never negative *)
Theorem C84_seconds_monotone : forall t0 now1 now2 r1 r2, readings t0 now1 -> readings t0 now2 -> now1 <= now2 ->
  toc t0 now1 = Ok r1 -> toc t0 now2 = Ok r2 -> (0 <= B2R r1 <= B2R r2)%R.
Proof.
  intros t0 n1 n2 r1 r2 R1 R2 L E1 E2. destruct (toc_value t0 n1 R1) as (s1 & S1 & _ & V1). destruct (toc_value t0 n2 R2) as (s2 & S2 & _ & V2).
  rewrite E1 in S1. rewrite E2 in S2. injection S1 as <-. injection S2 as <-. rewrite V1, V2.
  destruct R1 as (_ & _ & L1 & _). apply seconds_mono; lia.
Qed.
(** Finding: in a unit whose representation is too narrow the result wraps around; milliseconds in an
    int are negative after 25 days *)
Theorem C84_narrow_finding : readings 0 (25 * 86400 * 10 ^ 9) /\ unit_ns (Ratio 1 1000) 1000000 /\
  toc_int (IT true 32) (Ratio 1 1000) 0 (25 * 86400 * 10 ^ 9) = Ok (-2134967296).
Proof. repeat split; try (vm_compute; congruence). Qed.
Example C84_example : readings 5000 3600000005001 /\ unit_ns (Ratio 1 1000) 1000000 /\ unit_ns (Ratio 60 1) 60000000000 /\
  toc_int i64 (Ratio 1 1000) 5000 3600000005001 = Ok 3600000 /\ toc_int (IT false 8) (Ratio 60 1) 5000 3600000005001 = Ok 60 /\
  (exists r, toc 0 2500000000 = Ok r /\ r = @B754_finite 53 1024 false 5629499534213120 (-51) eq_refl) /\ in_range (IT false 8) (Z.quot 3600000000001 60000000000).
Proof. repeat split; try (vm_compute; congruence). eexists. split; [reflexivity|]. apply B2SF_inj. vm_compute. reflexivity. Qed.
Print Assumptions C84_units.
Print Assumptions C84_seconds.
