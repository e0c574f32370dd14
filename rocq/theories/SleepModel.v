(** sleep(double, trigger) of include/gul14/time_util.h: how the number of seconds becomes a point in
    time.  The waiting itself is in TrigModel.v.  The conversions are those of libstdc++:
    condition_variable::wait_for(lock, d, p) waits until steady_clock::now() plus d, rounded up to
    nanoseconds. *)
From Coq Require Import ZArith Bool.
From Verif Require Import Base IntModel FloatModel TocModel.
Local Open Scope Z_scope.
Local Open Scope outcome_scope.

(** duration<double> to duration<double, std::nano> *)
Definition nanos (s : double) : double := fmul s (f_of_Z 1000000000).
(** duration_cast<nanoseconds>(duration<double>): the conversion of a double to a 64-bit integer is
    undefined if the integral part does not fit *)
Definition cast_nanos (s : double) : outcome Z :=
  if is_finite (nanos s) && in_rangeb i64 (Btrunc (nanos s)) then Ok (Btrunc (nanos s)) else UB.
(** std::chrono::ceil<nanoseconds> *)
Definition ceil_nanos (s : double) : outcome Z :=
  t <- cast_nanos s ;;
  if flt (f_of_Z t) (nanos s) then arith i64 (t + 1) else Ok t.
(** time_util.h:135-138 (through 113-117 and Trigger.h:188-193): the reading of the clock at which
    the sleep ends, if the trigger does not fire; [now] is the reading at the call *)
Definition wake_up (now : Z) (s : double) : outcome Z :=
  n <- ceil_nanos s ;; arith i64 (now + n).
