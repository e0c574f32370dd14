(** Model of tic and toc of include/gul14/time_util.h.  The steady clock is a parameter: its readings
    are 64-bit numbers of nanoseconds (libstdc++). *)
From Coq Require Import ZArith.
From Verif Require Import Base IntModel FloatModel.
Local Open Scope Z_scope.
Local Open Scope outcome_scope.

Definition i64 : ity := IT true 64.
(** A duration type: one unit is num/den seconds; std::ratio is kept in lowest terms *)
Record period := Ratio { num : Z; den : Z }.

(** std::chrono::duration_cast from nanoseconds (standard library contract, [time.duration.cast]):
    CF = ratio_divide<std::nano, To::period>, in lowest terms *)
Definition cf_num (p : period) : Z := den p / Z.gcd (den p) (1000000000 * num p).
Definition cf_den (p : period) : Z := 1000000000 * num p / Z.gcd (den p) (1000000000 * num p).
(** CR = common_type<To::rep, int64_t, intmax_t> *)
Definition cr (t : ity) : ity := if negb (sgn t) && (wid t =? 64) then t else i64.
Definition cast_int (t : ity) (p : period) (d : Z) : outcome Z :=
  let d := conv (cr t) d in
  r <- (if (cf_den p =? 1) && (cf_num p =? 1) then Ok d
        else if cf_den p =? 1 then arith (cr t) (d * cf_num p)
        else if cf_num p =? 1 then Ok (Z.quot d (cf_den p))
        else x <- arith (cr t) (d * cf_num p) ;; Ok (Z.quot x (cf_den p))) ;;
  Ok (conv t r).
Definition cast_double (p : period) (d : Z) : double :=
  let x : double := f_of_Z d in
  if (cf_den p =? 1) && (cf_num p =? 1) then x
  else if cf_den p =? 1 then fmul x (f_of_Z (cf_num p))
  else if cf_num p =? 1 then fdiv x (f_of_Z (cf_den p))
  else fdiv (fmul x (f_of_Z (cf_num p))) (f_of_Z (cf_den p)).

(** time_util.h:90-94 toc<TimeUnitType>(t0) at the reading [now] of the clock: the difference of two
    time points is a signed subtraction *)
Definition toc_int (t : ity) (p : period) (t0 now : Z) : outcome Z :=
  d <- arith i64 (now - t0) ;; cast_int t p d.
Definition toc_double (p : period) (t0 now : Z) : outcome double :=
  d <- arith i64 (now - t0) ;; Ok (cast_double p d).
(** The default TimeUnitType, std::chrono::duration<double> *)
Definition seconds : period := Ratio 1 1.
Definition toc (t0 now : Z) : outcome double := toc_double seconds t0 now.
