(** IEEE-754 binary floating-point types (Flocq's [binary_float prec emax], one NaN) and the
    floating-point part of include/gul14/num_util.h.  Rounding is to nearest, ties to even.
    [prec] and [emax] are 24 and 128 for float, 53 and 1024 for double. *)
From Coq Require Import ZArith Bool Reals.
From Flocq Require Export Core.Core IEEE754.BinarySingleNaN.
From Verif Require Import Base IntModel NumModel.
Local Open Scope Z_scope.
Local Open Scope outcome_scope.

Section Fmt.
Context (prec emax : Z) {Hprec : Prec_gt_0 prec} {Hmax : Prec_lt_emax prec emax}.

Definition flt_t := binary_float prec emax.
Implicit Types a b : binary_float prec emax.

(** The operators + - * / of the type *)
Definition fadd a b := Bplus mode_NE a b.
Definition fsub a b := Bminus mode_NE a b.
Definition fmul a b := Bmult mode_NE a b.
Definition fdiv a b := Bdiv mode_NE a b.
(** The operators < <= == (false if an operand is NaN) *)
Definition flt a b : bool := Bltb a b.
Definition fle a b : bool := Bleb a b.
Definition feq a b : bool := Beqb a b.
(** Conversion of an integer to the type *)
Definition f_of_Z (z : Z) : binary_float prec emax := binary_normalize prec emax _ _ mode_NE z 0 false.
(** std::numeric_limits<T>::epsilon() = 2^(1-prec) and denorm_min() = 2^(3-emax-prec) *)
Definition f_epsilon : binary_float prec emax := binary_normalize prec emax _ _ mode_NE 1 (1 - prec) false.
Definition f_denorm_min : binary_float prec emax :=
  binary_normalize prec emax _ _ mode_NE 1 (3 - emax - prec) false.
(** std::isnormal and std::isfinite *)
Definition f_isnormal a : bool :=
  match a with
  | B754_finite _ m _ _ => Zpos (digits2_pos m) =? prec
  | _ => false
  end.
Definition f_isfinite a : bool := is_finite a.

(** num_util.h:61-65 gul14::abs: std::abs of a floating-point value *)
Definition f_abs a := Babs a.

(** num_util.h:118-134 within_abs for a floating-point type *)
Definition within_abs_f (a b tol : binary_float prec emax) : bool :=
  let tol := f_abs tol in
  if flt b a then fle (fsub a tol) b else fle (fsub b tol) a.

(** num_util.h:152-174 within_ulp; [ulp] is an unsigned int.  std::max(x, y) is y if x < y,
    else x. *)
Definition within_ulp (a b : binary_float prec emax) (ulp : Z) : bool :=
  if feq a b then true
  else
    let diff := f_abs (fsub a b) in
    let maxval := std_max flt (f_abs a) (f_abs b) in
    if f_isnormal maxval
    then fle diff (fmul (fmul f_epsilon (f_of_Z ulp)) maxval)
    else if f_isfinite maxval
    then fle diff (fmul f_denorm_min (f_of_Z ulp))
    else false.

(** num_util.h:92-105 within_orders for a floating-point type.  The value [p] stands for the
    result of the library call std::pow(10, orders), which is not modelled. *)
Definition within_orders_f (a b p : binary_float prec emax) : bool :=
  let difference := f_abs (fsub a b) in
  if feq difference (f_of_Z 0) then true
  else
    let maximum := std_max flt (f_abs a) (f_abs b) in
    let limit := fdiv maximum p in
    flt difference limit.
End Fmt.

Arguments fadd {prec emax Hprec Hmax}.
Arguments fsub {prec emax Hprec Hmax}.
Arguments fmul {prec emax Hprec Hmax}.
Arguments fdiv {prec emax Hprec Hmax}.
Arguments flt {prec emax}.
Arguments fle {prec emax}.
Arguments feq {prec emax}.
Arguments f_of_Z {prec emax Hprec Hmax}.
Arguments f_epsilon {prec emax Hprec Hmax}.
Arguments f_denorm_min {prec emax Hprec Hmax}.
Arguments f_isnormal {prec emax}.
Arguments f_isfinite {prec emax}.
Arguments f_abs {prec emax}.
Arguments within_abs_f {prec emax Hprec Hmax}.
Arguments within_ulp {prec emax Hprec Hmax}.
Arguments within_orders_f {prec emax Hprec Hmax}.

(** float and double *)
#[global] Instance prec24 : Prec_gt_0 24 := eq_refl.
#[global] Instance prec53 : Prec_gt_0 53 := eq_refl.
#[global] Instance max128 : Prec_lt_emax 24 128 := eq_refl.
#[global] Instance max1024 : Prec_lt_emax 53 1024 := eq_refl.
Definition float : Type := binary_float 24 128.
Definition double : Type := binary_float 53 1024.

(** num_util.h:92-105 within_orders for an integral type [t]: the difference is computed in
    the promoted type, std::pow returns the double [p], and the comparison is done in double. *)
Definition within_orders_i (t : ity) (a b : Z) (p : double) : outcome bool :=
  d <- arith (promote t) (a - b) ;;
  difference <- abs (promote t) d ;;
  if difference =? 0 then Ok true
  else
    aa <- abs t a ;;
    ab <- abs t b ;;
    let maximum := std_max Z.ltb aa ab in
    let limit := fdiv (f_of_Z maximum) p in
    Ok (flt (f_of_Z difference) limit).
