(** Model of include/gul14/num_util.h (integer part), gcd_lcm.h and bit_manip.h. *)
From Verif Require Import Base IntModel.
Local Open Scope Z_scope.
Local Open Scope outcome_scope.

(** * num_util.h *)

(** num_util.h:52-65 gul14::abs for an integral type [t].  std::abs(n) is std::abs(int) for
    types narrower than int and is UB for the most negative value; the result is converted
    back to ValueT. *)
Definition abs (t : ity) (n : Z) : outcome Z :=
  if sgn t
  then a <- arith (promote t) (Z.abs n) ;; Ok (conv t a)
  else Ok n.

(** num_util.h:118-134 within_abs for an integral type: the differences are computed in the
    promoted type. *)
Definition within_abs (t : ity) (a b tol : Z) : outcome bool :=
  tol <- abs t tol ;;
  if b <? a
  then d <- arith (promote t) (a - b) ;; Ok (d <=? tol)
  else d <- arith (promote t) (b - a) ;; Ok (d <=? tol).

(** num_util.h:207-210 clamp(v, lo, hi) for a type with operator< [lt]; the result is one of
    the three references.  std::min(a, b) is b if b < a else a; std::max(a, b) is b if a < b
    else a. *)
Definition std_min {T} (lt : T -> T -> bool) (a b : T) : T := if lt b a then b else a.
Definition std_max {T} (lt : T -> T -> bool) (a b : T) : T := if lt a b then b else a.
Definition clamp {T} (lt : T -> T -> bool) (v lo hi : T) : T :=
  std_max lt lo (std_min lt v hi).
(** num_util.h:234-241 clamp(v, lo, hi, comp) *)
Definition clamp_comp {T} (comp : T -> T -> bool) (v lo hi : T) : T :=
  if comp v lo then lo else if comp hi v then hi else v.

(** * gcd_lcm.h *)

(** The operator % in the promoted type of the operands (gcd_lcm.h:87) *)
Definition rem_op (t : ity) (c d : Z) : outcome Z :=
  if d =? 0 then UB
  else if sgn (promote t) && (c =? imin (promote t)) && (d =? -1) then UB
  else Ok (Z.rem c d).
(** The operator / in type [t] *)
Definition div_op (t : ity) (c d : Z) : outcome Z :=
  if d =? 0 then UB else arith t (Z.quot c d).

(** gcd_lcm.h:84-89, the Euclidean loop; the assignments convert to CommonType = [t]. *)
Fixpoint gcd_loop (fuel : nat) (t : ity) (c d : Z) : outcome Z :=
  match fuel with
  | O => Diverge
  | S fuel' =>
      if d =? 0 then Ok c
      else
        let tmp := d in
        r <- rem_op t c d ;;
        gcd_loop fuel' t tmp (conv t r)
  end.
(** gcd_lcm.h:69-92 gcd(a, b) for argument types [ta], [tb] (same signedness: static_assert
    at 76-77).  The loop is given more fuel than it can use. *)
Definition gcd (ta tb : ity) (a b : Z) : outcome Z :=
  let t := common_type ta tb in
  c <- abs t (conv t a) ;;
  d <- abs t (conv t b) ;;
  gcd_loop (S (S (Z.to_nat (Z.abs d)))) t c d.

(** gcd_lcm.h:123-139 lcm(a, b).  a / gcd(a, b) is computed in the usual arithmetic type of
    the operands, the product in the usual arithmetic type of that and b. *)
Definition lcm (ta tb : ity) (a b : Z) : outcome Z :=
  let t := common_type ta tb in
  if (a =? 0) && (b =? 0) then Ok 0
  else
    g <- gcd ta tb a b ;;
    let t1 := usual ta t in
    q <- div_op t1 (conv t1 a) (conv t1 g) ;;
    let t2 := usual t1 tb in
    p <- arith t2 (conv t2 q * conv t2 b) ;;
    r <- abs t2 p ;;
    Ok (conv t r).

(** * bit_manip.h *)

(** bit_manip.h:120-124 bit_set<T>(bit): the assertion fails (or, with NDEBUG, the shift is
    UB) when bit is not smaller than the width; otherwise 1 is shifted in the (promoted)
    unsigned type and converted to T. *)
Definition bit_set1 (t : ity) (bit : Z) : outcome Z :=
  if bit <? wid t
  then
    let u := promote (IT false (wid t)) in
    s <- arith u (Z.shiftl 1 bit) ;;
    Ok (conv t s)
  else UB.
(** bit_manip.h:146-149 bit_set(previous, bit) *)
Definition bit_set (t : ity) (previous bit : Z) : outcome Z :=
  m <- bit_set1 t bit ;; Ok (conv t (Z.lor previous m)).
(** operator~ in the promoted type of [t] *)
Definition bit_not (t : ity) (z : Z) : Z := conv (promote t) (Z.lnot z).
(** bit_manip.h:171-174 bit_reset(previous, bit) *)
Definition bit_reset (t : ity) (previous bit : Z) : outcome Z :=
  m <- bit_set1 t bit ;; Ok (conv t (Z.land previous (bit_not t m))).
(** bit_manip.h:198-201 bit_flip(previous, bit) *)
Definition bit_flip (t : ity) (previous bit : Z) : outcome Z :=
  m <- bit_set1 t bit ;; Ok (conv t (Z.lxor previous m)).
(** bit_manip.h:223-226 bit_test(bits, bit) *)
Definition bit_test (t : ity) (bits bit : Z) : outcome bool :=
  m <- bit_set1 t bit ;; Ok (negb (Z.land bits m =? 0)).
