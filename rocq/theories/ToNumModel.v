(** Model of include/gul14/to_number.h and src/to_number.cc.
    A string_view is modelled by its content (the view operations used here are the subject of
    SvModel.v and are shown to be correct there). *)
From Coq Require Import Reals.
From Flocq Require Import Core.Core IEEE754.BinarySingleNaN.
From Verif Require Import Base StrSearch StrModel IntModel FloatModel.
Local Open Scope Z_scope.
Local Open Scope outcome_scope.

(** to_number.h:51-54 detail::is_digit *)
Definition is_digit (c : ascii) : bool := (sc "0" <=? sc c) && (sc c <=? sc "9").
(** to_number.h:56-67 detail::is_nan_specifier *)
Definition is_nan_specifier (c : ascii) : bool :=
  ((sc "0" <=? sc c) && (sc c <=? sc "9")) || ((sc "a" <=? sc c) && (sc c <=? sc "z")) ||
  ((sc "A" <=? sc c) && (sc c <=? sc "Z")) || Ascii.eqb c "_".

(** __builtin_mul_overflow and __builtin_add_overflow into a variable of type [t]: the exact
    result if it is representable, otherwise overflow is reported. *)
Definition checked (t : ity) (z : Z) : option Z := if in_rangeb t z then Some z else None.

(** to_number.h:81-106 the loop of detail::to_unsigned_integer (branch __GNUC__).  [magnitude]
    is multiplied by ten for every digit (in type [t]; only used if count_magnitude). *)
Fixpoint tui_loop (t : ity) (result magnitude : Z) (s : str) : option (Z * Z) :=
  match s with
  | [] => Some (result, magnitude)
  | c :: s' =>
      if negb (is_digit c) then None
      else match checked t (result * 10) with
           | None => None
           | Some r =>
               match checked t (r + conv t (sc c - sc "0")) with
               | None => None
               | Some r' => tui_loop t r' (conv t (magnitude * 10)) s'
               end
           end
  end.
(** to_number.h:68-109 detail::to_unsigned_integer<NumberType, true>(str, &magnitude): the
    result and the new magnitude *)
Definition to_unsigned_integer_m (t : ity) (s : str) (magnitude : Z) : option (Z * Z) :=
  match s with
  | [] => None
  | _ => tui_loop t 0 magnitude s
  end.
(** to_number.h:68-109 detail::to_unsigned_integer<NumberType, false>(str) *)
Definition to_unsigned_integer (t : ity) (s : str) : option Z :=
  option_map fst (to_unsigned_integer_m t s 1).

(** to_number.h:92-103 the same loop in the branch for other compilers: the multiplication is
    guarded, the addition is done in the promoted type and converted back, and an overflow is
    detected by the sum being smaller than before. *)
Fixpoint tui_loop_portable (t : ity) (result : Z) (s : str) : outcome (option Z) :=
  match s with
  | [] => Ok (Some result)
  | c :: s' =>
      if negb (is_digit c) then Ok None
      else if imax t / 10 <? result then Ok None
      else
        p <- arith (promote t) (result * 10) ;;
        let last := conv t p in
        q <- arith (promote t) (last + (sc c - sc "0")) ;;
        let r := conv t q in
        if r <? last then Ok None else tui_loop_portable t r s'
  end.
Definition to_unsigned_integer_portable (t : ity) (s : str) : outcome (option Z) :=
  match s with
  | [] => Ok None
  | _ => tui_loop_portable t 0 s
  end.

(** to_number.h:496-503 to_number<unsigned> *)
Definition to_number_unsigned (t : ity) (s : str) : option Z := to_unsigned_integer t s.

(** to_number.h:506-536 to_number<signed>.  The constant max_abs_negative_value is computed in
    the (promoted) unsigned type; the negation is done in the promoted signed type. *)
Definition to_number_signed (t : ity) (s : str) : outcome (option Z) :=
  match s with
  | [] => Ok None
  | c :: s' =>
      if Ascii.eqb c "-"
      then
        let u := IT false (wid t) in
        let max_abs_negative_value := imax t + 1 in
        match to_unsigned_integer u s' with
        | None => Ok None
        | Some r =>
            if r =? max_abs_negative_value then Ok (Some (imin t))
            else if max_abs_negative_value <? r then Ok None
            else n <- arith (promote t) (- conv t r) ;; Ok (Some (conv t n))
        end
      else Ok (to_unsigned_integer t s)
  end.

(** to_number.h:576-593 to_number<bool> *)
Definition to_number_bool (s : str) : outcome (option bool) :=
  match s with
  | [c] =>
      if Ascii.eqb c "1" then Ok (Some true)
      else if Ascii.eqb c "0" then Ok (Some false)
      else Ok None
  | _ =>
      b <- equals_nocase s (!"true") ;;
      if b then Ok (Some true)
      else
        b <- equals_nocase s (!"false") ;;
        if b then Ok (Some false) else Ok None
  end.

(** * Floating-point numbers *)

Definition t_i32 := IT true 32.
Definition t_u64 := IT false 64.

(** to_number.h:116-141 detail::parse_exponent; [str] is not empty. *)
Definition parse_exponent (s : str) : outcome (option Z) :=
  match s with
  | [] => UB
  | c :: s' =>
      let negative := Ascii.eqb c "-" in
      let rest := if Ascii.eqb c "+" || Ascii.eqb c "-" then s' else s in
      match to_unsigned_integer t_i32 rest with
      | None => Ok None
      | Some e => if negative then n <- arith t_i32 (- e) ;; Ok (Some n) else Ok (Some e)
      end
  end.

(** The x87 80-bit extended type, i.e. long double on x86-64 *)
#[global] Instance prec64 : Prec_gt_0 64 := eq_refl.
#[global] Instance max16384 : Prec_lt_emax 64 16384 := eq_refl.
Definition ldouble : Type := binary_float 64 16384.

(** Floating-point conversion between two formats ([conv.double]): correctly rounded *)
Definition fconv {p1 e1 : Z} (p2 e2 : Z) {H : Prec_gt_0 p2} {H' : Prec_lt_emax p2 e2}
    (x : binary_float p1 e1) : binary_float p2 e2 :=
  match x with
  | B754_zero s => B754_zero s
  | B754_infinity s => B754_infinity s
  | B754_nan => B754_nan
  | B754_finite s m e _ => binary_normalize p2 e2 _ _ mode_NE (if s then Zneg m else Zpos m) e s
  end.

(** to_number.cc:54-74 The long double literals 10^k and 10^-k: the nearest value.  For 10^-k
    this is computed from 2^K / 10^k with K so large that the quotient has more than 66 bits,
    with the inexactness recorded in an extra last bit. *)
Definition lit_pos (k : Z) : ldouble := binary_normalize 64 16384 _ _ mode_NE (10 ^ k) 0 false.
Definition lit_neg (k : Z) : ldouble :=
  if k =? 0 then lit_pos 0
  else
    let K := Z.log2_up (10 ^ k) + 80 in
    binary_normalize 64 16384 _ _ mode_NE (2 * (2 ^ K / 10 ^ k) + 1) (- K - 1) false.

(** to_number.cc:46-91 detail::pow10.  direct_powers[i] = 10^(+-i), binary_powers[i] =
    10^(+-16*2^i) for i < 9 and binary_powers[9] = infinity or 0.  Negating INT_MIN is UB. *)
Definition direct_power (neg : bool) (i : Z) : ldouble := if neg then lit_neg i else lit_pos i.
Definition binary_power (neg : bool) (i : Z) : ldouble :=
  if i =? 9 then (if neg then B754_zero false else B754_infinity false)
  else if neg then lit_neg (16 * 2 ^ i) else lit_pos (16 * 2 ^ i).
Fixpoint pow10_loop (fuel : nat) (neg : bool) (exponent_bit exponent : Z) (result : ldouble) : ldouble :=
  match fuel with
  | O => result
  | S fuel' =>
      if exponent >? 0 then
        if exponent_bit =? 9 then binary_power neg exponent_bit
        else
          let result' := if Z.odd exponent then fmul result (binary_power neg exponent_bit) else result in
          pow10_loop fuel' neg (exponent_bit + 1) (Z.shiftr exponent 1) result'
      else result
  end.
Definition pow10 (exponent : Z) : outcome ldouble :=
  let neg := exponent <? 0 in
  e <- (if neg then arith t_i32 (- exponent) else Ok exponent) ;;
  let result := direct_power neg (Z.land e 15) in
  Ok (pow10_loop 11 neg 0 (Z.shiftr e 4) result).

(** static_cast<F>(unsigned 64-bit integer) is [f_of_Z] (round to nearest). *)

(** to_number.h:177-208 detail::to_normalized_float<CalcType> with FloatConversionIntType =
    std::uint64_t (digits10 = 19) *)
Definition to_normalized_float {p e : Z} {H : Prec_gt_0 p} {H' : Prec_lt_emax p e}
    (i1 i2 : str) : option (binary_float p e) :=
  let i1 := firstn (Nat.min (length i1) 19) i1 in
  let i2 := firstn (Nat.min (length i2) (19 - length i1)) i2 in
  match
    (match i2 with
     | [] => Some (0, 1)
     | _ => to_unsigned_integer_m t_u64 i2 1
     end)
  with
  | None => None
  | Some (accu, magnitude) =>
      match
        (match i1 with
         | [] => Some (accu, magnitude)
         | _ =>
             match to_unsigned_integer_m t_u64 i1 magnitude with
             | None => None
             | Some (f1, magnitude') => Some (conv t_u64 (accu + conv t_u64 (f1 * magnitude)), magnitude')
             end
         end)
      with
      | None => None
      | Some (accu, magnitude) => Some (fdiv (f_of_Z accu) (f_of_Z (magnitude / 10)))
      end
  end.

(** to_number.h:235-267 detail::parse_inf_nan: [Some r] if result_valid with result [r] *)
Definition parse_inf_nan {p e : Z} (s : str) : option (option (binary_float p e)) :=
  let strlength := length s in
  if Nat.eqb strlength 0 then Some None
  else if starts_with_nocase s (!"inf") then
    if Nat.eqb strlength 3 then Some (Some (B754_infinity false))
    else if Nat.eqb strlength 8 && starts_with_nocase (skipn 3 s) (!"inity")
    then Some (Some (B754_infinity false))
    else Some None
  else if starts_with_nocase s (!"nan") then
    if Nat.eqb strlength 3 then Some (Some B754_nan)
    else if Nat.ltb strlength 5 || negb (Ascii.eqb (nth 3 s "000"%char) "(")
            || negb (Ascii.eqb (last s "000"%char) ")")
    then Some None
    else if forallb is_nan_specifier (removelast (skipn 4 s))
    then Some (Some B754_nan)
    else Some None
  else None.

(** The loops at to_number.h:338-339 and 344-345: remove leading zeros *)
Fixpoint strip_zeros (s : str) : str :=
  match s with
  | c :: s' => if Ascii.eqb c "0" then strip_zeros s' else s
  | [] => []
  end.
(** static_cast<int>(size_t) *)
Definition int_of_size (n : nat) : Z := conv t_i32 (Z.of_nat n).

(** to_number.h:335-358 normalization: the digits before and after the virtual point that
    follows the first digit, and the corrected exponent; None stands for "return { 0 }". *)
Definition normalize_number (before after : str) (exponent : Z) : outcome (option (str * str * Z)) :=
  match strip_zeros before with
  | [] =>
      let old_digits := length after in
      match strip_zeros after with
      | [] => Ok None
      | c :: after' =>
          e <- arith t_i32 (exponent - int_of_size (old_digits - length after')) ;;
          Ok (Some ([c], after', e))
      end
  | before' =>
      e <- arith t_i32 (exponent + int_of_size (length before' - 1)) ;;
      Ok (Some (before', after, e))
  end.

(** to_number.h:300-374 detail::to_unsigned_float<NumberType>; NumberType is the format
    (p, e), CalcType the format (pc, ec): double for float and double, long double for long
    double.  The product is computed in long double and converted to NumberType. *)
Section ToFloat.
Context (p e : Z) {H : Prec_gt_0 p} {H' : Prec_lt_emax p e}.
Context (pc ec : Z) {Hc : Prec_gt_0 pc} {Hc' : Prec_lt_emax pc ec}.

(** to_number.h:326-333 the parts before and after the decimal point *)
Definition split_point (s : str) : str * str :=
  match find s [("."%char : ascii)] 0 with
  | Some point_pos => (firstn point_pos s, skipn (point_pos + 1) s)
  | None => (s, [])
  end.
(** to_number.h:307-324 mantissa and exponent; None stands for "return nullopt" *)
Definition split_exponent (s : str) : outcome (option (str * Z)) :=
  match find_first_of s (!"eE") 0 with
  | Some e_pos =>
      if Nat.eqb (e_pos + 1) (length s) then Ok None
      else
        x <- parse_exponent (skipn (e_pos + 1) s) ;;
        match x with
        | None => Ok None
        | Some ex => Ok (Some (firstn e_pos s, ex))
        end
  | None => Ok (Some (s, 0))
  end.
(** to_number.h:326-373 from the mantissa string on *)
Definition convert_mantissa (mant : str) (exponent : Z) : outcome (option (binary_float p e)) :=
  let (before, after) := split_point mant in
  match before, after with
  | [], [] => Ok None
  | _, _ =>
      n <- normalize_number before after exponent ;;
      match n with
      | None => Ok (Some (f_of_Z 0))
      | Some (b, a, ex) =>
          match to_normalized_float (p := pc) (e := ec) b a with
          | None => Ok None
          | Some norm_val =>
              pw <- pow10 ex ;;
              Ok (Some (fconv p e (fmul pw (fconv 64 16384 norm_val))))
          end
      end
  end.
Definition to_unsigned_float (s : str) : outcome (option (binary_float p e)) :=
  match parse_inf_nan s with
  | Some r => Ok r
  | None =>
      me <- split_exponent s ;;
      match me with
      | None => Ok None
      | Some (mant, exponent) => convert_mantissa mant exponent
      end
  end.
(** to_number.h:539-573 to_number<floating point> *)
Definition to_number_float (s : str) : outcome (option (binary_float p e)) :=
  match s with
  | [] => Ok None
  | c :: s' =>
      if Ascii.eqb c "-"
      then
        r <- to_unsigned_float s' ;;
        match r with
        | None => Ok None
        | Some v => Ok (Some (Bopp v))
        end
      else to_unsigned_float s
  end.
End ToFloat.

(** to_number<float>, to_number<double> and to_number<long double> on x86-64 *)
Definition to_number_f32 : str -> outcome (option float) := to_number_float 24 128 53 1024.
Definition to_number_f64 : str -> outcome (option double) := to_number_float 53 1024 53 1024.
Definition to_number_f80 : str -> outcome (option ldouble) := to_number_float 64 16384 64 16384.
