(** What the properties of to_number are stated in terms of: digit strings, their values, and
    the documented number formats. *)
From Coq Require Import Reals.
From Verif Require Import Base StrSpec.
Local Open Scope Z_scope.

Definition dec_digit (c : ascii) : Prop := 48 <= uc c <= 57.
Definition all_digits (s : str) : Prop := forall c, In c s -> dec_digit c.
Definition digit_value (c : ascii) : Z := uc c - 48.
(** The number denoted by a digit string *)
Definition digits_value (s : str) : Z := fold_left (fun v c => 10 * v + digit_value c) s 0.

(** Decimal representation of an integer as produced by std::to_string: no leading zeros *)
Fixpoint digits_of (fuel : nat) (n : Z) : str :=
  match fuel with
  | O => []
  | S fuel' =>
      if n <? 10 then [chr (48 + n)] else digits_of fuel' (n / 10) ++ [chr (48 + n mod 10)]
  end.
Definition decimal_of_nonneg (n : Z) : str := digits_of (S (Z.to_nat (Z.log2 n))) n.
Definition decimal_of (z : Z) : str :=
  if z <? 0 then "-"%char :: decimal_of_nonneg (- z) else decimal_of_nonneg z.

(** Equality of strings up to the case of ASCII letters *)
Definition same_nocase (s t : str) : Prop := lower s = lower t.

(** An unsigned decimal number: digits with an optional point, at least one digit, and an
    optional exponent.  [d1], [d2]: the digits before and behind the point; [ex]: the exponent. *)
Definition point_part (d2 p : str) : Prop := (p = [] /\ d2 = []) \/ p = "."%char :: d2.
Definition exponent_part (ex : Z) (x : str) : Prop :=
  (x = [] /\ ex = 0) \/
  exists (e : ascii) (sign ds : str), x = e :: sign ++ ds /\ (e = "e"%char \/ e = "E"%char) /\
    ds <> [] /\ all_digits ds /\
    ((sign = [] /\ ex = digits_value ds) \/ (sign = ["+"%char] /\ ex = digits_value ds) \/
     (sign = ["-"%char] /\ ex = - digits_value ds)).
Definition decimal_number (d1 d2 : str) (ex : Z) (s : str) : Prop :=
  exists p x, s = d1 ++ p ++ x /\ point_part d2 p /\ exponent_part ex x /\
    all_digits d1 /\ all_digits d2 /\ d1 ++ d2 <> [].

(** The real number denoted: d1 d2 read as an integer, times a power of ten *)
Definition rpow10 (e : Z) : R := if e <? 0 then (/ IZR (10 ^ (- e)))%R else IZR (10 ^ e).
Definition number_value (d1 d2 : str) (ex : Z) : R :=
  (IZR (digits_value (d1 ++ d2)) * rpow10 (ex - zlen d2))%R.

Definition inf_form (s : str) : Prop := same_nocase s (!"inf") \/ same_nocase s (!"infinity").
Definition nan_char (c : ascii) : Prop :=
  48 <= uc c <= 57 \/ 65 <= uc c <= 90 \/ 97 <= uc c <= 122 \/ c = "_"%char.
Definition nan_form (s : str) : Prop :=
  same_nocase s (!"nan") \/
  exists n cs, s = n ++ "("%char :: cs ++ [")"%char] /\ same_nocase n (!"nan") /\
               forall c, In c cs -> nan_char c.

(** The digits that count: without leading zeros *)
Fixpoint drop_zeros (s : str) : str :=
  match s with
  | c :: s' => if Ascii.eqb c "0" then drop_zeros s' else s
  | [] => []
  end.

(** A number of which only the first 19 significant characters are required to be digits *)
Definition lenient_number (b a : str) (ex : Z) (s : str) : Prop :=
  exists pt x, s = b ++ pt ++ x /\ point_part a pt /\ exponent_part ex x /\ b ++ a <> [] /\
    all_digits (firstn 19 (drop_zeros (b ++ a))).
