(** include/gul14/statistics.h.  A container is the list of its elements; [acc] is the accessor.
    The overloads for iterator pairs (616-837) are in StatItModel.v. *)
From Coq Require Import ZArith List Bool Reals Permutation.
From Flocq Require Import Core.Core IEEE754.BinarySingleNaN.
From Verif Require Import Base IntModel FloatModel.
Import ListNotations.

(** The arithmetic of ResultT that is used by the functions below.  [a_nat] is the conversion of
    a size; [a_sqr x] is std::pow(x, 2), taken to be the rounded product x * x. *)
Record arithmetic (T : Type) := Arith {
  a_zero : T; a_add : T -> T -> T; a_sub : T -> T -> T; a_div : T -> T -> T; a_sqr : T -> T; a_sqrt : T -> T; a_abs : T -> T;
  a_lt : T -> T -> bool; a_nat : nat -> T; a_two : T; a_nan : T }.
Arguments a_zero {T}. Arguments a_add {T}. Arguments a_sub {T}. Arguments a_div {T}. Arguments a_sqr {T}. Arguments a_sqrt {T}.
Arguments a_abs {T}. Arguments a_lt {T}. Arguments a_nat {T}. Arguments a_two {T}. Arguments a_nan {T}.

(** Exact arithmetic.  There is no NaN; [nan] is an arbitrary number in its place. *)
Definition exact (nan : R) : arithmetic R :=
  Arith R 0%R Rplus Rminus Rdiv (fun x => x * x)%R sqrt Rabs Rlt_bool INR 2%R nan.
(** IEEE arithmetic *)
Definition ieee (prec emax : Z) {Hprec : Prec_gt_0 prec} {Hmax : Prec_lt_emax prec emax} : arithmetic (binary_float prec emax) :=
  Arith (binary_float prec emax) (B754_zero false) fadd fsub fdiv (fun x => fmul x x) (fun x => Bsqrt mode_NE x) f_abs flt
        (fun n => f_of_Z (Z.of_nat n)) (f_of_Z 2) B754_nan.

Section Sums.
Context {E T D : Type} (ar : arithmetic T).

(** statistics.h:598-614 accumulate *)
Definition accumulate {S} (zero : S) (op : S -> D -> S) (acc : E -> D) (l : list E) : S :=
  fold_left (fun accu el => op accu (acc el)) l zero.
(** statistics.h:160-175 mean; here and below [acc] includes the conversion to ResultT *)
Definition mean (acc : E -> T) (l : list E) : T :=
  let sum := fold_left (fun accu el => a_add ar accu (acc el)) l (a_zero ar) in
  a_div ar sum (a_nat ar (length l)).
(** statistics.h:198-213 rms *)
Definition rms (acc : E -> T) (l : list E) : T :=
  let sum := fold_left (fun accu el => a_add ar accu (a_sqr ar (acc el))) l (a_zero ar) in
  a_sqrt ar (a_div ar sum (a_nat ar (length l))).
(** statistics.h:545-572 standard_deviation: sigma and mean *)
Definition standard_deviation (acc : E -> T) (l : list E) : T * T :=
  if Nat.eqb (length l) 0 then (a_nan ar, a_nan ar)
  else
    let mean_val := mean acc l in
    if Nat.eqb (length l) 1 then (a_nan ar, mean_val)
    else
      let sum := fold_left (fun accu el => a_add ar accu (a_sqr ar (a_sub ar (acc el) mean_val))) l (a_zero ar) in
      (a_sqrt ar (a_div ar sum (a_nat ar (length l - 1))), mean_val).

(** std::max_element: position of the first largest element; [k] is the current position, [b]
    the position of the largest element [x] so far *)
Fixpoint max_element_loop (lt : E -> E -> bool) (x : E) (b k : nat) (l : list E) : nat :=
  match l with
  | [] => b
  | y :: l' => if lt x y then max_element_loop lt y k (S k) l' else max_element_loop lt x b (S k) l'
  end.
Definition max_element (lt : E -> E -> bool) (l : list E) : nat :=
  match l with [] => 0%nat | x :: l' => max_element_loop lt x 0 1 l' end.
(** statistics.h:469-485 remove_outliers (the overload at 487-505 works on a copy) *)
Fixpoint remove_outliers (acc : E -> T) (l : list E) (outliers : nat) : list E :=
  match outliers with
  | O => l
  | S outliers' =>
      match l with
      | [] => l
      | _ =>
          let m := mean acc l in
          let k := max_element (fun a b => a_lt ar (a_abs ar (a_sub ar (acc a) m)) (a_abs ar (a_sub ar (acc b) m))) l in
          remove_outliers acc (firstn k l ++ skipn (S k) l) outliers'
      end
  end.
End Sums.

(** statistics.h:308-447 maximum, minimum, min_max.  [le] and [eq] are the comparison operators
    of the data type; [lo] and [hi] are the initial values: NaN, or the lowest and the largest
    value of a type without NaN. *)
Section MinMax.
Context {E D : Type} (le eq : D -> D -> bool) (lo hi : D).
Definition max_step (accu val : D) : D := if eq val val then if negb (le val accu) then val else accu else accu.
Definition min_step (accu val : D) : D := if eq val val then if negb (le accu val) then val else accu else accu.
Definition maximum (acc : E -> D) (l : list E) : D := fold_left (fun accu el => max_step accu (acc el)) l lo.
Definition minimum (acc : E -> D) (l : list E) : D := fold_left (fun accu el => min_step accu (acc el)) l hi.
Definition min_max (acc : E -> D) (l : list E) : D * D :=
  fold_left (fun accu el =>
    let val := acc el in
    if eq val val then
      let out := if negb (le (fst accu) val) then (val, snd accu) else accu in
      if negb (le val (snd out)) then (fst out, val) else out
    else accu) l (hi, lo).
End MinMax.

(** std::nth_element(begin, begin + n, end) turns l into l': some rearrangement with the right
    element in position n, nothing greater before it and nothing less after it (the contract of
    the C++ standard, which leaves the order of the others open). *)
Definition nth_element {D} (lt : D -> D -> bool) (l : list D) (n : nat) (l' : list D) : Prop :=
  Permutation l l' /\ (n < length l')%nat /\
  exists x, nth_error l' n = Some x /\
  (forall y, In y (firstn n l') -> lt x y = false) /\ (forall y, In y (skipn (S n) l') -> lt y x = false).
(** statistics.h:239-276 median returns r; [cast] is the conversion from DataT to ResultT *)
Definition median {E D T} (ar : arithmetic T) (lt : D -> D -> bool) (cast : D -> T) (acc : E -> D) (l : list E) (r : T) : Prop :=
  let len := length l in
  if Nat.eqb len 0 then r = a_nan ar
  else
    exists l1 x, nth_element lt (map acc l) (len / 2) l1 /\ nth_error l1 (len / 2) = Some x /\
    if Nat.eqb (len mod 2) 0 then
      exists l2 y, nth_element lt l1 (len / 2 - 1) l2 /\ nth_error l2 (len / 2 - 1) = Some y /\
      r = a_add ar (a_div ar (cast x) (a_two ar)) (a_div ar (cast y) (a_two ar))
    else r = cast x.
