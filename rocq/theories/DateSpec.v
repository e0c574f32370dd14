(** Specification of the (proleptic) Gregorian calendar, independent of any formula for day
    numbers. *)
From Verif Require Import Base DateModel.
Local Open Scope Z_scope.

(** Every fourth year is a leap year, except centuries not divisible by 400. *)
Definition leap (y : Z) : Prop := (4 | y) /\ (~ (100 | y) \/ (400 | y)).

Inductive month_length : Z -> Z -> Z -> Prop :=
| ml_31 y m : In m [1; 3; 5; 7; 8; 10; 12] -> month_length y m 31
| ml_30 y m : In m [4; 6; 9; 11] -> month_length y m 30
| ml_29 y : leap y -> month_length y 2 29
| ml_28 y : ~ leap y -> month_length y 2 28.

(** Dates that exist *)
Definition exists_date (x : ymd) : Prop :=
  1 <= dy x /\ exists n, month_length (yr x) (mo x) n /\ dy x <= n.

(** The day after *)
Inductive next : ymd -> ymd -> Prop :=
| next_day y m d n : month_length y m n -> 1 <= d < n -> next (YMD y m d) (YMD y m (d + 1))
| next_month y m n : month_length y m n -> m < 12 -> next (YMD y m n) (YMD y (m + 1) 1)
| next_year y : next (YMD y 12 31) (YMD (y + 1) 1 1).

(** n days later *)
Inductive later : nat -> ymd -> ymd -> Prop :=
| later_0 x : later 0 x x
| later_S n x y z : later n x y -> next y z -> later (S n) x z.

Definition epoch : ymd := YMD 1970 1 1.

(** Years -32767 to 32767: what the year class can hold with ok() *)
Definition year_in_range (y : Z) : Prop := -32767 <= y <= 32767.
Definition in_calendar (x : ymd) : Prop := year_in_range (yr x) /\ exists_date x.
(** The day numbers of the dates -32767-01-01 and 32767-12-31 *)
Definition first_day_number : Z := -12687428.
Definition last_day_number : Z := 11248737.

(** The order of dates *)
Definition earlier (x y : ymd) : Prop :=
  yr x < yr y \/ (yr x = yr y /\ (mo x < mo y \/ (mo x = mo y /\ dy x < dy y))).

(** Counting months: month number [12 * year + month - 1]. *)
Definition ym_number (x : ym) : Z := 12 * ym_year x + (ym_month x - 1).
Definition ym_valid (x : ym) : Prop := 1 <= ym_month x <= 12 /\ year_in_range (ym_year x).
(** Months that can be expressed: January -32767 to December 32767 *)
Definition ym_numbers (n : Z) : Prop := 12 * -32767 <= n <= 12 * 32767 + 11.

(** The range of int *)
Definition is_int (z : Z) : Prop := -2147483648 <= z <= 2147483647.

(** The days of the week count from 0 = Sunday; day number 0 is Thursday 1970-01-01. *)
Definition weekday_of (n : Z) : Z := (n + 4) mod 7.

(** Day d is the i-th day of its kind in the month: the first seven days have index 1, the
    next seven index 2, and so on. *)
Definition index_of_day (d i : Z) : Prop := 7 * (i - 1) < d <= 7 * i.

(** r is d / k rounded to nearest, to even on ties *)
Definition nearest (k d r : Z) : Prop :=
  2 * Z.abs (d - r * k) <= k /\ (2 * Z.abs (d - r * k) = k -> Z.even r = true).
