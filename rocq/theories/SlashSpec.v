(** Dates written with slashes, and incomplete dates: what they mean. *)
From Verif Require Import Base DateModel DateSpec SlashModel.
Local Open Scope Z_scope.

(** The day within a month: the n-th, the last one, the i-th or the last of a weekday *)
Inductive pick := PDay (d : Z) | PLast | PNth (w i : Z) | PLastOf (w : Z).

(** The calendar value with year [y], month [m] and day [k] *)
Definition dated (y m : Z) (k : pick) : val :=
  match k with
  | PDay d => VYmd y m d
  | PLast => VYmdl y m
  | PNth w i => VYmw y m w i
  | PLastOf w => VYmwl y m w
  end.
(** The same without a year *)
Definition undated (m : Z) (k : pick) : val :=
  match k with
  | PDay d => VMd m d
  | PLast => VMdl m
  | PNth w i => VMw m w i
  | PLastOf w => VMwl m w
  end.

(** What an operand can stand for; [int]s can stand for a year, a month or a day of the month.
    Years are kept in 16 bits, months and days in 8. *)
Inductive as_year : val -> Z -> Prop :=
| ay_year y : as_year (VYear y) y
| ay_int n : as_year (VInt n) ((n + 32768) mod 65536 - 32768).
Inductive as_month : val -> Z -> Prop :=
| am_month m : as_month (VMonth m) m
| am_int n : as_month (VInt n) (n mod 256).
Inductive as_day : val -> pick -> Prop :=
| ad_day d : as_day (VDay d) (PDay d)
| ad_int n : as_day (VInt n) (PDay (n mod 256))
| ad_last : as_day VLast PLast
| ad_nth w i : as_day (VWi w i) (PNth w i)
| ad_last_of w : as_day (VWl w) (PLastOf w).
Definition is_int_operand (a : val) : Prop := exists n, a = VInt n.

(** A single operand: no part of a date has been put together yet *)
Definition single (a : val) : Prop :=
  match a with VInt _ | VYear _ | VMonth _ | VDay _ | VLast | VWi _ _ | VWl _ => True | _ => False end.

(** The three orders.  The type of the first operand that is not an int fixes the order, and
    one of the first two must not be an int. *)
Inductive written : val -> val -> val -> Z -> Z -> pick -> Prop :=
| w_ymd a b c y m k : as_year a y -> ~ is_int_operand a -> as_month b m -> as_day c k ->
    written a b c y m k
| w_mdy a b c y m k : as_month a m -> as_day b k -> as_year c y ->
    (~ is_int_operand a \/ ~ is_int_operand b) -> written a b c y m k
| w_dmy a b c y m k : as_day a k -> ~ is_int_operand a -> as_month b m -> as_year c y ->
    written a b c y m k.
(** A month and a day, in either order *)
Inductive written_md : val -> val -> Z -> pick -> Prop :=
| w_md a b m k : as_month a m -> as_day b k -> (~ is_int_operand a \/ ~ is_int_operand b) ->
    written_md a b m k
| w_dm a b m k : as_day a k -> ~ is_int_operand a -> as_month b m -> written_md a b m k.

(** Is a value a complete date? *)
Definition complete (v : val) : Prop := exists y m k, v = dated y m k.

(** Day [d] of month [m] in year [y] is the one picked. *)
Definition picked (y m : Z) (k : pick) (d : Z) : Prop :=
  match k with
  | PDay n => d = n
  | PLast => month_length y m d
  | PNth w i => index_of_day d i /\ exists n, to_days (YMD y m d) = Ok n /\ weekday_of n = w
  | PLastOf w => (exists l, month_length y m l /\ l - 7 < d <= l) /\
                 exists n, to_days (YMD y m d) = Ok n /\ weekday_of n = w
  end.

(** * Incomplete dates *)
(** The date [x] fits the description [v]. *)
Definition fits (v : val) (x : ymd) : Prop :=
  match v with
  | VInt _ => False
  | VLast => picked (yr x) (mo x) PLast (dy x)
  | VYear y => yr x = y
  | VMonth m => mo x = m
  | VDay d => dy x = d
  | VWi w i => picked (yr x) (mo x) (PNth w i) (dy x)
  | VWl w => picked (yr x) (mo x) (PLastOf w) (dy x)
  | VYm y m => yr x = y /\ mo x = m
  | VMd m d => mo x = m /\ dy x = d
  | VMdl m => mo x = m /\ picked (yr x) (mo x) PLast (dy x)
  | VMw m w i => mo x = m /\ picked (yr x) (mo x) (PNth w i) (dy x)
  | VMwl m w => mo x = m /\ picked (yr x) (mo x) (PLastOf w) (dy x)
  | VYmd y m d => yr x = y /\ mo x = m /\ dy x = d
  | VYmdl y m => yr x = y /\ mo x = m /\ picked (yr x) (mo x) PLast (dy x)
  | VYmw y m w i => yr x = y /\ mo x = m /\ picked (yr x) (mo x) (PNth w i) (dy x)
  | VYmwl y m w => yr x = y /\ mo x = m /\ picked (yr x) (mo x) (PLastOf w) (dy x)
  end.

(** Values that the classes can hold: years in 16 bits, months, days and weekdays in 8, the
    weekday and the index of a weekday_indexed in 4.  No weekday is stored as 7. *)
Definition byte (z : Z) : Prop := 0 <= z <= 255.
Definition four_bits (z : Z) : Prop := 0 <= z <= 15.
Definition short_ (z : Z) : Prop := -32768 <= z <= 32767.
Definition storable (v : val) : Prop :=
  match v with
  | VInt n => is_int n
  | VLast => True
  | VYear y => short_ y
  | VMonth m | VMdl m => byte m
  | VDay d => byte d
  | VWi w i => four_bits w /\ four_bits i /\ w <> 7
  | VWl w => byte w
  | VYm y m | VYmdl y m => short_ y /\ byte m
  | VMd m d => byte m /\ byte d
  | VMw m w i => byte m /\ four_bits w /\ four_bits i /\ w <> 7
  | VMwl m w => byte m /\ byte w
  | VYmd y m d => short_ y /\ byte m /\ byte d
  | VYmw y m w i => short_ y /\ byte m /\ four_bits w /\ four_bits i /\ w <> 7
  | VYmwl y m w => short_ y /\ byte m /\ byte w
  end.

(** Two dates agree in everything that comes before the fields of [v]: descriptions without
    a year are compared within one year, days within one month. *)
Definition alike (v : val) (x y : ymd) : Prop :=
  match v with
  | VMonth _ | VMd _ _ | VMdl _ => yr x = yr y
  | VDay _ => yr x = yr y /\ mo x = mo y
  | _ => True
  end.

(** The meaning of the six operators for a total order *)
Definition says (o : cmp) (c : comparison) : bool :=
  match o, c with
  | CEq, Eq | CLe, Eq | CGe, Eq => true
  | CNe, Lt | CLt, Lt | CLe, Lt => true
  | CNe, Gt | CGt, Gt | CGe, Gt => true
  | _, _ => false
  end.
