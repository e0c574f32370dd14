(** Model of the calendar part of include/gul14/date.h.

    Integers carry their C++ types: year is stored as short, month, day and weekday as
    unsigned char, durations days, months and years count in int.  Signed overflow is [UB].
    Formatting is in FmtModel.v, parsing in ParModel.v, and the operators / and the classes
    with only some fields of a date are in SlashModel.v; the literals are in DateLitModel.v. *)
From Verif Require Import Base IntModel.
Local Open Scope Z_scope.
Local Open Scope outcome_scope.

Definition int_t : ity := IT true 32.
Definition uint_t : ity := IT false 32.
Definition llong_t : ity := IT true 64.
Definition int_ (z : Z) : outcome Z := arith int_t z.
Definition uns (z : Z) : Z := conv uint_t z.

(** date.h:1568 year(int): stored as short; 1454 month(unsigned), 1349 day(unsigned):
    stored as unsigned char *)
Definition year (z : Z) : Z := conv (IT true 16) z.
Definition month (z : Z) : Z := conv (IT false 8) z.
Definition day (z : Z) : Z := conv (IT false 8) z.
(** date.h:1692-1695 weekday(unsigned): 7 means Sunday as well *)
Definition weekday (z : Z) : Z := conv (IT false 8) (if z =? 7 then 0 else z).

(** date.h:1357 day::ok, 1478 month::ok, 1587-1590 year::ok, 1725 weekday::ok *)
Definition day_ok (d : Z) : bool := (1 <=? d) && (d <=? 31).
Definition month_ok (m : Z) : bool := (1 <=? m) && (m <=? 12).
Definition year_ok (y : Z) : bool := negb (y =? imin (IT true 16)).
Definition weekday_ok (w : Z) : bool := w <=? 6.

(** date.h:1578-1582 year::is_leap; % truncates *)
Definition is_leap (y : Z) : bool :=
  (Z.rem y 4 =? 0) && (negb (Z.rem y 100 =? 0) || (Z.rem y 400 =? 0)).

(** * Weekdays *)
(** date.h:1683-1689 weekday_from_days(int) *)
Definition weekday_from_days (z : Z) : Z :=
  let u := uns z in
  conv (IT false 8) (if z >=? -4 then uns (u + 4) mod 7 else u mod 7).
(** date.h:1727-1730 c_encoding and 1732-1735 iso_encoding *)
Definition c_encoding (w : Z) : Z := w.
Definition iso_encoding (w : Z) : Z := if w =? 0 then 7 else w.
(** date.h:1749-1755 operator-(weekday, weekday) *)
Definition weekday_diff (x y : Z) : outcome Z :=
  wdu <- int_ (x - y) ;;
  num <- (if wdu >=? 0 then Ok wdu else int_ (wdu - 6)) ;;
  let wk := num ÷ 7 in
  p <- int_ (wk * 7) ;; int_ (wdu - p).
(** date.h:1757-1763 operator+(weekday, days), in long long *)
Definition weekday_add (x y : Z) : outcome Z :=
  wdu <- arith llong_t (x + y) ;;
  num <- (if wdu >=? 0 then Ok wdu else arith llong_t (wdu - 6)) ;;
  let wk := num ÷ 7 in
  p <- arith llong_t (wk * 7) ;;
  r <- arith llong_t (wdu - p) ;;
  Ok (weekday (uns r)).
(** date.h:1771-1775 operator-(weekday, days): the negation is an int *)
Definition weekday_sub (x y : Z) : outcome Z := n <- int_ (- y) ;; weekday_add x n.

(** * Months *)
(** date.h:1510-1515 operator-(month, month) *)
Definition month_diff (x y : Z) : Z :=
  let d := uns (x - y) in
  conv int_t (if d <=? 11 then d else uns (d + 12)).
(** date.h:1517-1523 operator+(month, months), in long long *)
Definition month_add (x y : Z) : outcome Z :=
  a <- arith llong_t (x + y) ;;
  mu <- arith llong_t (a - 1) ;;
  num <- (if mu >=? 0 then Ok mu else arith llong_t (mu - 11)) ;;
  let yr := num ÷ 12 in
  p <- arith llong_t (yr * 12) ;;
  r <- arith llong_t (mu - p) ;;
  r' <- arith llong_t (r + 1) ;;
  Ok (month (uns r')).
(** date.h:1531-1535 operator-(month, months) *)
Definition month_sub (x y : Z) : outcome Z := n <- int_ (- y) ;; month_add x n.

(** date.h:1643-1647 operator+(year, years) and 1655-1659 operator-(year, years) *)
Definition year_add (x y : Z) : outcome Z := s <- int_ (x + y) ;; Ok (year s).
Definition year_sub (x y : Z) : outcome Z := s <- int_ (x - y) ;; Ok (year s).
(** date.h:1637-1641 operator-(year, year) *)
Definition year_diff (x y : Z) : outcome Z := int_ (x - y).

(** * year_month *)
Record ym := YM { ym_year : Z; ym_month : Z }.
(** date.h:2074-2082 operator+(year_month, months) *)
Definition ym_add (x : ym) (dm : Z) : outcome ym :=
  a <- int_ (ym_month x - 1) ;;
  dmi <- int_ (a + dm) ;;
  num <- (if dmi >=? 0 then Ok dmi else int_ (dmi - 11)) ;;
  let dy := num ÷ 12 in
  p <- int_ (dy * 12) ;;
  q <- int_ (dmi - p) ;;
  dmi' <- int_ (q + 1) ;;
  y <- year_add (ym_year x) dy ;;
  Ok (YM y (month (uns dmi'))).
(** date.h:2091-2096 operator-(year_month, months) *)
Definition ym_sub (x : ym) (dm : Z) : outcome ym := n <- int_ (- dm) ;; ym_add x n.
(** date.h:2098-2103 operator-(year_month, year_month): years + months, in months *)
Definition ym_diff (x y : ym) : outcome Z :=
  dy <- year_diff (ym_year x) (ym_year y) ;;
  let dm := conv int_t (uns (ym_month x - ym_month y)) in
  t <- int_ (dy * 12) ;; int_ (t + dm).
(** date.h:2105-2109 and 2117-2121: plus and minus years *)
Definition ym_add_years (x : ym) (dy : Z) : outcome ym :=
  y <- year_add (ym_year x) dy ;; Ok (YM y (ym_month x)).
Definition ym_sub_years (x : ym) (dy : Z) : outcome ym := n <- int_ (- dy) ;; ym_add_years x n.
(** date.h:2050-2056 operator< *)
Definition ym_lt (x y : ym) : bool :=
  if ym_year x <? ym_year y then true
  else if ym_year y <? ym_year x then false
  else ym_month x <? ym_month y.

(** * year_month_day *)
Record ymd := YMD { yr : Z; mo : Z; dy : Z }.

(** date.h:2466-2479 year_month_day_last::day() *)
Definition last_table : list Z := [31; 28; 31; 30; 31; 30; 31; 31; 30; 31; 30; 31].
Definition last_day (y m : Z) : Z :=
  if (negb (m =? 2) || negb (is_leap y)) && month_ok m
  then nth (Z.to_nat (uns (m - 1))) last_table 0
  else day 29.
(** date.h:2597-2602 year_month_day(year_month_day_last) *)
Definition ymd_last (y m : Z) : ymd := YMD y m (last_day y m).

(** date.h:2702-2708 year_month_day::ok *)
Definition ymd_ok (x : ymd) : bool :=
  if negb (year_ok (yr x) && month_ok (mo x)) then false
  else (1 <=? dy x) && (dy x <=? last_day (yr x) (mo x)).

(** date.h:2668-2688 year_month_day::to_days *)
Definition to_days (x : ymd) : outcome Z :=
  y <- int_ (yr x - (if mo x <=? 2 then 1 else 0)) ;;
  let m := mo x in
  let d := dy x in
  num <- (if y >=? 0 then Ok y else int_ (y - 399)) ;;
  let era := num ÷ 400 in
  p <- int_ (era * 400) ;;
  q <- int_ (y - p) ;;
  let yoe := uns q in
  let doy := uns (uns (uns (uns (153 * (if m >? 2 then uns (m - 3) else uns (m + 9))) + 2) / 5 + d) - 1) in
  let doe := uns (uns (uns (uns (yoe * 365) + yoe / 4) - yoe / 100) + doy) in
  e <- int_ (era * 146097) ;;
  s <- int_ (e + conv int_t doe) ;;
  int_ (s - 719468).

(** date.h:2766-2784 year_month_day::from_days *)
Definition from_days (dp : Z) : outcome ymd :=
  z <- int_ (dp + 719468) ;;
  num <- (if z >=? 0 then Ok z else int_ (z - 146096)) ;;
  let era := num ÷ 146097 in
  p <- int_ (era * 146097) ;;
  q <- int_ (z - p) ;;
  let doe := uns q in
  let yoe := uns (uns (uns (doe - doe / 1460) + doe / 36524) - doe / 146096) / 365 in
  e <- int_ (era * 400) ;;
  y <- int_ (conv int_t yoe + e) ;;
  let doy := uns (doe - uns (uns (uns (365 * yoe) + yoe / 4) - yoe / 100)) in
  let mp := uns (uns (5 * doy) + 2) / 153 in
  let d := uns (uns (doy - uns (uns (153 * mp) + 2) / 5) + 1) in
  let m := if mp <? 10 then uns (mp + 3) else uns (mp - 9) in
  y' <- int_ (y + (if m <=? 2 then 1 else 0)) ;;
  Ok (YMD (year y') (month m) (day d)).

(** date.h:2716-2720 operator== and 2728-2736 operator< *)
Definition ymd_eq (x y : ymd) : bool := (yr x =? yr y) && (mo x =? mo y) && (dy x =? dy y).
Definition ymd_lt (x y : ymd) : bool :=
  if yr x <? yr y then true
  else if yr y <? yr x then false
  else if mo x <? mo y then true
  else if mo y <? mo x then false
  else dy x <? dy y.
(** date.h:2738-2754 operators >, <=, >= *)
Definition ymd_gt (x y : ymd) : bool := ymd_lt y x.
Definition ymd_le (x y : ymd) : bool := negb (ymd_lt y x).
Definition ymd_ge (x y : ymd) : bool := negb (ymd_lt x y).

(** date.h:2786-2792 operator+(year_month_day, months), 2802-2808 operator- *)
Definition ymd_add_months (x : ymd) (dm : Z) : outcome ymd :=
  a <- ym_add (YM (yr x) (mo x)) dm ;; Ok (YMD (ym_year a) (ym_month a) (dy x)).
Definition ymd_sub_months (x : ymd) (dm : Z) : outcome ymd := n <- int_ (- dm) ;; ymd_add_months x n.
(** date.h:2810-2815 operator+(year_month_day, years), 2824-2829 operator- *)
Definition ymd_add_years (x : ymd) (n : Z) : outcome ymd :=
  y <- year_add (yr x) n ;; Ok (YMD y (mo x) (dy x)).
Definition ymd_sub_years (x : ymd) (n : Z) : outcome ymd := m <- int_ (- n) ;; ymd_add_years x m.

(** date.h:2483-2493 year_month_day_last to sys_days *)
Definition last_to_days (y m : Z) : outcome Z := to_days (ymd_last y m).

(** * year_month_weekday: the index-th weekday of a month *)
Record ymw := YMW { w_year : Z; w_month : Z; w_day : Z; w_index : Z }.
(** date.h:1884-1888 weekday_indexed: two bit fields of four bits *)
Definition nibble (z : Z) : Z := z mod 16.

(** date.h:2937-2945 from_days *)
Definition ymw_from_days (d : Z) : outcome ymw :=
  let wd := weekday_from_days d in
  x <- from_days d ;;
  Ok (YMW (yr x) (mo x) (nibble wd) (nibble (uns (uns (dy x - 1) / 7 + 1)))).
(** date.h:2947-2955 to_days *)
Definition ymw_to_days (x : ymw) : outcome Z :=
  d <- to_days (YMD (w_year x) (w_month x) (day 1)) ;;
  n <- weekday_diff (weekday (w_day x)) (weekday_from_days d) ;;
  s <- int_ (n + conv int_t (uns (uns (w_index x - 1) * 7))) ;;
  int_ (d + s).
(** date.h:2922-2932 ok *)
Definition ymw_ok (x : ymw) : outcome bool :=
  if negb (year_ok (w_year x)) || negb (month_ok (w_month x)) || negb (weekday_ok (weekday (w_day x)))
     || (w_index x <? 1)
  then Ok false
  else if w_index x <=? 4 then Ok true
  else
    d <- to_days (YMD (w_year x) (w_month x) (day 1)) ;;
    n <- weekday_diff (weekday (w_day x)) (weekday_from_days d) ;;
    d2 <- int_ (n + conv int_t (uns (uns (uns (w_index x - 1) * 7) + 1))) ;;
    Ok (uns d2 <=? last_day (w_year x) (w_month x)).
(** date.h:3099-3105 year_month_weekday_last::to_days *)
Definition wlast_to_days (y m w : Z) : outcome Z :=
  d <- last_to_days y m ;;
  n <- weekday_diff (weekday_from_days d) w ;;
  int_ (d - n).

(** * Rounding durations, date.h:1139-1265

    Here for integer counts in one signed type [t]: the source counts units of which
    [k] >= 1 make up one unit of the target (To::period / Period = k). *)
(** Lines 1139-1150 trunc: duration_cast, which divides *)
Definition dur_trunc (k d : Z) : Z := d ÷ k.
(** The comparison t > d and all arithmetic happen in the common type, which counts the
    finer unit.  Lines 1184-1198 floor *)
Definition dur_floor (t : ity) (k d : Z) : outcome Z :=
  let q := dur_trunc k d in
  c <- arith t (q * k) ;;
  if c >? d then arith t (q - 1) else Ok q.
(** Lines 1236-1246 ceil *)
Definition dur_ceil (t : ity) (k d : Z) : outcome Z :=
  let q := dur_trunc k d in
  c <- arith t (q * k) ;;
  if c <? d then arith t (q + 1) else Ok q.
(** Lines 1213-1234 round to nearest, to even on ties; -t1 of a zero is zero *)
Definition dur_round (t : ity) (k d : Z) : outcome Z :=
  t0 <- dur_floor t k d ;;
  t1 <- arith t (t0 + 1) ;;
  c0 <- arith t (t0 * k) ;;
  diff0 <- arith t (d - c0) ;;
  c1 <- arith t (t1 * k) ;;
  diff1 <- arith t (c1 - d) ;;
  if diff0 =? diff1
  then h <- arith t ((t0 ÷ 2) * 2) ;;
       r <- arith t (t0 - h) ;;
       if r =? 0 then Ok t0 else Ok t1
  else if diff0 <? diff1 then Ok t0 else Ok t1.
(** Lines 1248-1256 and 3631-3649 abs *)
Definition dur_abs (t : ity) (d : Z) : outcome Z := if d >=? 0 then Ok d else arith t (- d).

(** * hh_mm_ss, date.h:3650-3706, for a duration counting 1/k of a second in 64 bits *)
Record hms := HMS { h_ : Z; m_ : Z; s_ : Z; sub_ : Z; neg_ : bool }.
(** Lines 3671-3676 and 3559-3562 *)
Definition hms_of (k d : Z) : outcome hms :=
  a <- dur_abs llong_t d ;;
  let h := a ÷ (3600 * k) in
  let m0 := a ÷ (60 * k) in
  hm <- arith llong_t (h * 60) ;;
  m <- arith llong_t (m0 - hm) ;;
  hs <- arith llong_t (h * (3600 * k)) ;;
  r1 <- arith llong_t (a - hs) ;;
  ms <- arith llong_t (m * (60 * k)) ;;
  r <- arith llong_t (r1 - ms) ;;
  let s := r ÷ k in
  ss <- arith llong_t (s * k) ;;
  sub <- arith llong_t (r - ss) ;;
  Ok (HMS h m s sub (d <? 0)).
(** Lines 3688-3689 and 3568-3571 to_duration *)
Definition hms_to_duration (k : Z) (x : hms) : outcome Z :=
  ss <- arith llong_t (s_ x * k) ;;
  a <- arith llong_t (ss + sub_ x) ;;
  ms <- arith llong_t (m_ x * (60 * k)) ;;
  b <- arith llong_t (a + ms) ;;
  hs <- arith llong_t (h_ x * (3600 * k)) ;;
  c <- arith llong_t (b + hs) ;;
  arith llong_t (c * (if neg_ x then -1 else 1)).

(** date.h:3726-3774 is_am, is_pm, make12, make24 *)
Definition is_am (h : Z) : bool := (0 <=? h) && (h <? 12).
Definition is_pm (h : Z) : bool := (12 <=? h) && (h <? 24).
Definition make12 (h : Z) : Z :=
  if h <? 12 then (if h =? 0 then 12 else h) else (if negb (h =? 12) then h - 12 else h).
Definition make24 (h : Z) (pm : bool) : Z :=
  if pm then (if negb (h =? 12) then h + 12 else h) else if h =? 12 then 0 else h.
