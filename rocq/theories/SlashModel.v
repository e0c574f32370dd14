(** Model of the calendar types of include/gul14/date.h that hold only some fields of a date,
    and of the operators / that put dates together.

    One type [val] holds a value of any of the operand types.  [None] means that the
    expression does not compile: there is no such overload.  The fields are stored as in
    DateModel.v.  Simplified: operators += and -= and those with the duration on the left are
    not repeated, they call the ones below. *)
From Verif Require Import Base IntModel DateModel.
Local Open Scope Z_scope.
Local Open Scope outcome_scope.

(** date.h:285-880: the classes, and int *)
Inductive val :=
| VInt (n : Z)                     (* int *)
| VYear (y : Z)                    (* year *)
| VMonth (m : Z)                   (* month *)
| VDay (d : Z)                     (* day *)
| VLast                            (* last_spec *)
| VWi (w i : Z)                    (* weekday_indexed *)
| VWl (w : Z)                      (* weekday_last *)
| VYm (y m : Z)                    (* year_month *)
| VMd (m d : Z)                    (* month_day *)
| VMdl (m : Z)                     (* month_day_last *)
| VMw (m w i : Z)                  (* month_weekday *)
| VMwl (m w : Z)                   (* month_weekday_last *)
| VYmd (y m d : Z)                 (* year_month_day *)
| VYmdl (y m : Z)                  (* year_month_day_last *)
| VYmw (y m w i : Z)               (* year_month_weekday *)
| VYmwl (y m w : Z).               (* year_month_weekday_last *)

(** month(static_cast<unsigned>(m)), day(static_cast<unsigned>(d)) and year(y) for an int *)
Definition int_month (n : Z) : Z := month (uns n).
Definition int_day (n : Z) : Z := day (uns n).
Definition int_year (n : Z) : Z := year n.

(** The built-in division of ints: dividing by zero and a quotient out of range are
    undefined. *)
Definition int_div (a b : Z) : outcome Z := if b =? 0 then UB else int_ (a ÷ b).

(** date.h:1930-1933 and 1990-1993 weekday::operator[]: 1892-1899 weekday_indexed keeps the
    weekday and the index in four bits each *)
Definition bracket (w i : Z) : val := VWi (nibble w) (nibble i).
Definition bracket_last (w : Z) : val := VWl w.

(** date.h:3184-3475 operator/ *)
Definition slash (a b : val) : option (outcome val) :=
  match a, b with
  | VInt x, VInt y => Some (q <- int_div x y ;; Ok (VInt q))
  (* 3184-3198 *)
  | VYear y, VMonth m => Some (Ok (VYm y m))
  | VYear y, VInt m => Some (Ok (VYm y (int_month m)))
  (* 3200-3230 *)
  | VMonth m, VDay d => Some (Ok (VMd m d))
  | VDay d, VMonth m => Some (Ok (VMd m d))
  | VMonth m, VInt d => Some (Ok (VMd m (int_day d)))
  | VInt m, VDay d => Some (Ok (VMd (int_month m) d))
  | VDay d, VInt m => Some (Ok (VMd (int_month m) d))
  (* 3232-3260 *)
  | VMonth m, VLast => Some (Ok (VMdl m))
  | VLast, VMonth m => Some (Ok (VMdl m))
  | VInt m, VLast => Some (Ok (VMdl (int_month m)))
  | VLast, VInt m => Some (Ok (VMdl (int_month m)))
  (* 3262-3290 *)
  | VMonth m, VWi w i => Some (Ok (VMw m w i))
  | VWi w i, VMonth m => Some (Ok (VMw m w i))
  | VInt m, VWi w i => Some (Ok (VMw (int_month m) w i))
  | VWi w i, VInt m => Some (Ok (VMw (int_month m) w i))
  (* 3292-3320 *)
  | VMonth m, VWl w => Some (Ok (VMwl m w))
  | VWl w, VMonth m => Some (Ok (VMwl m w))
  | VInt m, VWl w => Some (Ok (VMwl (int_month m) w))
  | VWl w, VInt m => Some (Ok (VMwl (int_month m) w))
  (* 3322-3364 *)
  | VYm y m, VDay d => Some (Ok (VYmd y m d))
  | VYm y m, VInt d => Some (Ok (VYmd y m (int_day d)))
  | VYear y, VMd m d => Some (Ok (VYmd y m d))
  | VInt y, VMd m d => Some (Ok (VYmd (int_year y) m d))
  | VMd m d, VYear y => Some (Ok (VYmd y m d))
  | VMd m d, VInt y => Some (Ok (VYmd (int_year y) m d))
  (* 3366-3401 *)
  | VYm y m, VLast => Some (Ok (VYmdl y m))
  | VYear y, VMdl m => Some (Ok (VYmdl y m))
  | VInt y, VMdl m => Some (Ok (VYmdl (int_year y) m))
  | VMdl m, VYear y => Some (Ok (VYmdl y m))
  | VMdl m, VInt y => Some (Ok (VYmdl (int_year y) m))
  (* 3403-3438 *)
  | VYm y m, VWi w i => Some (Ok (VYmw y m w i))
  | VYear y, VMw m w i => Some (Ok (VYmw y m w i))
  | VInt y, VMw m w i => Some (Ok (VYmw (int_year y) m w i))
  | VMw m w i, VYear y => Some (Ok (VYmw y m w i))
  | VMw m w i, VInt y => Some (Ok (VYmw (int_year y) m w i))
  (* 3440-3475 *)
  | VYm y m, VWl w => Some (Ok (VYmwl y m w))
  | VYear y, VMwl m w => Some (Ok (VYmwl y m w))
  | VInt y, VMwl m w => Some (Ok (VYmwl (int_year y) m w))
  | VMwl m w, VYear y => Some (Ok (VYmwl y m w))
  | VMwl m w, VInt y => Some (Ok (VYmwl (int_year y) m w))
  | _, _ => None
  end.

(** The value of a subexpression as an operand of the next operator *)
Definition then_ (a : option (outcome val)) (f : val -> option (outcome val)) : option (outcome val) :=
  match a with
  | None => None
  | Some (Ok v) => f v
  | Some (Throw e) => Some (Throw e)
  | Some UB => Some UB
  | Some Diverge => Some Diverge
  end.
(** a / b / c and a / (b / c) *)
Definition slash_left (a b c : val) : option (outcome val) := then_ (slash a b) (fun v => slash v c).
Definition slash_right (a b c : val) : option (outcome val) := then_ (slash b c) (fun v => slash a v).

(** Conversion to sys_days: date.h:2690-2694, 2483-2488, 2912-2916, 3087-3091 *)
Definition val_days (v : val) : option (outcome Z) :=
  match v with
  | VYmd y m d => Some (to_days (YMD y m d))
  | VYmdl y m => Some (last_to_days y m)
  | VYmw y m w i => Some (ymw_to_days (YMW y m w i))
  | VYmwl y m w => Some (wlast_to_days y m w)
  | _ => None
  end.

(** * ok() *)
(** date.h:1885-1889 weekday_indexed::ok; weekday() is weekday(unsigned) of the four bits *)
Definition wi_ok (w i : Z) : bool := weekday_ok (weekday w) && ((1 <=? i) && (i <=? 5)).
(** date.h:2159-2170 month_day::ok *)
Definition md_table : list Z := [31; 29; 31; 30; 31; 30; 31; 31; 30; 31; 30; 31].
Definition md_ok (m d : Z) : bool :=
  month_ok m && ((1 <=? d) && (d <=? nth (Z.to_nat (uns (m - 1))) md_table 0)).
(** date.h:1357, 1471, 1587, 1950, 2005, 2237, 2317, 2376, 2493, 2701, 2924, 3100: ok of the
    other classes; last_spec and int have none *)
Definition val_ok (v : val) : option (outcome bool) :=
  match v with
  | VInt _ | VLast => None
  | VYear y => Some (Ok (year_ok y))
  | VMonth m => Some (Ok (month_ok m))
  | VDay d => Some (Ok (day_ok d))
  | VWi w i => Some (Ok (wi_ok w i))
  | VWl w => Some (Ok (weekday_ok w))
  | VYm y m => Some (Ok (year_ok y && month_ok m))
  | VMd m d => Some (Ok (md_ok m d))
  | VMdl m => Some (Ok (month_ok m))
  | VMw m w i => Some (Ok (month_ok m && wi_ok w i))
  | VMwl m w => Some (Ok (month_ok m && weekday_ok w))
  | VYmd y m d => Some (Ok (ymd_ok (YMD y m d)))
  | VYmdl y m => Some (Ok (year_ok y && month_ok m))
  | VYmw y m w i => Some (ymw_ok (YMW y m w i))
  | VYmwl y m w => Some (Ok (year_ok y && month_ok m && weekday_ok w))
  end.

(** * Comparison *)
(** date.h:2184-2191 operator<(month_day, month_day) *)
Definition md_lt (m d m' d' : Z) : bool :=
  if m <? m' then true else if m' <? m then false else d <? d'.
(** date.h:2509-2517 operator<(year_month_day_last, year_month_day_last); the same for
    year_month in 2050-2056 *)
Definition ymdl_lt (y m y' m' : Z) : bool :=
  if y <? y' then true else if y' <? y then false else m <? m'.
(** operator< of two values of one class: 1371 day, 1485 month, 1604 year, 2050, 2184, 2252,
    2509, 2728; the classes with a weekday have none *)
Definition val_lt (a b : val) : option bool :=
  match a, b with
  | VYear y, VYear y' => Some (y <? y')
  | VMonth m, VMonth m' => Some (m <? m')
  | VDay d, VDay d' => Some (d <? d')
  | VYm y m, VYm y' m' => Some (ym_lt (YM y m) (YM y' m'))
  | VMd m d, VMd m' d' => Some (md_lt m d m' d')
  | VMdl m, VMdl m' => Some (m <? m')
  | VYmd y m d, VYmd y' m' d' => Some (ymd_lt (YMD y m d) (YMD y' m' d'))
  | VYmdl y m, VYmdl y' m' => Some (ymdl_lt y m y' m')
  | _, _ => None
  end.
(** operator== of two values of one class: 1359, 1473, 1592, 1901-1905, 1953-1957, 2038, 2172,
    2240, 2322, 2381, 2497, 2716, 2957, 3111 *)
Definition val_eq (a b : val) : option bool :=
  match a, b with
  | VYear y, VYear y' => Some (y =? y')
  | VMonth m, VMonth m' => Some (m =? m')
  | VDay d, VDay d' => Some (d =? d')
  | VWi w i, VWi w' i' => Some ((weekday w =? weekday w') && (i =? i'))
  | VWl w, VWl w' => Some (w =? w')
  | VYm y m, VYm y' m' => Some ((y =? y') && (m =? m'))
  | VMd m d, VMd m' d' => Some ((m =? m') && (d =? d'))
  | VMdl m, VMdl m' => Some (m =? m')
  | VMw m w i, VMw m' w' i' => Some ((m =? m') && ((weekday w =? weekday w') && (i =? i')))
  | VMwl m w, VMwl m' w' => Some ((m =? m') && (w =? w'))
  | VYmd y m d, VYmd y' m' d' => Some (ymd_eq (YMD y m d) (YMD y' m' d'))
  | VYmdl y m, VYmdl y' m' => Some ((y =? y') && (m =? m'))
  | VYmw y m w i, VYmw y' m' w' i' =>
      Some ((y =? y') && (m =? m') && ((weekday w =? weekday w') && (i =? i')))
  | VYmwl y m w, VYmwl y' m' w' => Some ((y =? y') && (m =? m') && (w =? w'))
  | _, _ => None
  end.
(** The other four operators of each class, e.g. date.h:2178-2182 and 2193-2209 *)
Inductive cmp := CEq | CNe | CLt | CGt | CLe | CGe.
Definition val_cmp (o : cmp) (a b : val) : option bool :=
  match o with
  | CEq => val_eq a b
  | CNe => option_map negb (val_eq a b)
  | CLt => val_lt a b
  | CGt => val_lt b a
  | CLe => option_map negb (val_lt b a)
  | CGe => option_map negb (val_lt a b)
  end.

(** * Months and years *)
(** operator+(date, months): date.h:2074 year_month, 2560-2565 year_month_day_last, 2786
    year_month_day, 2980-2986 year_month_weekday, 3133-3139 year_month_weekday_last *)
Definition val_add_months (v : val) (n : Z) : option (outcome val) :=
  match v with
  | VYm y m => Some (x <- ym_add (YM y m) n ;; Ok (VYm (ym_year x) (ym_month x)))
  | VYmd y m d => Some (x <- ymd_add_months (YMD y m d) n ;; Ok (VYmd (yr x) (mo x) (dy x)))
  | VYmdl y m => Some (x <- ym_add (YM y m) n ;; Ok (VYmdl (ym_year x) (ym_month x)))
  | VYmw y m w i => Some (x <- ym_add (YM y m) n ;; Ok (VYmw (ym_year x) (ym_month x) w i))
  | VYmwl y m w => Some (x <- ym_add (YM y m) n ;; Ok (VYmwl (ym_year x) (ym_month x) w))
  | _ => None
  end.
(** operator+(date, years): date.h:2105, 2582-2586, 2810, 3003-3007, 3156-3160 *)
Definition val_add_years (v : val) (n : Z) : option (outcome val) :=
  match v with
  | VYm y m => Some (x <- year_add y n ;; Ok (VYm x m))
  | VYmd y m d => Some (x <- year_add y n ;; Ok (VYmd x m d))
  | VYmdl y m => Some (x <- year_add y n ;; Ok (VYmdl x m))
  | VYmw y m w i => Some (x <- year_add y n ;; Ok (VYmw x m w i))
  | VYmwl y m w => Some (x <- year_add y n ;; Ok (VYmwl x m w))
  | _ => None
  end.
(** operator-(date, months) and operator-(date, years) add the negated duration: date.h:2091,
    2574-2580, 2596-2600, 2996-3001, 3017-3021 and so on *)
Definition val_sub_months (v : val) (n : Z) : option (outcome val) :=
  match int_ (- n) with
  | Ok k => val_add_months v k
  | _ => option_map (fun _ => UB) (val_add_months v 0)
  end.
Definition val_sub_years (v : val) (n : Z) : option (outcome val) :=
  match int_ (- n) with
  | Ok k => val_add_years v k
  | _ => option_map (fun _ => UB) (val_add_years v 0)
  end.
