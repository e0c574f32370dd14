(** Model of the stream output of include/gul14/date.h: date::format, date::to_stream and the
    operators <<.

    The configuration modelled is ONLY_C_LOCALE=1, in which all of the code is in date.h.  The
    default configuration hands the directives %a %A %b %B %h %c %x %X %p %r and those with an
    E or O modifier to the time_put facet of the stream's locale; all other directives are the
    same code.  Numbers are written in the classic locale (no digit grouping).

    A result [Throw RuntimeError] stands for "failbit is set": date::format turns on exceptions
    for failbit, so the call throws std::ios_base::failure.  What to_stream would go on to write
    to a stream without exceptions is not modelled.  Durations count ticks of which
    [k = 10^w] make one second ([w] is the number of decimals), in 64 bits. *)
From Verif Require Import Base IntModel DateModel.
Local Open Scope Z_scope.
Local Open Scope outcome_scope.

(** * Writing integers to a stream with flag std::ios::dec *)
Definition digit_chr (d : Z) : ascii := chr (48 + d).
(** The decimal digits of [n] >= 0; the first argument is fuel *)
Fixpoint dec_loop (fuel : nat) (n : Z) (acc : str) : str :=
  match fuel with
  | O => acc
  | S fuel' =>
      let acc' := digit_chr (n mod 10) :: acc in
      if n <? 10 then acc' else dec_loop fuel' (n / 10) acc'
  end.
Definition dec_u (n : Z) : str := dec_loop (S (Z.to_nat (Z.log2 n))) n [].
(** os << n with width 0 *)
Definition dec (z : Z) : str := if z <? 0 then "-"%char :: dec_u (- z) else dec_u z.
(** os << n with the given fill character and width, right adjusted *)
Definition put_right (fill : ascii) (width : nat) (z : Z) : str :=
  repeat fill (width - length (dec z)) ++ dec z.
(** The same with std::ios::internal: the padding goes between the sign and the digits *)
Definition put_internal (fill : ascii) (width : nat) (z : Z) : str :=
  if z <? 0
  then "-"%char :: repeat fill (width - length (dec z)) ++ dec_u (- z)
  else put_right fill width z.
(** The idiom if (n < 10) os << '0'; os << n; *)
Definition put_two (n : Z) : str := (if n <? 10 then ["0"%char] else []) ++ dec n.

(** date.h:4408-4430 weekday_names, 4432-4464 month_names, 4466-4476 ampm_names *)
Definition weekday_names : list str :=
  [ !"Sunday"; !"Monday"; !"Tuesday"; !"Wednesday"; !"Thursday"; !"Friday"; !"Saturday";
    !"Sun"; !"Mon"; !"Tue"; !"Wed"; !"Thu"; !"Fri"; !"Sat" ].
Definition month_names : list str :=
  [ !"January"; !"February"; !"March"; !"April"; !"May"; !"June"; !"July"; !"August";
    !"September"; !"October"; !"November"; !"December";
    !"Jan"; !"Feb"; !"Mar"; !"Apr"; !"May"; !"Jun"; !"Jul"; !"Aug"; !"Sep"; !"Oct"; !"Nov"; !"Dec" ].
Definition ampm_names : list str := [ !"AM"; !"PM" ].
(** Access to such an array; an index outside is UB *)
Definition name (l : list str) (i : Z) : outcome str :=
  if (0 <=? i) && (i <? zlen l) then Ok (nth (Z.to_nat i) l []) else UB.

(** * fields, date.h:4326-4363 *)
Record fields := Fields { f_ymd : ymd; f_wd : Z; f_tod : hms; f_has : bool }.
(** date.h:4325 nanyear *)
Definition nanyear : Z := year (-32768).
Definition no_ymd : ymd := YMD nanyear 0 0.
Definition no_wd : Z := weekday 8.
Definition no_tod : hms := HMS 0 0 0 0 false.
(** Lines 4341-4362, the constructors used below *)
Definition fields_ymd (x : ymd) : fields := Fields x no_wd no_tod false.
Definition fields_wd (w : Z) : fields := Fields no_ymd w no_tod false.
Definition fields_tod (t : hms) : fields := Fields no_ymd no_wd t true.
Definition fields_both (x : ymd) (t : hms) : fields := Fields x no_wd t true.

(** os.setstate(failbit) unless the condition holds *)
Definition require (b : bool) : outcome unit := if b then Ok tt else Throw RuntimeError.

(** date.h:4361-4385 extract_weekday *)
Definition extract_weekday (f : fields) : outcome Z :=
  if negb (ymd_ok (f_ymd f)) && negb (weekday_ok (f_wd f)) then Throw RuntimeError
  else if ymd_ok (f_ymd f)
  then
    n <- to_days (f_ymd f) ;;
    let wd := weekday_from_days n in
    if weekday_ok (f_wd f) && negb (wd =? f_wd f) then Throw RuntimeError
    else d <- weekday_diff wd 0 ;; Ok (uns d)
  else d <- weekday_diff (f_wd f) 0 ;; Ok (uns d).
(** date.h:4387-4399 extract_month *)
Definition extract_month (f : fields) : outcome Z :=
  _ <- require (month_ok (mo (f_ymd f))) ;; Ok (mo (f_ymd f)).

Section Fmt.
(** The number of decimals of a second *)
Context (w : nat).
Definition ticks : Z := 10 ^ Z.of_nat w.

(** date.h:3599-3624 decimal_format_seconds::print for an integral count *)
Definition sec_put (x : hms) : str :=
  put_right "0" 2 (s_ x) ++
  (if Nat.ltb 0 w then "."%char :: put_right "0" w (sub_ x) else []).
(** date.h:3700-3714 operator<<(hh_mm_ss) *)
Definition hms_put (x : hms) : str :=
  (if neg_ x then ["-"%char] else []) ++ put_two (h_ x) ++ ":"%char :: put_two (m_ x) ++
  ":"%char :: sec_put x.

(** date.h:4128-4176 and 4227-4268 get_units for the period 1/10^w *)
Definition units : str :=
  match w with
  | 0%nat => !"s"
  | 1%nat => !"ds"
  | 2%nat => !"cs"
  | 3%nat => !"ms"
  | 6%nat => [chr 194; chr 181; "s"%char]
  | 9%nat => !"ns"
  | 12%nat => !"ps"
  | 15%nat => !"fs"
  | 18%nat => !"as"
  | _ => !"[1/" ++ dec ticks ++ !"]s"
  end.
End Fmt.

(** date.h:1664-1681 low_level_fmt and operator<< of year *)
Definition year_low (y : Z) : str := put_internal "0" (if y <? 0 then 5 else 4) y.
Definition year_put (y : Z) : str :=
  year_low y ++ (if year_ok y then [] else !" is not a valid year").

(** The Thursday-based week count: date.h:5354-5362 (%V) and 4891-4896 (%G).  [ld] is a day
    number; the result is the ISO year and the start of its first week. *)
Definition iso_start (y : Z) : outcome Z :=
  y1 <- year_sub y 1 ;;
  t <- wlast_to_days y1 12 4 ;;
  d <- weekday_diff 1 4 ;;
  int_ (t + d).
Definition iso_year (ld : Z) : outcome (Z * Z) :=
  n <- int_ (ld + 3) ;;
  x <- from_days n ;;
  let y := yr x in
  start <- iso_start y ;;
  if ld <? start
  then y' <- year_sub y 1 ;; start' <- iso_start y' ;; Ok (y', start')
  else Ok (y, start).
(** date.h:5310-5320 (%U, first day Sunday) and 5435-5444 (%W, Monday); duration_cast<weeks>
    divides *)
Definition week_number (first : Z) (y ld : Z) : outcome str :=
  st <- ymw_to_days (YMW y 1 first 1) ;;
  if ld <? st then Ok (!"00")
  else d <- int_ (ld - st) ;; wn <- int_ (d ÷ 7 + 1) ;; Ok (put_two wn).

(** std::abs of an int *)
Definition abs_int (z : Z) : outcome Z := if z <? 0 then int_ (- z) else Ok z.

(** The characters with a case of their own in the switch of to_stream, except E, O and % *)
Definition directives : str := !"aAbBhcxCdeDFgGHIjmMnpQqrRStTuUVwWXyYzZ".
Definition NUL : ascii := "000"%char.

(** * One directive, date.h:4621-5612, cases with [command] set

    [md] is the modifier E or O or NUL, [neg] the flag insert_negative, [c] the character.
    The result is the text and the new flag. *)
Section Stream.
Context (w : nat) (f : fields) (abbrev : option str) (offset : option Z).

Definition lit3 (md c : ascii) : str := ["%"%char; md; c].
Definition minus (neg : bool) : str := if neg then ["-"%char] else [].
Definition date_slashes : str :=
  put_right "0" 2 (mo (f_ymd f)) ++ "/"%char :: put_right "0" 2 (dy (f_ymd f)) ++
  "/"%char :: put_right "0" 2 (Z.rem (yr (f_ymd f)) 100).

Definition directive (md : ascii) (neg : bool) (c : ascii) : outcome (str * bool) :=
  let x := f_ymd f in
  let t := f_tod f in
  let plain := Ascii.eqb md NUL in
  let isE := Ascii.eqb md "E" in
  let isO := Ascii.eqb md "O" in
  let verbatim := Ok (lit3 md c, neg) in
  match c with
  | "a"%char | "A"%char =>   (* 4621-4646 *)
      if plain then
        wd <- extract_weekday f ;;
        s <- name weekday_names (wd + (if Ascii.eqb c "a" then 7 else 0)) ;; Ok (s, neg)
      else verbatim
  | "b"%char | "B"%char | "h"%char =>   (* 4647-4671 *)
      if plain then
        m <- extract_month f ;;
        s <- name month_names (m - 1 + (if Ascii.eqb c "B" then 0 else 12)) ;; Ok (s, neg)
      else verbatim
  | "c"%char =>   (* 4672-4742 *)
      if isO then verbatim
      else
        _ <- require (ymd_ok x) ;; _ <- require (f_has f) ;;
        wd <- extract_weekday f ;;
        a <- name weekday_names (wd + 7) ;;
        m <- extract_month f ;;
        b <- name month_names (m - 1 + 12) ;;
        dur <- hms_to_duration (ticks w) t ;;
        hm <- hms_of 1 (dur ÷ ticks w) ;;
        Ok (a ++ " "%char :: b ++ " "%char :: (if dy x <? 10 then [" "%char] else []) ++ dec (dy x)
            ++ " "%char :: hms_put 0 hm ++ " "%char :: year_put (yr x), neg)
  | "x"%char =>   (* 4672-4742 *)
      if isO then verbatim else _ <- require (ymd_ok x) ;; Ok (date_slashes, neg)
  | "C"%char =>   (* 4743-4786 *)
      if isO then verbatim
      else
        _ <- require (year_ok (yr x)) ;;
        if yr x >=? 0 then Ok (put_right "0" 2 (yr x ÷ 100), neg)
        else Ok ("-"%char :: put_right "0" 2 ((- (yr x - 99)) ÷ 100), neg)
  | "d"%char | "e"%char =>   (* 4787-4825 *)
      if isE then verbatim
      else
        _ <- require (day_ok (dy x)) ;;
        Ok (put_right (if Ascii.eqb c "d" then "0" else " ") 2 (dy x), neg)
  | "D"%char =>   (* 4826-4853 *)
      if plain then _ <- require (ymd_ok x) ;; Ok (date_slashes, neg) else verbatim
  | "F"%char =>   (* 4854-4882 *)
      if plain then
        _ <- require (ymd_ok x) ;;
        Ok (put_right "0" 4 (yr x) ++ "-"%char :: put_right "0" 2 (mo x) ++
            "-"%char :: put_right "0" 2 (dy x), neg)
      else verbatim
  | "g"%char | "G"%char =>   (* 4883-4917 *)
      if plain then
        _ <- require (ymd_ok x) ;;
        ld <- to_days x ;;
        '(y, _) <- iso_year ld ;;
        if Ascii.eqb c "G" then Ok (year_put y, neg)
        else a <- abs_int y ;; Ok (put_right "0" 2 (Z.rem a 100), neg)
      else verbatim
  | "H"%char | "I"%char =>   (* 4918-4957 *)
      if isE then verbatim
      else
        _ <- require (f_has f) ;;
        Ok (minus neg ++ put_two (if Ascii.eqb c "I" then make12 (h_ t) else h_ t), false)
  | "j"%char =>   (* 4958-4996 *)
      if plain then
        if ymd_ok x then
          ld <- to_days x ;;
          l1 <- to_days (YMD (yr x) 1 1) ;;
          d <- int_ (ld - l1) ;; d1 <- int_ (d + 1) ;;
          Ok (put_right "0" 3 d1, neg)
        else if f_has f then
          dur <- hms_to_duration (ticks w) t ;;
          Ok (put_right "0" 3 (conv int_t (dur ÷ (86400 * ticks w))), neg)
        else Throw RuntimeError
      else verbatim
  | "m"%char =>   (* 4997-5029 *)
      if isE then verbatim
      else _ <- require (month_ok (mo x)) ;; Ok (put_two (mo x), neg)
  | "M"%char =>   (* 5030-5066 *)
      if isE then verbatim
      else _ <- require (f_has f) ;; Ok (minus neg ++ put_two (m_ t), false)
  | "n"%char =>   (* 5067-5081 *)
      if plain then Ok ([chr 10], neg) else verbatim
  | "p"%char =>   (* 5082-5109 *)
      if plain then
        _ <- require (f_has f) ;;
        s <- name ampm_names (if is_am (h_ t) then 0 else 1) ;; Ok (s, neg)
      else verbatim
  | "Q"%char | "q"%char =>   (* 5110-5133 *)
      if plain then
        _ <- require (f_has f) ;;
        dur <- hms_to_duration (ticks w) t ;;
        Ok (if Ascii.eqb c "q" then units w else dec dur, neg)
      else verbatim
  | "r"%char =>   (* 5134-5172 *)
      if plain then
        _ <- require (f_has f) ;;
        dur <- hms_to_duration (ticks w) t ;;
        hm <- hms_of 1 (dur ÷ ticks w) ;;
        s <- name ampm_names (if is_am (h_ hm) then 0 else 1) ;;
        Ok (put_right "0" 2 (make12 (h_ hm)) ++ ":"%char :: put_right "0" 2 (m_ hm) ++
            ":"%char :: put_right "0" 2 (s_ hm) ++ " "%char :: s, neg)
      else verbatim
  | "R"%char =>   (* 5173-5196 *)
      if plain then
        _ <- require (f_has f) ;; Ok (put_two (h_ t) ++ ":"%char :: put_two (m_ t), neg)
      else verbatim
  | "S"%char =>   (* 5197-5231 *)
      if isE then verbatim
      else _ <- require (f_has f) ;; Ok (minus neg ++ sec_put w t, false)
  | "t"%char =>   (* 5232-5246 *)
      if plain then Ok ([chr 9], neg) else verbatim
  | "T"%char =>   (* 5247-5265 *)
      if plain then _ <- require (f_has f) ;; Ok (hms_put w t, neg) else verbatim
  | "u"%char =>   (* 5266-5294 *)
      if isE then verbatim
      else wd <- extract_weekday f ;; Ok (dec (if negb (wd =? 0) then wd else 7), neg)
  | "U"%char =>   (* 5295-5339 *)
      if isE then verbatim
      else
        _ <- require (ymd_ok x) ;;
        ld <- to_days x ;; s <- week_number 0 (yr x) ld ;; Ok (s, neg)
  | "V"%char =>   (* 5340-5387 *)
      if isE then verbatim
      else
        _ <- require (ymd_ok x) ;;
        ld <- to_days x ;;
        '(_, st) <- iso_year ld ;;
        d <- int_ (ld - st) ;; wn <- int_ (d ÷ 7 + 1) ;; Ok (put_two wn, neg)
  | "w"%char =>   (* 5388-5419 *)
      wd <- extract_weekday f ;;
      if isE then verbatim else Ok (dec wd, neg)
  | "W"%char =>   (* 5420-5464 *)
      if isE then verbatim
      else
        _ <- require (ymd_ok x) ;;
        ld <- to_days x ;; s <- week_number 1 (yr x) ld ;; Ok (s, neg)
  | "X"%char =>   (* 5465-5494 *)
      if isO then verbatim else _ <- require (f_has f) ;; Ok (hms_put w t, neg)
  | "y"%char =>   (* 5495-5523 *)
      _ <- require (year_ok (yr x)) ;;
      a <- abs_int (yr x) ;; Ok (put_two (Z.rem a 100), neg)
  | "Y"%char =>   (* 5524-5556 *)
      if isO then verbatim
      else _ <- require (year_ok (yr x)) ;; Ok (year_put (yr x), neg)
  | "z"%char =>   (* 5557-5588 *)
      match offset with
      | None => Throw RuntimeError
      | Some off =>
          let m := off ÷ 60 in
          let a := Z.abs m in
          let h := a ÷ 60 in
          let mi := a - h * 60 in
          Ok ((if m <? 0 then "-"%char else "+"%char) :: put_two h ++
              (if plain then [] else [":"%char]) ++ put_two mi, neg)
      end
  | "Z"%char =>   (* 5589-5612 *)
      if plain then
        match abbrev with
        | None => Throw RuntimeError
        | Some a => Ok (a, neg)
        end
      else verbatim
  | _ => verbatim   (* not reached: [c] is one of [directives] *)
  end.

(** * The loop over the format, date.h:4617-5668: a character without [command], the cases E, O, %
    and default (5613-5662), and the end.  [cmd] is command != nullptr. *)
Fixpoint run (fmt : str) (cmd : bool) (md : ascii) (neg : bool) : outcome str :=
  match fmt with
  | [] => Ok ((if cmd then ["%"%char] else []) ++ (if Ascii.eqb md NUL then [] else [md]))
  | c :: fmt' =>
      if memb c directives then
        if cmd
        then '(s, neg') <- directive md neg c ;; r <- run fmt' false NUL neg' ;; Ok (s ++ r)
        else r <- run fmt' cmd md neg ;; Ok (c :: r)
      else if Ascii.eqb c "E" || Ascii.eqb c "O" then
        if cmd
        then if Ascii.eqb md NUL then run fmt' cmd c neg
             else r <- run fmt' false NUL neg ;; Ok (lit3 md c ++ r)
        else r <- run fmt' cmd md neg ;; Ok (c :: r)
      else if Ascii.eqb c "%" then
        if cmd
        then r <- run fmt' false NUL neg ;;
             Ok ((if Ascii.eqb md NUL then ["%"%char] else lit3 md "%") ++ r)
        else run fmt' true md neg
      else
        r <- run fmt' false NUL neg ;;
        Ok ((if cmd then ["%"%char] else []) ++ (if Ascii.eqb md NUL then [] else [md]) ++ c :: r)
  end.

(** The format is a C string: it ends at the first NUL character *)
Fixpoint c_str (s : str) : str :=
  match s with
  | [] => []
  | c :: s' => if Ascii.eqb c NUL then [] else c :: c_str s'
  end.

(** date.h:4588-4617 to_stream(os, fmt, fields, abbrev, offset) into an empty stream *)
Definition to_stream (fmt : str) : outcome str :=
  neg <- (if f_has f then d <- hms_to_duration (ticks w) (f_tod f) ;; Ok (d <? 0) else Ok false) ;;
  run (c_str fmt) false NUL neg.
End Stream.

(** * date::format for the types, date.h:5672-5840 (the first argument of the fields'
    duration is seconds for the calendar types, that is w = 0) *)
Definition format_year (fmt : str) (y : Z) : outcome str := to_stream 0 (fields_ymd (YMD y 0 0)) None None fmt.
Definition format_month (fmt : str) (m : Z) : outcome str := to_stream 0 (fields_ymd (YMD nanyear m 0)) None None fmt.
Definition format_day (fmt : str) (d : Z) : outcome str := to_stream 0 (fields_ymd (YMD nanyear 0 d)) None None fmt.
Definition format_weekday (fmt : str) (wd : Z) : outcome str := to_stream 0 (fields_wd wd) None None fmt.
Definition format_year_month (fmt : str) (x : ym) : outcome str :=
  to_stream 0 (fields_ymd (YMD (ym_year x) (ym_month x) 0)) None None fmt.
Definition format_month_day (fmt : str) (m d : Z) : outcome str :=
  to_stream 0 (fields_ymd (YMD nanyear m d)) None None fmt.
Definition format_ymd (fmt : str) (x : ymd) : outcome str := to_stream 0 (fields_ymd x) None None fmt.
(** Lines 5742-5752, a duration of [d] ticks *)
Definition format_duration (w : nat) (fmt : str) (d : Z) : outcome str :=
  t <- hms_of (ticks w) d ;; to_stream w (fields_tod t) None None fmt.

(** Lines 5754-5769 and 5771-5788: the date and the time of day of a time point of [tp] ticks.
    time_point_cast<days> divides and converts to int. *)
Definition split_time (w : nat) (tp : Z) : outcome fields :=
  let k := ticks w in
  let sd := conv int_t (tp ÷ (86400 * k)) in
  p <- arith llong_t (sd * (86400 * k)) ;;
  if p <=? tp
  then
    x <- from_days sd ;; r <- arith llong_t (tp - p) ;; t <- hms_of k r ;; Ok (fields_both x t)
  else
    sd' <- int_ (sd - 1) ;; x <- from_days sd' ;;
    r <- arith llong_t (p - tp) ;; r' <- arith llong_t (86400 * k - r) ;; t <- hms_of k r' ;;
    Ok (fields_both x t).
Definition format_local (w : nat) (fmt : str) (tp : Z) : outcome str :=
  f <- split_time w tp ;; to_stream w f None None fmt.
Definition format_sys (w : nat) (fmt : str) (tp : Z) : outcome str :=
  f <- split_time w tp ;; to_stream w f (Some (!"UTC")) (Some 0) fmt.

(** * The operators <<, into a stream with default flags *)
(** date.h:1419-1443 day *)
Definition day_low (d : Z) : str := put_right "0" 2 d.
Definition day_put (d : Z) : str := day_low d ++ (if day_ok d then [] else !" is not a valid day").
(** date.h:1536-1565 month: %b of the stream's locale, here the classic one *)
Definition month_low (m : Z) : outcome str := if month_ok m then format_month (!"%b") m else Ok (dec m).
Definition month_put (m : Z) : outcome str :=
  s <- month_low m ;; Ok (s ++ (if month_ok m then [] else !" is not a valid month")).
(** date.h:1777-1805 weekday: %a *)
Definition weekday_low (wd : Z) : outcome str :=
  if weekday_ok wd then format_weekday (!"%a") wd else Ok (dec wd).
Definition weekday_put (wd : Z) : outcome str :=
  s <- weekday_low wd ;; Ok (s ++ (if weekday_ok wd then [] else !" is not a valid weekday")).
(** date.h:1908-1930 weekday_indexed *)
Definition wdi_low (wd i : Z) : outcome str :=
  s <- weekday_low wd ;;
  Ok (s ++ "["%char :: dec i ++ !"]").
(** date.h:2123-2147 year_month *)
Definition ym_put (x : ym) : outcome str :=
  m <- month_low (ym_month x) ;;
  Ok (year_low (ym_year x) ++ "/"%char :: m ++
      (if year_ok (ym_year x) && month_ok (ym_month x) then [] else !" is not a valid year_month")).
(** date.h:2750-2770 year_month_day *)
Definition ymd_put (x : ymd) : str :=
  dec (yr x) ++ "-"%char :: put_right "0" 2 (mo x) ++ "-"%char :: put_right "0" 2 (dy x) ++
  (if ymd_ok x then [] else !" is not a valid year_month_day").
(** date.h:2537-2559 year_month_day_last *)
Definition ymdl_put (y m : Z) : outcome str :=
  s <- month_low m ;;
  Ok (year_low y ++ "/"%char :: s ++ !"/last" ++
      (if year_ok y && month_ok m then [] else !" is not a valid year_month_day_last")).
(** date.h:2967-2978 year_month_weekday *)
Definition ymw_put (x : ymw) : outcome str :=
  m <- month_low (w_month x) ;;
  i <- wdi_low (weekday (w_day x)) (w_index x) ;;
  ok <- ymw_ok x ;;
  Ok (year_low (w_year x) ++ "/"%char :: m ++ "/"%char :: i ++
      (if ok then [] else !" is not a valid year_month_weekday")).
(** date.h:3786-3797 sys_time *)
Definition sys_time_put (w : nat) (tp : Z) : outcome str :=
  let k := ticks w in
  dp <- dur_floor llong_t (86400 * k) tp ;;
  x <- from_days (conv int_t dp) ;;
  p <- arith llong_t (conv int_t dp * (86400 * k)) ;;
  r <- arith llong_t (tp - p) ;;
  t <- hms_of k r ;;
  Ok (ymd_put x ++ " "%char :: hms_put w t).
(** date.h:3799-3805 sys_days *)
Definition sys_days_put (n : Z) : outcome str := x <- from_days n ;; Ok (ymd_put x).
(** date.h:7945-7952 a duration with period 1/10^w *)
Definition duration_put (w : nat) (d : Z) : str := dec d ++ units w.
