(** Formats that determine a date or a time, for the parse properties. *)
From Verif Require Import Base DateModel DateSpec FmtSpec.
Local Open Scope Z_scope.
Local Open Scope char_scope.

Definition letter (c : ascii) : Prop := 65 <= uc c <= 90 \/ 97 <= uc c <= 122.
(** The directives whose text is a name *)
Definition names : str := !"aAbBhp".
(** An abbreviated name is not followed by a letter: "%aday" could be read as a full name *)
Fixpoint apart (l : list item) : Prop :=
  match l with
  | [] => True
  | Lit _ :: l' => apart l'
  | Dir c :: l' =>
      (memb c (!"abh") = true ->
       match l' with
       | [] => True
       | Lit e :: _ => ~ letter e
       | Dir e :: _ => memb e names = false
       end) /\ apart l'
  end.

(** Some directive of [l] is one of [cs] *)
Definition has (l : list item) (cs : str) : Prop := exists c, In (Dir c) l /\ memb c cs = true.

(** The directives that can be parsed back *)
Definition date_in : str := !"%YyCmdFDxBbhAawujUWVG".
Definition time_in : str := !"HMSTXRIp".
(** The format determines the date [x].  Two digits of a year stand for 1969 to 2068 unless the
    century is given as well. *)
Definition century (l : list item) (x : ymd) : Prop := has l (!"YF") \/ has l (!"C") \/ 1969 <= yr x <= 2068.
Definition determines (l : list item) (x : ymd) : Prop :=
  (has l (!"yDx") -> century l x) /\
  (((has l (!"YF") \/ (has l (!"yDx") /\ century l x)) /\
    ((has l (!"mbBhFDx") /\ has l (!"dFDx")) \/ has l (!"j") \/ (has l (!"UW") /\ has l (!"aAuw")))) \/
   (has l (!"G") /\ has l (!"V") /\ has l (!"aAuw"))).
(** The format determines the time of day.  An hour on the 12 hour clock needs %p. *)
Definition determines_time (l : list item) : Prop :=
  (has l (!"HTXR") \/ has l (!"I")) /\ (has l (!"I") -> has l (!"p")) /\ has l (!"MTXR") /\ has l (!"STX").

(** * Formats without field widths and without %z.  A %t must not be followed by a digit: at
    the end of the input the digit would be taken for a width. *)
Definition digits : str := !"0123456789".
Inductive place := Text | Percent | Modifier | Tab.
Fixpoint plain_from (q : place) (fmt : str) : bool :=
  match fmt with
  | [] => true
  | c :: fmt' =>
      match q with
      | Text => plain_from (if Ascii.eqb c "%" then Percent else Text) fmt'
      | Percent =>
          negb (memb c digits) && negb (Ascii.eqb c "z") &&
          plain_from (if memb c (!"EO") then Modifier else if Ascii.eqb c "t" then Tab else Text) fmt'
      | Modifier => negb (Ascii.eqb c "z") && plain_from Text fmt'
      | Tab => negb (memb c digits) && plain_from (if Ascii.eqb c "%" then Percent else Text) fmt'
      end
  end.
Definition plain (fmt : str) : Prop := plain_from Text fmt = true.
(** Parsing succeeds with a value that meets [R] or sets failbit; no other outcome *)
Definition valid_or_fails {A : Type} (R : A -> Prop) (o : outcome A) : Prop :=
  (exists a, o = Ok a /\ R a) \/ o = Throw RuntimeError.

(** * What a text says about a date *)
(** One to [k] digits that stand for [n]; the same with an optional sign *)
Definition digits_up_to (k : nat) (n : Z) (s : str) : Prop :=
  (1 <= length s <= k)%nat /\ Forall is_dig s /\ value s = n.
Definition number_up_to (k : nat) (z : Z) (s : str) : Prop :=
  exists sg ds n, s = sg ++ ds /\ digits_up_to k n ds /\
    ((sg = [] /\ z = n) \/ (sg = !"+" /\ z = n) \/ (sg = !"-" /\ z = - n))%Z.
(** As many digits as possible are read *)
Definition no_more (k : nat) (ds r : str) : Prop :=
  (length ds < k)%nat -> match r with c :: _ => ~ is_dig c | [] => True end.
(** The texts that %F accepts: an optional sign, one to four digits, a hyphen, one or two digits,
    a hyphen, one or two digits; then anything *)
Definition iso_date (s : str) (x : ymd) : Prop :=
  exists y m d r, s = y ++ "-" :: m ++ "-" :: d ++ r /\
    number_up_to 4 (yr x) y /\ digits_up_to 2 (mo x) m /\ digits_up_to 2 (dy x) d /\ no_more 2 d r /\
    in_calendar x.

(** Equal up to the case of letters *)
Definition up (c : ascii) : ascii := if ((97 <=? uc c) && (uc c <=? 122))%Z then chr (uc c - 32) else c.
Definition same_word (s t : str) : Prop := map up s = map up t.
(** [x] lies in week [n], counted from the week (Monday to Sunday) that contains 4 January of year [g] *)
Definition in_week (x : ymd) (g n : Z) : Prop :=
  exists k j m, day_number x k /\ day_number (YMD g 1 4) j /\ weekday_of m = 1%Z /\ (m <= j < m + 7)%Z /\
    (m + 7 * (n - 1) <= k < m + 7 * n)%Z.
(** [given x g c t]: the text [t], read by directive %c, says the truth about [x], where [g] is the
    year by which the ISO weeks are counted.  The month and the day 0 stand for nothing.  Day [n] of
    the year is only compared by month and day, so it may lie outside of the year. *)
Definition or_zero (z n : Z) : Prop := z = n \/ z = 0%Z.
Inductive given (x : ymd) (g : Z) : ascii -> str -> Prop :=
| g_percent : given x g "%" (!"%")
| g_Y t : number_up_to 4 (yr x) t -> given x g "Y" t
| g_y t : digits_up_to 2 (Z.abs (yr x) mod 100) t -> given x g "y" t
| g_m t z : number_up_to 2 z t -> or_zero z (mo x) -> given x g "m" t
| g_d c t z : c = "d" \/ c = "e" -> number_up_to 2 z t -> or_zero z (dy x) -> given x g c t
| g_F y m d a b : number_up_to 4 (yr x) y -> digits_up_to 2 a m -> or_zero a (mo x) ->
    digits_up_to 2 b d -> or_zero b (dy x) -> given x g "F" (y ++ "-" :: m ++ "-" :: d)
| g_D c y m d a b : c = "D" \/ c = "x" -> number_up_to 2 (Z.abs (yr x) mod 100) y ->
    digits_up_to 2 a m -> or_zero a (mo x) -> digits_up_to 2 b d -> or_zero b (dy x) ->
    given x g c (m ++ "/" :: d ++ "/" :: y)
| g_B c t : memb c (!"bBh") = true ->
    same_word t (nth (Z.to_nat (mo x - 1)) months []) \/ same_word t (short (nth (Z.to_nat (mo x - 1)) months [])) ->
    given x g c t
| g_A c t wd : c = "a" \/ c = "A" -> weekday_is x wd ->
    same_word t (nth (Z.to_nat wd) day_names []) \/ same_word t (short (nth (Z.to_nat wd) day_names [])) ->
    given x g c t
| g_u t n : (1 <= n <= 7)%Z -> digits_up_to 1 n t -> weekday_is x (n mod 7) -> given x g "u" t
| g_w t n : digits_up_to 1 n t -> weekday_is x n -> given x g "w" t
| g_j t n k y : digits_up_to 3 n t -> day_number (YMD (yr x) 1 1) k -> day_number y (k + n - 1) ->
    mo y = mo x -> dy y = dy x -> given x g "j" t
| g_U t n : digits_up_to 2 n t -> seen 0 x n -> given x g "U" t
| g_W t n : digits_up_to 2 n t -> seen 1 x n -> given x g "W" t
| g_C t : number_up_to 2 (yr x / 100) t -> given x g "C" t
| g_G t : number_up_to 4 g t -> given x g "G" t
| g_g t : digits_up_to 2 (Z.abs g mod 100) t -> given x g "g" t
| g_V t n : digits_up_to 2 n t -> in_week x g n -> given x g "V" t.
Definition sound_in : str := !"%YymdeFDxbBhaAuwjUWCGgV".
(** Which directives a format has *)
Definition uses (l : list item) (cs : str) : bool :=
  existsb (fun i => match i with Dir c => memb c cs | Lit _ => false end) l.
(** The ISO year, the ISO week and the day of the week: together they give the date *)
Definition iso_given (l : list item) : bool := uses l (!"Gg") && uses l (!"V") && uses l (!"aAuwc").
(** Formats in which everything is compared: the century is only used together with a two-digit
    year, and the ISO year and week are not compared if a date follows from %U or %W *)
Definition compared (l : list item) : Prop :=
  (uses l (!"C") = true -> uses l (!"yDx") = true) /\
  (uses l (!"GgV") = true -> uses l (!"UW") = true -> uses l (!"aAuwc") = true -> iso_given l = true).
(** White space in the format stands for any amount of white space *)
Definition white (c : ascii) : Prop := (uc c = 32 \/ 9 <= uc c <= 13)%Z.
Definition piece (x : ymd) (g : Z) (i : item) (t : str) : Prop :=
  match i with
  | Lit c => (white c /\ Forall white t) \/ (~ white c /\ t = [c])
  | Dir c => given x g c t
  end.

(** * What a text says about a time of day, counted in ticks of 10^-w seconds *)
(** The ticks within the minute *)
Definition ticks_of (w : nat) (d : Z) : Z := (d mod (60 * 10 ^ Z.of_nat w))%Z.
(** Decimal digits with at most one point, no longer than the seconds of the type are written, that
    stand for [q] ticks: no other number of ticks is nearer *)
Definition seconds_text (w : nat) (q : Z) (t : str) : Prop :=
  exists a p b, t = a ++ p ++ b /\ Forall is_dig (a ++ b) /\ (p = !"." \/ (p = [] /\ b = [])) /\
    (1 <= length t <= if Nat.eqb w 0 then 2 else 3 + w)%nat /\
    (2 * Z.abs (q * 10 ^ zlen b - (value a * 10 ^ zlen b + value b) * 10 ^ Z.of_nat w) <= 10 ^ zlen b)%Z.
(** Hour [z] of the clock with 12 hours *)
Definition hour12 (z h : Z) : Prop := (1 <= z <= 12 /\ z mod 12 = h mod 12)%Z.
Definition half_day (h : Z) (t : str) : Prop := same_word t (if (h <? 12)%Z then !"AM" else !"PM").
(** The hour 0 of %r stands for nothing, and so does the AM or PM after it *)
Inductive time_given (w : nat) (d : Z) : ascii -> str -> Prop :=
| g_H t : digits_up_to 2 (hours_of w d) t -> time_given w d "H" t
| g_I t z : number_up_to 2 z t -> hour12 z (hours_of w d) -> time_given w d "I" t
| g_p t : half_day (hours_of w d) t -> time_given w d "p" t
| g_M t : digits_up_to 2 (minutes_of w d) t -> time_given w d "M" t
| g_S t : seconds_text w (ticks_of w d) t -> time_given w d "S" t
| g_R h m : digits_up_to 2 (hours_of w d) h -> digits_up_to 2 (minutes_of w d) m -> time_given w d "R" (h ++ ":" :: m)
| g_T c h m s : c = "T" \/ c = "X" -> digits_up_to 2 (hours_of w d) h -> digits_up_to 2 (minutes_of w d) m ->
    seconds_text w (ticks_of w d) s -> time_given w d c (h ++ ":" :: m ++ ":" :: s)
| g_r h m s b p z : digits_up_to 2 z h -> digits_up_to 2 (minutes_of w d) m -> seconds_text w (ticks_of w d) s ->
    Forall white b -> same_word p (!"AM") \/ same_word p (!"PM") ->
    z = 0%Z \/ (hour12 z (hours_of w d) /\ half_day (hours_of w d) p) ->
    time_given w d "r" (h ++ ":" :: m ++ ":" :: s ++ b ++ p).
Definition clock_in : str := !"HIpMSRTXr".
Definition moment_in : str := sound_in ++ clock_in ++ !"cz".
(** %z: a sign, two digits for the hours and perhaps two digits for the minutes, [o] minutes *)
Definition offset_text (o : Z) (t : str) : Prop :=
  exists sg a b, t = sg ++ a ++ b /\ Forall is_dig (a ++ b) /\ length a = 2%nat /\ (b = [] \/ length b = 2%nat) /\
    (((sg = [] \/ sg = !"+") /\ o = 60 * value a + value b) \/ (sg = !"-" /\ o = - (60 * value a + value b)))%Z.
(** %c: day of the week, month, day, time and year *)
Definition full_text (w : nat) (x : ymd) (g d : Z) (t : str) : Prop :=
  exists ta b1 tb b2 td b3 tc b4 ty, t = ta ++ b1 ++ tb ++ b2 ++ td ++ b3 ++ tc ++ b4 ++ ty /\ Forall white (b1 ++ b2 ++ b3 ++ b4) /\
    given x g "a" ta /\ given x g "b" tb /\ given x g "d" td /\ time_given w d "T" tc /\ given x g "Y" ty.
(** AM or PM is only compared with an hour of the clock with 12 hours *)
Definition compared_time (l : list item) : Prop := uses l (!"p") = true -> uses l (!"I") = true.
(** [o] is the difference to UTC in minutes *)
Definition moment (w : nat) (x : ymd) (g d o : Z) (i : item) (t : str) : Prop :=
  piece x g i t \/ (exists c, i = Dir c /\ time_given w d c t) \/ (i = Dir "z" /\ offset_text o t) \/ (i = Dir "c" /\ full_text w x g d t).
(** What the format does not mention is zero *)
Definition rest_zero (w : nat) (d o : Z) (l : list item) : Prop :=
  (uses l (!"HIRTXrc") = false -> hours_of w d = 0%Z) /\ (uses l (!"MRTXrc") = false -> minutes_of w d = 0%Z) /\
  (uses l (!"STXrc") = false -> ticks_of w d = 0%Z) /\ (uses l (!"z") = false -> o = 0%Z).
(** * What a text says about a duration of [h] hours, [m] minutes and [q] ticks *)
Inductive span_given (w : nat) (h m q : Z) : ascii -> str -> Prop :=
| s_percent : span_given w h m q "%" (!"%")
| s_H t : digits_up_to 2 h t -> span_given w h m q "H" t
| s_M t : digits_up_to 2 m t -> span_given w h m q "M" t
| s_S t : seconds_text w q t -> span_given w h m q "S" t
| s_R a b : digits_up_to 2 h a -> digits_up_to 2 m b -> span_given w h m q "R" (a ++ ":" :: b)
| s_T c a b t : c = "T" \/ c = "X" -> digits_up_to 2 h a -> digits_up_to 2 m b -> seconds_text w q t ->
    span_given w h m q c (a ++ ":" :: b ++ ":" :: t).
Definition span_in : str := !"%HMSRTX".
Definition span_piece (w : nat) (h m q : Z) (i : item) (t : str) : Prop :=
  match i with
  | Lit c => (white c /\ Forall white t) \/ (~ white c /\ t = [c])
  | Dir c => span_given w h m q c t
  end.
