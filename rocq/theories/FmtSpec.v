(** What the directives of date::format stand for, independent of how the code computes them. *)
From Verif Require Import Base DateModel DateSpec.
Local Open Scope Z_scope.

(** * Formats: ordinary characters and directives *)
Inductive item := Lit (c : ascii) | Dir (c : ascii).
Definition show (i : item) : str := match i with Lit c => [c] | Dir c => ["%"%char; c] end.
Definition fmt_of (l : list item) : str := concat (map show l).
(** An ordinary character: not the start of a directive, not the end of the C string *)
Definition ordinary (c : ascii) : Prop := c <> "%"%char /\ c <> "000"%char.

(** * Numbers *)
Definition is_dig (c : ascii) : Prop := 48 <= uc c <= 57.
Definition value (s : str) : Z := fold_left (fun a c => 10 * a + (uc c - 48)) s 0.
(** [s] is [n] in decimal, with leading zeros up to [k] digits *)
Definition padded (k : nat) (n : Z) (s : str) : Prop :=
  Forall is_dig s /\ value s = n /\ (length s = k \/ (k < length s)%nat /\ hd "0"%char s <> "0"%char).
(** The same with a sign for negative numbers *)
Definition signed (k : nat) (n : Z) (s : str) : Prop :=
  (0 <= n /\ padded k n s) \/ (n < 0 /\ exists t, s = "-"%char :: t /\ padded k (- n) t).

(** * Days *)
(** [n] is the number of days from 1970-01-01 to [x] *)
Definition day_number (x : ymd) (n : Z) : Prop :=
  (0 <= n /\ later (Z.to_nat n) epoch x) \/ (n < 0 /\ later (Z.to_nat (- n)) x epoch).
(** How many of the [len] days from day number [a] on fall on weekday [wd] *)
Fixpoint count_wd (wd a : Z) (len : nat) : Z :=
  match len with
  | O => 0
  | S len' => count_wd wd a len' + (if weekday_of (a + Z.of_nat len') =? wd then 1 else 0)
  end.
(** The number of days with weekday [wd] in the year of [x], up to and including [x] *)
Definition seen (wd : Z) (x : ymd) (k : Z) : Prop :=
  exists a b, day_number (YMD (yr x) 1 1) a /\ day_number x b /\ k = count_wd wd a (Z.to_nat (b - a + 1)).
(** ISO 8601: weeks start on Monday and belong to the year their Thursday is in; they are
    numbered by that Thursday *)
Definition iso_week (x : ymd) (year week : Z) : Prop :=
  exists n th t, day_number x n /\ n - 6 <= th - 3 <= n /\ weekday_of (th - 3) = 1 /\
  day_number t th /\ yr t = year /\ seen 4 t week.

Definition day_names : list str :=
  [!"Sunday"; !"Monday"; !"Tuesday"; !"Wednesday"; !"Thursday"; !"Friday"; !"Saturday"].
Definition months : list str :=
  [!"January"; !"February"; !"March"; !"April"; !"May"; !"June"; !"July"; !"August"; !"September";
   !"October"; !"November"; !"December"].
Definition short (s : str) : str := firstn 3 s.
(** Sunday is 0 for %w and 7 for %u *)
Definition weekday_is (x : ymd) (wd : Z) : Prop := exists n, day_number x n /\ wd = weekday_of n.

Local Open Scope char_scope.
(** Directives that need no value *)
Inductive fixed_text : ascii -> str -> Prop :=
| x_percent : fixed_text "%" (!"%")
| x_newline : fixed_text "n" [chr 10]
| x_tab : fixed_text "t" [chr 9].

(** * The text of a date *)
Inductive date_text (x : ymd) : ascii -> str -> Prop :=
| d_fixed c s : fixed_text c s -> date_text x c s
| d_Y s : signed 4 (yr x) s -> date_text x "Y" s
| d_y s : padded 2 (Z.abs (yr x) mod 100) s -> date_text x "y" s
| d_C s : signed 2 (yr x / 100) s -> date_text x "C" s
| d_m s : padded 2 (mo x) s -> date_text x "m" s
| d_d s : padded 2 (dy x) s -> date_text x "d" s
| d_e1 s : (dy x < 10)%Z -> padded 1 (dy x) s -> date_text x "e" (" " :: s)
| d_e2 s : (10 <= dy x)%Z -> padded 2 (dy x) s -> date_text x "e" s
| d_F y m d : signed 4 (yr x) y -> padded 2 (mo x) m -> padded 2 (dy x) d ->
    date_text x "F" (y ++ "-" :: m ++ "-" :: d)
| d_D c y m d : c = "D" \/ c = "x" -> padded 2 (yr x mod 100) y -> padded 2 (mo x) m -> padded 2 (dy x) d ->
    date_text x c (m ++ "/" :: d ++ "/" :: y)
| d_B : date_text x "B" (nth (Z.to_nat (mo x - 1)) months [])
| d_b c : c = "b" \/ c = "h" -> date_text x c (short (nth (Z.to_nat (mo x - 1)) months []))
| d_A wd : weekday_is x wd -> date_text x "A" (nth (Z.to_nat wd) day_names [])
| d_a wd : weekday_is x wd -> date_text x "a" (short (nth (Z.to_nat wd) day_names []))
| d_w wd s : weekday_is x wd -> padded 1 wd s -> date_text x "w" s
| d_u wd s : weekday_is x wd -> padded 1 (if wd =? 0 then 7 else wd)%Z s -> date_text x "u" s
| d_j k s : later k (YMD (yr x) 1 1) x -> padded 3 (Z.of_nat k + 1) s -> date_text x "j" s
| d_U k s : seen 0 x k -> padded 2 k s -> date_text x "U" s
| d_W k s : seen 1 x k -> padded 2 k s -> date_text x "W" s
| d_V g k s : iso_week x g k -> padded 2 k s -> date_text x "V" s
| d_G g k s : iso_week x g k -> signed 4 g s -> date_text x "G" s
| d_g g k s : iso_week x g k -> padded 2 (Z.abs g mod 100) s -> date_text x "g" s.

(** The directives covered, and what they ask of the year *)
Definition date_directive (x : ymd) (c : ascii) : Prop :=
  memb c (!"%ntYyCmdeBbhAawujUW") = true \/
  (c = "F" /\ (0 <= yr x \/ yr x <= -1000)%Z) \/
  ((c = "D" \/ c = "x") /\ (0 <= yr x)%Z) \/
  (memb c (!"VGg") = true /\ (-32765 <= yr x <= 32766)%Z).

(** * The text of a time: [d] >= 0 ticks of which 10^w make one second *)
Section Time.
Context (w : nat) (d : Z).
Let k : Z := 10 ^ Z.of_nat w.
Definition hours_of : Z := d / (3600 * k).
Definition minutes_of : Z := d / (60 * k) mod 60.
Definition seconds_of : Z := d / k mod 60.
Definition twelve (h : Z) : Z := (if h mod 12 =? 0 then 12 else h mod 12)%Z.
Definition half (h : Z) : str := if (h <? 12)%Z then !"AM" else !"PM".
Definition seconds_text (s : str) : Prop :=
  match w with
  | O => padded 2 seconds_of s
  | S _ => exists a b, s = a ++ "." :: b /\ padded 2 seconds_of a /\ padded w (d mod k) b
  end.
Definition clock_text (s : str) : Prop :=
  exists a b c, s = a ++ ":" :: b ++ ":" :: c /\ padded 2 hours_of a /\ padded 2 minutes_of b /\ seconds_text c.
Inductive time_text : ascii -> str -> Prop :=
| t_H s : padded 2 hours_of s -> time_text "H" s
| t_M s : padded 2 minutes_of s -> time_text "M" s
| t_S s : seconds_text s -> time_text "S" s
| t_T c s : c = "T" \/ c = "X" -> clock_text s -> time_text c s
| t_R a b : padded 2 hours_of a -> padded 2 minutes_of b -> time_text "R" (a ++ ":" :: b)
| t_Q s : padded 1 d s -> time_text "Q" s
| t_I s : padded 2 (twelve hours_of) s -> time_text "I" s
| t_p : time_text "p" (half hours_of)
| t_r a b c : padded 2 (twelve hours_of) a -> padded 2 minutes_of b -> padded 2 seconds_of c ->
    time_text "r" (a ++ ":" :: b ++ ":" :: c ++ " " :: half hours_of).
(** %I, %p and %r are for times of less than a day *)
Definition time_directive (c : ascii) : Prop :=
  memb c (!"HMSTXRQ") = true \/ (memb c (!"Ipr") = true /\ (hours_of < 24)%Z).
End Time.

(** %c: weekday, month, day, time without decimals, year *)
Inductive moment_text (w : nat) (x : ymd) (d : Z) : ascii -> str -> Prop :=
| m_date c s : date_text x c s -> moment_text w x d c s
| m_time c s : time_text w d c s -> moment_text w x d c s
| m_c a b e h y : date_text x "a" a -> date_text x "b" b -> date_text x "e" e ->
    clock_text 0 (d / 10 ^ Z.of_nat w) h -> date_text x "Y" y ->
    moment_text w x d "c" (a ++ " " :: b ++ " " :: e ++ " " :: h ++ " " :: y).

(** A sys_time is in UTC *)
Inductive sys_text (w : nat) (x : ymd) (d : Z) : ascii -> str -> Prop :=
| s_moment c s : moment_text w x d c s -> sys_text w x d c s
| s_z : sys_text w x d "z" (!"+0000")
| s_Z : sys_text w x d "Z" (!"UTC").

(** Directives for a moment, and for a sys_time *)
Definition moment_directive (w : nat) (x : ymd) (d : Z) (c : ascii) : Prop :=
  date_directive x c \/ time_directive w d c \/ c = "c".
Definition sys_directive (w : nat) (x : ymd) (d : Z) (c : ascii) : Prop :=
  moment_directive w x d c \/ c = "z" \/ c = "Z".

(** The text of a duration of [d] >= 0 ticks; %j is its number of whole days *)
Inductive duration_text (w : nat) (d : Z) : ascii -> str -> Prop :=
| u_fixed c s : fixed_text c s -> duration_text w d c s
| u_time c s : time_text w d c s -> duration_text w d c s
| u_days s : padded 3 (d / (86400 * 10 ^ Z.of_nat w)) s -> duration_text w d "j" s.
Definition duration_directive (w : nat) (d : Z) (c : ascii) : Prop :=
  memb c (!"%nt") = true \/ time_directive w d c \/
  (c = "j" /\ (d / (86400 * 10 ^ Z.of_nat w) < 2147483648)%Z).

(** * The text of a format *)
Inductive texts (R : ascii -> str -> Prop) : list item -> str -> Prop :=
| texts_nil : texts R [] []
| texts_lit c l s : texts R l s -> texts R (Lit c :: l) (c :: s)
| texts_dir c t l s : R c t -> texts R l s -> texts R (Dir c :: l) (t ++ s).
(** Every character is ordinary and every directive is covered *)
Definition covered (P : ascii -> Prop) (l : list item) : Prop :=
  Forall (fun i => match i with Lit c => ordinary c | Dir c => P c end) l.
