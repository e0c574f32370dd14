(** The texts that %R and "%F %R" accept *)
From Verif Require Import Base DateModel DateSpec FmtSpec ParSpec.
Local Open Scope Z_scope.
Local Open Scope char_scope.

(** One or two digits, a colon, one or two digits; then anything, but no digit that could have been
    read.  They stand for h hours and m minutes. *)
Definition hours_minutes (s : str) (h m : Z) : Prop :=
  exists a b r, s = a ++ ":" :: b ++ r /\ digits_up_to 2 h a /\ digits_up_to 2 m b /\ no_more 2 b r.

(** The texts that "%F %R" accepts: a date as for %F, any white space or none, hours below 24 and
    minutes below 60 as for %R; then anything *)
Definition date_minutes (s : str) (x : ymd) (h m : Z) : Prop :=
  exists y mm d b t, s = y ++ "-" :: mm ++ "-" :: d ++ b ++ t /\
    number_up_to 4 (yr x) y /\ digits_up_to 2 (mo x) mm /\ digits_up_to 2 (dy x) d /\ no_more 2 d (b ++ t) /\
    in_calendar x /\ Forall white b /\ hours_minutes t h m /\ h <= 23 /\ m <= 59.

(** The texts that %T accepts as a duration: one or two digits, a colon, one or two digits, a colon and
    something that starts with a digit or a decimal point *)
Definition clock_text (s : str) : Prop :=
  exists h m a b c r, s = a ++ ":" :: b ++ ":" :: c :: r /\ digits_up_to 2 h a /\ digits_up_to 2 m b /\ (is_dig c \/ c = ".").

(** Seconds: decimal digits with at most one point, [v] is the number before the point.  As many
    characters are taken as possible, but not more than the seconds of the type are written with. *)
Definition seconds_width (w : nat) : nat := if Nat.eqb w 0 then 2 else 3 + w.
Definition whole_seconds (w : nat) (v : Z) (t r : str) : Prop :=
  (exists a p b, t = a ++ p ++ b /\ Forall is_dig (a ++ b) /\ (p = !"." \/ (p = [] /\ b = [])) /\ value a = v) /\
  (1 <= length t <= seconds_width w)%nat /\
  (length t = seconds_width w \/ match r with [] => True | c :: _ => ~ is_dig c /\ (c = "." -> In "." t) end).
(** The texts that "%F %T" accepts *)
Definition date_clock (w : nat) (s : str) (x : ymd) (h m v : Z) (t : str) : Prop :=
  exists y mm d b ht mt r, s = y ++ "-" :: mm ++ "-" :: d ++ b ++ ht ++ ":" :: mt ++ ":" :: t ++ r /\
    number_up_to 4 (yr x) y /\ digits_up_to 2 (mo x) mm /\ digits_up_to 2 (dy x) d /\ no_more 2 d (b ++ ht) /\
    in_calendar x /\ Forall white b /\ digits_up_to 2 h ht /\ digits_up_to 2 m mt /\ whole_seconds w v t r /\
    h <= 23 /\ m <= 59 /\ v <= 59.
