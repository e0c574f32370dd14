(** C80: formats with a NUL character.  Nothing behind it has an effect. *)
From Verif Require Import Base DateModel FmtModel ParModel FmtNulProps.

Theorem C80_nul w p r s :
  parse_year (p ++ NUL :: r) s = parse_year p s /\ parse_month (p ++ NUL :: r) s = parse_month p s /\
  parse_day (p ++ NUL :: r) s = parse_day p s /\ parse_weekday (p ++ NUL :: r) s = parse_weekday p s /\
  parse_year_month (p ++ NUL :: r) s = parse_year_month p s /\
  parse_month_day (p ++ NUL :: r) s = parse_month_day p s /\ parse_ymd (p ++ NUL :: r) s = parse_ymd p s /\
  parse_sys w (p ++ NUL :: r) s = parse_sys w p s /\ parse_local w (p ++ NUL :: r) s = parse_local w p s /\
  parse_duration w (p ++ NUL :: r) s = parse_duration w p s.
Proof.
  assert (forall w f i, from_stream w (p ++ NUL :: r) f i = from_stream w p f i) as E.
  { intros w' f i. unfold from_stream. now rewrite c_str_nul. }
  unfold parse_year, parse_month, parse_day, parse_weekday, parse_year_month, parse_month_day, parse_ymd, parse_fields,
    parse_sys, parse_local, parse_duration.
  rewrite !E. repeat split.
Qed.
Example C80_nul_example :
  parse_month (!"%m" ++ NUL :: !"%d") (!"05") = Ok 5%Z /\ parse_month (!"%m%d") (!"05") = Throw RuntimeError.
Proof. split; vm_compute; reflexivity. Qed.
