(** C75, C76: formats with a NUL character.  Nothing behind it has an effect, not even directives
    that would fail. *)
From Verif Require Import Base DateModel FmtModel.

Lemma c_str_nul p r : c_str (p ++ NUL :: r) = c_str p.
Proof.
  induction p as [|c p IH]; cbn [app c_str]; [now change (Ascii.eqb NUL NUL) with true|].
  destruct (Ascii.eqb c NUL); [reflexivity|now rewrite IH].
Qed.
Lemma stream_nul w f a o p r : to_stream w f a o (p ++ NUL :: r) = to_stream w f a o p.
Proof. unfold to_stream. now rewrite c_str_nul. Qed.

Theorem C75_nul p r :
  (forall y, format_year (p ++ NUL :: r) y = format_year p y) /\
  (forall m, format_month (p ++ NUL :: r) m = format_month p m) /\
  (forall d, format_day (p ++ NUL :: r) d = format_day p d) /\
  (forall wd, format_weekday (p ++ NUL :: r) wd = format_weekday p wd) /\
  (forall x, format_year_month (p ++ NUL :: r) x = format_year_month p x) /\
  (forall m d, format_month_day (p ++ NUL :: r) m d = format_month_day p m d) /\
  (forall x, format_ymd (p ++ NUL :: r) x = format_ymd p x).
Proof. repeat split; intros; apply stream_nul. Qed.
Theorem C76_nul w p r :
  (forall d, format_duration w (p ++ NUL :: r) d = format_duration w p d) /\
  (forall tp, format_local w (p ++ NUL :: r) tp = format_local w p tp) /\
  (forall tp, format_sys w (p ++ NUL :: r) tp = format_sys w p tp).
Proof.
  repeat split; intros; [unfold format_duration|unfold format_local|unfold format_sys];
    (destruct (hms_of _ _) || destruct (split_time _ _)); cbn [bind]; try reflexivity; apply stream_nul.
Qed.
(** %H of a date fails, unless it comes behind a NUL. *)
Example C75_nul_example :
  format_ymd (!"%d%H") (YMD 2024 2 29) = Throw RuntimeError /\
  format_ymd (!"%d" ++ NUL :: !"%H") (YMD 2024 2 29) = Ok (!"29").
Proof. split; vm_compute; reflexivity. Qed.
Print Assumptions C75_nul.
