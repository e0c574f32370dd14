(** Properties C75, C76 and C81: formatting of dates, times and durations (date.h). *)
From Verif Require Import Base IntModel DateModel DateSpec DateProofs DateProofs2 FmtModel FmtSpec FmtProofs FmtProofs2 FmtProofs3 FmtProofs4 FmtProofs5 FmtProofs6.
Local Open Scope Z_scope.
Local Open Scope char_scope.

(** * C75: the text of a date is the concatenation of what its items stand for, and nothing else *)
Theorem C75_format l x : in_calendar x -> covered (date_directive x) l ->
  exists s, format_ymd (fmt_of l) x = Ok s /\ texts (date_text x) l s /\
  forall s', texts (date_text x) l s' -> s' = s.
Proof.
  intros C L. exists (str_of (date_str x) l). split; [now apply to_stream_ymd|]. split.
  - apply (texts_str _ (date_directive x)); [|exact L]. intros c H. now apply date_str_text.
  - apply str_texts. intros c s H. now apply date_text_str.
Qed.

(** Directives for a time of day or a time zone make the call throw, wherever they stand *)
Theorem C75_missing_time l x c r : in_calendar x -> covered (date_directive x) l ->
  memb c (!"HIMpQqrRSTXczZ") = true -> format_ymd (fmt_of l ++ "%" :: c :: r) x = Throw RuntimeError.
Proof. apply date_missing. Qed.

(** A value that is not a date has no weekday, day of the year, week or date *)
Theorem C75_invalid_date l x c r : -32768 <= yr x <= 32767 -> 0 <= mo x <= 255 -> 0 <= dy x <= 255 ->
  ~ in_calendar x -> covered (fun c => memb c (!"%nt") = true) l ->
  memb c (!"aAuwjUWVGgFDxcHIMpQqrRSTXzZ") = true -> format_ymd (fmt_of l ++ "%" :: c :: r) x = Throw RuntimeError.
Proof.
  intros Y M D N L H. assert (FY : ymd_ok (f_ymd (fields_ymd x)) = false).
  { cbn [fields_ymd f_ymd]. destruct (ymd_ok x) eqn:E; [|reflexivity]. apply ymd_ok_spec in E; try lia. contradiction. }
  destruct (invalid_directive (fields_ymd x) c eq_refl FY eq_refl H) as [A B]. now apply fails_plain.
Qed.
(** Its year, month and day can be written only if they are valid on their own *)
Theorem C75_invalid_fields l x r c : covered (fun c => memb c (!"%nt") = true) l ->
  (yr x = -32768 /\ memb c (!"YyC") = true) \/ (~ 1 <= mo x <= 12 /\ memb c (!"mbBh") = true) \/
  (~ 1 <= dy x <= 31 /\ memb c (!"de") = true) ->
  format_ymd (fmt_of l ++ "%" :: c :: r) x = Throw RuntimeError.
Proof.
  intros L [[Y H]|[[M H]|[D H]]].
  - assert (E : year_ok (yr (f_ymd (fields_ymd x))) = false) by (cbn [fields_ymd f_ymd]; rewrite Y; reflexivity).
    destruct (no_year_directive _ c E H). now apply fails_plain.
  - assert (E : month_ok (mo (f_ymd (fields_ymd x))) = false).
    { cbn [fields_ymd f_ymd]. unfold month_ok. apply andb_false_iff. rewrite !Z.leb_gt. lia. }
    destruct (no_month_directive _ c E H). now apply fails_plain.
  - assert (E : day_ok (dy (f_ymd (fields_ymd x))) = false).
    { cbn [fields_ymd f_ymd]. unfold day_ok. apply andb_false_iff. rewrite !Z.leb_gt. lia. }
    destruct (no_day_directive _ c E H). now apply fails_plain.
Qed.

(** The parts of a date are written as in the date they are part of ... *)
Theorem C75_parts l x : in_calendar x ->
  (covered (fun c => memb c (!"%ntYyC") = true) l -> format_year (fmt_of l) (yr x) = format_ymd (fmt_of l) x) /\
  (covered (fun c => memb c (!"%ntmbBh") = true) l -> format_month (fmt_of l) (mo x) = format_ymd (fmt_of l) x) /\
  (covered (fun c => memb c (!"%ntde") = true) l -> format_day (fmt_of l) (dy x) = format_ymd (fmt_of l) x) /\
  (forall wd, weekday_is x wd -> covered (fun c => memb c (!"%ntaAuw") = true) l ->
     format_weekday (fmt_of l) wd = format_ymd (fmt_of l) x) /\
  (covered (fun c => memb c (!"%ntYyCmbBh") = true) l ->
     format_year_month (fmt_of l) (YM (yr x) (mo x)) = format_ymd (fmt_of l) x) /\
  (covered (fun c => memb c (!"%ntmbBhde") = true) l ->
     format_month_day (fmt_of l) (mo x) (dy x) = format_ymd (fmt_of l) x).
Proof.
  intros C. repeat split; intros.
  - now apply year_same.
  - now apply month_same.
  - now apply day_same.
  - now apply weekday_same.
  - now apply year_month_same.
  - now apply month_day_same.
Qed.
(** ... and have no other parts *)
Theorem C75_missing_parts l c r : covered (fun c => memb c (!"%nt") = true) l ->
  (forall y, -32767 <= y <= 32767 -> memb c (!"mbBhdeaAuwjUWVGgFDxcHIMpQqrRSTXzZ") = true ->
     format_year (fmt_of l ++ "%" :: c :: r) y = Throw RuntimeError) /\
  (forall m, 1 <= m <= 12 -> memb c (!"YyCdeaAuwjUWVGgFDxcHIMpQqrRSTXzZ") = true ->
     format_month (fmt_of l ++ "%" :: c :: r) m = Throw RuntimeError) /\
  (forall d, 1 <= d <= 31 -> memb c (!"YyCmbBhaAuwjUWVGgFDxcHIMpQqrRSTXzZ") = true ->
     format_day (fmt_of l ++ "%" :: c :: r) d = Throw RuntimeError) /\
  (forall wd, 0 <= wd <= 6 -> memb c (!"YyCmbBhdejUWVGgFDxcHIMpQqrRSTXzZ") = true ->
     format_weekday (fmt_of l ++ "%" :: c :: r) wd = Throw RuntimeError).
Proof.
  intros L.
  assert (SP : forall a b, memb c (a ++ b) = true -> memb c a = true \/ memb c b = true).
  { intros a b H. unfold memb in *. rewrite existsb_app in H. now apply orb_prop in H. }
  assert (F0 : forall y, ymd_ok (YMD y 0 0) = false) by (intros; unfold ymd_ok; rewrite andb_false_r; reflexivity).
  assert (F1 : forall m d, ymd_ok (YMD nanyear m d) = false) by reflexivity.
  repeat split.
  - intros y _ H.
    destruct (SP (!"mbBh") (!"deaAuwjUWVGgFDxcHIMpQqrRSTXzZ") H) as [H1|H1].
    { destruct (no_month_directive (fields_ymd (YMD y 0 0)) c eq_refl H1). now apply fails_plain. }
    destruct (SP (!"de") (!"aAuwjUWVGgFDxcHIMpQqrRSTXzZ") H1) as [H2|H2].
    { destruct (no_day_directive (fields_ymd (YMD y 0 0)) c eq_refl H2). now apply fails_plain. }
    destruct (invalid_directive (fields_ymd (YMD y 0 0)) c eq_refl (F0 y) eq_refl H2). now apply fails_plain.
  - intros m _ H.
    destruct (SP (!"YyC") (!"deaAuwjUWVGgFDxcHIMpQqrRSTXzZ") H) as [H1|H1].
    { destruct (no_year_directive (fields_ymd (YMD nanyear m 0)) c eq_refl H1). now apply fails_plain. }
    destruct (SP (!"de") (!"aAuwjUWVGgFDxcHIMpQqrRSTXzZ") H1) as [H2|H2].
    { destruct (no_day_directive (fields_ymd (YMD nanyear m 0)) c eq_refl H2). now apply fails_plain. }
    destruct (invalid_directive (fields_ymd (YMD nanyear m 0)) c eq_refl (F1 m 0) eq_refl H2). now apply fails_plain.
  - intros d _ H.
    destruct (SP (!"YyC") (!"mbBhaAuwjUWVGgFDxcHIMpQqrRSTXzZ") H) as [H1|H1].
    { destruct (no_year_directive (fields_ymd (YMD nanyear 0 d)) c eq_refl H1). now apply fails_plain. }
    destruct (SP (!"mbBh") (!"aAuwjUWVGgFDxcHIMpQqrRSTXzZ") H1) as [H2|H2].
    { destruct (no_month_directive (fields_ymd (YMD nanyear 0 d)) c eq_refl H2). now apply fails_plain. }
    destruct (invalid_directive (fields_ymd (YMD nanyear 0 d)) c eq_refl (F1 0 d) eq_refl H2). now apply fails_plain.
  - intros wd W H.
    destruct (SP (!"YyC") (!"mbBhdejUWVGgFDxcHIMpQqrRSTXzZ") H) as [H1|H1].
    { destruct (no_year_directive (fields_wd wd) c eq_refl H1). now apply fails_plain. }
    destruct (SP (!"mbBh") (!"dejUWVGgFDxcHIMpQqrRSTXzZ") H1) as [H2|H2].
    { destruct (no_month_directive (fields_wd wd) c eq_refl H2). now apply fails_plain. }
    destruct (SP (!"de") (!"jUWVGgFDxcHIMpQqrRSTXzZ") H2) as [H3|H3].
    { destruct (no_day_directive (fields_wd wd) c eq_refl H3). now apply fails_plain. }
    assert (A : memb c directives = true /\ directive 0 (fields_wd wd) None None NUL false c = Throw RuntimeError).
    { memb_cases H3; split; reflexivity. }
    destruct A. now apply fails_plain.
Qed.

Example C75_example :
  format_ymd (!"%F is %A, day %j, week %G-W%V (%U/%W) %d %b %y") (YMD 2021 1 3)
  = Ok (!"2021-01-03 is Sunday, day 003, week 2020-W53 (01/00) 03 Jan 21") /\
  in_calendar (YMD 2021 1 3) /\
  covered (date_directive (YMD 2021 1 3)) [Dir "F"; Lit " "; Dir "A"; Dir "G"; Dir "V"; Dir "U"] /\
  format_ymd (!"%F %H") (YMD 2021 1 3) = Throw RuntimeError /\
  format_ymd (!"%a") (YMD 2021 2 30) = Throw RuntimeError /\
  format_year (!"%Y") (-44) = Ok (!"-0044") /\ format_weekday (!"%A") 3 = Ok (!"Wednesday").
Proof.
  split; [reflexivity|]. split.
  { split; [unfold year_in_range; cbn [yr]; lia|]. apply exists_date_spec. cbn. lia. }
  split; [|repeat split; reflexivity].
  unfold covered. repeat apply Forall_cons; try apply Forall_nil; cbn beta iota; unfold ordinary, date_directive; cbn [yr].
  - right. left. split; [reflexivity|lia].
  - split; discriminate.
  - left. reflexivity.
  - right. right. right. split; [reflexivity|lia].
  - right. right. right. split; [reflexivity|lia].
  - left. reflexivity.
Qed.

(** %D writes the last digits of negative years with a sign and without padding *)
Theorem C75_D_negative_finding : format_ymd (!"%D") (YMD (-5) 1 2) = Ok (!"01/02/-5").
Proof. vm_compute. reflexivity. Qed.
(** %F does not write negative years above -100 as %Y does: the padding comes before the sign *)
Theorem C75_F_negative_finding x : in_calendar x -> -99 <= yr x <= -1 ->
  exists s, format_ymd (!"%F") x = Ok ("0" :: s).
Proof.
  intros C Y. unfold format_ymd, to_stream. cbn [f_has fields_ymd bind]. change (c_str (!"%F")) with (!"%F").
  unfold run. cbn [lit list_ascii_of_string]. change (memb "%" directives) with false. cbn [Ascii.eqb Bool.eqb orb].
  change (memb "F" directives) with true. unfold directive. cbn [Ascii.eqb Bool.eqb NUL f_ymd fields_ymd].
  rewrite (ymd_ok_x x C). cbn [require bind]. unfold put_right at 1. unfold dec at 1 2.
  destruct (Z.ltb_spec (yr x) 0); [|lia].
  assert (L : (length ("-" :: dec_u (- yr x)) <= 3)%nat).
  { cbn [length]. rewrite dec_u_eq by lia. destruct (Z.ltb_spec (- yr x) 10); [cbn; lia|].
    rewrite dec_u_eq by div_lia. destruct (Z.ltb_spec (- yr x / 10) 10); [cbn; lia|div_lia]. }
  destruct (4 - length ("-" :: dec_u (- yr x)))%nat as [|n] eqn:E; [lia|]. cbn [repeat app]. eexists. reflexivity.
Qed.
Example C75_F_negative_example : format_ymd (!"%F") (YMD (-5) 1 2) = Ok (!"00-5-01-02").
Proof. reflexivity. Qed.

(** * C76: time points are split at the midnight before them *)
Theorem C76_local w l tp : (w <= 12)%nat -> -9223372036854775808 <= tp <= 9223372036854775807 ->
  let day := tp / (86400 * 10 ^ Z.of_nat w) in
  let time := tp mod (86400 * 10 ^ Z.of_nat w) in
  first_day_number <= day <= last_day_number ->
  forall x, day_number x day -> covered (moment_directive w x time) l ->
  exists s, format_local w (fmt_of l) tp = Ok s /\ texts (moment_text w x time) l s /\
  forall s', texts (moment_text w x time) l s' -> s' = s.
Proof.
  intros W T day time N x X L. fold (ticks w) in *.
  assert (E : x = date_of day) by (rewrite (day_number_num _ _ X); symmetry; apply date_of_num; exact (day_number_exists _ _ X)).
  assert (C : in_calendar x).
  { rewrite E. apply date_of_calendar. exact N. }
  pose proof (ticks_pos w) as K. pose proof (ticks_le w 12 W) as K2. change (ticks 12) with 1000000000000 in K2.
  assert (B : 0 <= time <= 9223372036854775807).
  { pose proof (Z.mod_pos_bound tp (86400 * ticks w)). unfold time. lia. }
  exists (str_of (moment_str w x time) l). split; [|split].
  - unfold format_local. fold day in N. rewrite split_time_eq by assumption. cbn [bind]. fold day. fold time. rewrite <- E.
    now apply to_stream_moment.
  - apply (texts_str _ (moment_directive w x time)); [|exact L]. intros c H. apply moment_str_text; auto. apply B.
  - apply str_texts. intros c s H. now apply moment_text_str.
Qed.
Theorem C76_sys w l tp : (w <= 12)%nat -> -9223372036854775808 <= tp <= 9223372036854775807 ->
  let day := tp / (86400 * 10 ^ Z.of_nat w) in
  let time := tp mod (86400 * 10 ^ Z.of_nat w) in
  first_day_number <= day <= last_day_number ->
  forall x, day_number x day -> covered (sys_directive w x time) l ->
  exists s, format_sys w (fmt_of l) tp = Ok s /\ texts (sys_text w x time) l s /\
  forall s', texts (sys_text w x time) l s' -> s' = s.
Proof.
  intros W T day time N x X L. fold (ticks w) in *.
  assert (E : x = date_of day) by (rewrite (day_number_num _ _ X); symmetry; apply date_of_num; exact (day_number_exists _ _ X)).
  assert (C : in_calendar x).
  { rewrite E. apply date_of_calendar. exact N. }
  pose proof (ticks_pos w) as K. pose proof (ticks_le w 12 W) as K2. change (ticks 12) with 1000000000000 in K2.
  assert (B : 0 <= time <= 9223372036854775807).
  { pose proof (Z.mod_pos_bound tp (86400 * ticks w)). unfold time. lia. }
  exists (str_of (sys_str w x time) l). split; [|split].
  - unfold format_sys. fold day in N. rewrite split_time_eq by assumption. cbn [bind]. fold day. fold time. rewrite <- E.
    now apply to_stream_sys.
  - apply (texts_str _ (sys_directive w x time)); [|exact L]. intros c H. apply sys_str_text; auto. apply B.
  - apply str_texts. intros c s H. now apply sys_text_str.
Qed.
Theorem C76_duration w l d : (w <= 12)%nat -> 0 <= d <= 9223372036854775807 -> covered (duration_directive w d) l ->
  exists s, format_duration w (fmt_of l) d = Ok s /\ texts (duration_text w d) l s /\
  forall s', texts (duration_text w d) l s' -> s' = s.
Proof.
  intros W D L. exists (str_of (duration_str w d) l). split; [now apply format_duration_eq|]. split.
  - apply (texts_str _ (duration_directive w d)); [|exact L]. intros c H. apply duration_str_text; auto. apply D.
  - apply str_texts. intros c s H. now apply duration_text_str.
Qed.
(** Negative durations: one minus sign before the first %H, %M or %S, and before %T and %X *)
Theorem C76_negative w d c l s : (w <= 12)%nat -> 0 < d <= 9223372036854775807 ->
  (memb c (!"HMS") = true /\ covered (fun c => memb c (!"%ntHMSR") = true) l \/ (c = "T" \/ c = "X") /\ l = []) ->
  texts (duration_text w d) (Dir c :: l) s ->
  format_duration w (fmt_of (Dir c :: l)) (- d) = Ok ("-" :: s).
Proof.
  intros W D H T. apply (str_texts _ (duration_str w d)) in T; [|intros c' s' T'; now apply duration_text_str]. subst s.
  destruct H as [[M L]|[M ->]]; [now apply format_neg_first|].
  change (fmt_of [Dir c]) with ["%"; c]. rewrite format_neg_T by assumption. unfold str_of. cbn [map concat item_str].
  rewrite app_nil_r. destruct M as [-> | ->]; reflexivity.
Qed.
(** %R drops the sign *)
Theorem C76_R_sign_finding w d : (w <= 12)%nat -> 0 < d <= 9223372036854775807 ->
  format_duration w (!"%R") (- d) = format_duration w (!"%R") d.
Proof.
  intros W D. rewrite format_neg_R by assumption. change (!"%R") with (fmt_of [Dir "R"]).
  rewrite format_duration_eq; [|exact W|lia|].
  - unfold str_of. cbn [map concat item_str]. now rewrite app_nil_r.
  - constructor; [|constructor]. right. left. left. reflexivity.
Qed.
(** Durations of more than a day: the hour of the 12-hour clock is above 12 *)
Theorem C76_twelve_hours_finding : format_duration 0 (!"%I %p") 90000 = Ok (!"13 PM") /\ format_duration 0 (!"%I %p") 130000 = Ok (!"24 PM").
Proof. split; vm_compute; reflexivity. Qed.
Example C76_example :
  format_sys 3 (!"%F %T%z") (-1) = Ok (!"1969-12-31 23:59:59.999+0000") /\
  format_local 0 (!"%c|%I:%M %p") 1000000000 = Ok (!"Sun Sep  9 01:46:40 2001|01:46 AM") /\
  format_duration 9 (!"%T") 123456789012345678 = Ok (!"34293:33:09.012345678") /\
  format_duration 0 (!"%H:%M") (-5400) = Ok (!"-01:30") /\ format_duration 0 (!"%R") (-5400) = Ok (!"01:30") /\
  day_number (YMD 1969 12 31) (-1 / (86400 * 10 ^ Z.of_nat 3)) /\
  covered (sys_directive 3 (YMD 1969 12 31) (-1 mod (86400 * 10 ^ Z.of_nat 3))) [Dir "F"; Lit " "; Dir "T"; Dir "z"].
Proof.
  repeat (split; [reflexivity|]). split.
  - change (-1 / (86400 * 10 ^ Z.of_nat 3)) with (-1). right. split; [lia|].
    change (Z.to_nat (- -1)) with 1%nat. apply (later_S 0 _ (YMD 1969 12 31)); constructor.
  - unfold covered. repeat apply Forall_cons; try apply Forall_nil; cbn beta iota.
    + left. left. right. left. split; [reflexivity|]. left. cbn [yr]. lia.
    + split; discriminate.
    + left. right. left. left. reflexivity.
    + right. now left.
Qed.

(** * C81: the texts written by operator<< can be told apart, for valid and invalid values alike *)
Theorem C81_day d e : 0 <= d <= 255 -> 0 <= e <= 255 -> day_put d = day_put e -> d = e.
Proof. intros D E. apply day_put_inj; lia. Qed.
Theorem C81_month m n : 0 <= m <= 255 -> 0 <= n <= 255 ->
  (exists s, month_put m = Ok s) /\ (month_put m = month_put n -> m = n).
Proof. intros _ _. split; [apply month_put_ok|apply month_put_inj]. Qed.
Theorem C81_weekday m n : 0 <= m <= 255 -> 0 <= n <= 255 ->
  (exists s, weekday_put m = Ok s) /\ (weekday_put m = weekday_put n -> m = n).
Proof. intros M N. split; [apply weekday_put_ok; lia|apply weekday_put_inj; lia]. Qed.
Theorem C81_year y z : -32768 <= y <= 32767 -> -32768 <= z <= 32767 -> year_put y = year_put z -> y = z.
Proof. intros _ _. apply year_put_inj. Qed.
Theorem C81_year_month_day x y : 0 <= mo x <= 255 -> 0 <= dy x <= 255 -> 0 <= mo y <= 255 -> 0 <= dy y <= 255 ->
  ymd_put x = ymd_put y -> x = y.
Proof. intros A B C D. apply ymd_put_inj; lia. Qed.
Theorem C81_year_month x y : ym_put x = ym_put y -> x = y.
Proof. apply ym_put_inj. Qed.
Theorem C81_year_month_last y m z n : ymdl_put y m = ymdl_put z n -> y = z /\ m = n.
Proof. apply ymdl_put_inj. Qed.
(** weekday_indexed has four bits each; the constructor of weekday never stores 7 *)
Theorem C81_year_month_weekday x y s : 0 <= w_day x <= 15 -> w_day x <> 7 -> 0 <= w_day y <= 15 -> w_day y <> 7 ->
  ymw_put x = Ok s -> ymw_put y = Ok s -> x = y.
Proof. apply ymw_put_inj. Qed.
Theorem C81_time_of_day w d e t u : (w <= 12)%nat -> -9223372036854775807 <= d <= 9223372036854775807 ->
  -9223372036854775807 <= e <= 9223372036854775807 ->
  hms_of (10 ^ Z.of_nat w) d = Ok t -> hms_of (10 ^ Z.of_nat w) e = Ok u -> hms_put w t = hms_put w u -> d = e.
Proof. intros W D E. fold (ticks w). now apply hms_put_inj. Qed.
Theorem C81_duration w d e : duration_put w d = duration_put w e -> d = e.
Proof. apply duration_put_inj. Qed.
(** Time points of days that are in the calendar and whose midnight can be represented *)
Theorem C81_time_point w tp tq s : (w <= 12)%nat ->
  (forall t, t = tp \/ t = tq ->
    -9223372036854775808 <= t <= 9223372036854775807 /\
    first_day_number <= t / (86400 * 10 ^ Z.of_nat w) <= last_day_number /\
    -9223372036854775808 <= t / (86400 * 10 ^ Z.of_nat w) * (86400 * 10 ^ Z.of_nat w)) ->
  (exists r, sys_time_put w tp = Ok r) /\
  (sys_time_put w tp = Ok s -> sys_time_put w tq = Ok s -> tp = tq).
Proof.
  intros W H. fold (ticks w) in H. destruct (H tp (or_introl eq_refl)) as (A1 & A2 & A3). destruct (H tq (or_intror eq_refl)) as (B1 & B2 & B3).
  split; [eexists; now apply sys_time_put_eq|]. now apply sys_time_put_inj.
Qed.
Example C81_example :
  ymd_put (YMD 2021 2 30) = !"2021-02-30 is not a valid year_month_day" /\ ymd_put (YMD 900 3 1) = !"900-03-01" /\
  month_put 13 = Ok (!"13 is not a valid month") /\ month_put 12 = Ok (!"Dec") /\ weekday_put 6 = Ok (!"Sat") /\
  year_put (-32768) = !"-32768 is not a valid year" /\
  sys_time_put 3 (-1) = Ok (!"1969-12-31 23:59:59.999") /\
  (forall t, t = -1 \/ t = 0 -> -9223372036854775808 <= t <= 9223372036854775807 /\
    first_day_number <= t / (86400 * 10 ^ Z.of_nat 3) <= last_day_number /\
    -9223372036854775808 <= t / (86400 * 10 ^ Z.of_nat 3) * (86400 * 10 ^ Z.of_nat 3)).
Proof. repeat (split; [reflexivity|]). intros t [-> | ->]; vm_compute; repeat split; discriminate. Qed.
(** In the first 24 hours of the range of a time point the midnight before it overflows: writing
    the earliest nanosecond time point with operator<< is undefined behavior, date::format is not *)
Theorem C81_earliest_finding : sys_time_put 9 (-9223372036854775808) = UB /\
  format_sys 9 (!"%F %T") (-9223372036854775808) = Ok (!"1677-09-21 00:12:43.145224192").
Proof. split; vm_compute; reflexivity. Qed.

Print Assumptions C75_format.
Print Assumptions C76_sys.
Print Assumptions C81_time_point.
