(** Properties C75, C76 and C81, continued: modifiers and unknown directives, the exact texts of
    operator<<. *)
From Verif Require Import Base IntModel DateModel DateSpec DateProofs DateProofs2 FmtModel FmtSpec FmtProofs FmtProofs2 FmtProofs3 FmtProofs4 FmtProofs5 FmtProofs6 FmtSpec2 FmtProofs7.
Local Open Scope Z_scope.
Local Open Scope char_scope.

(** * C75: the modifiers E and O change nothing where they are allowed; where they are not, and
    behind a percent sign that is followed by a character without a meaning or by nothing, the
    format is copied *)
Theorem C75_modifiers l e x : in_calendar x -> xcovered (date_directive x) l -> cut e ->
  exists s, format_ymd (xfmt_of l ++ e) x = Ok (s ++ e) /\ xtexts (date_text x) l s /\
  forall s', xtexts (date_text x) l s' -> s' = s.
Proof.
  intros C L E. pose proof (date_not_nul x) as NN.
  assert (NZ : forall s, ~ date_text x "z" s).
  { intros s T. inversion T; subst; try discriminate; [match goal with T : fixed_text _ _ |- _ => inversion T end|..];
      intuition discriminate. }
  exists (xstr_of (date_str x) (date_str x) l). split; [|split].
  - unfold format_ymd, to_stream. cbn [f_has fields_ymd bind]. rewrite (c_str_xitems (date_directive x)) by assumption.
    assert (HD : forall c, date_directive x c -> c <> "%" ->
      memb c directives = true /\ directive 0 (fields_ymd x) None None NUL false c = Ok (date_str x c, false)).
    { intros c H NP. destruct (date_directive_in x c H) as (_ & _ & [D|D]); [contradiction|]. split; [exact D|].
      now apply directive_date. }
    apply (run_xitems 0 _ None None (date_directive x) (date_str x) (date_str x)); auto.
    + intros m c T H. assert (c <> "z") by (intros ->; destruct (date_directive_in x _ H) as (H1 & _); destruct H as [H|[[H _]|[[[H|H] _]|[H _]]]]; discriminate H).
      rewrite mod_takes by assumption. apply HD; [exact H|]. now destruct (takes_directive m c T).
    + now apply date_wd.
  - apply (xtexts_str _ (date_directive x)); [intros c H; now apply date_str_text| |exact L].
    intros m c T H. apply xt_mod; [exact T| |now apply date_str_text].
    intros ->. now apply (NZ _ (date_str_text x C _ H)).
  - apply str_xtexts; [intros c s H; now apply date_text_str|].
    intros m c s T H. inversion H; subst; [now apply date_text_str| |congruence].
    exfalso. match goal with U : date_text x "z" _ |- _ => now apply NZ in U end.
Qed.

(** The same for time points; with a modifier the offset from UTC has a colon *)
Theorem C76_modifiers w l e tp : (w <= 12)%nat -> -9223372036854775808 <= tp <= 9223372036854775807 ->
  let day := tp / (86400 * 10 ^ Z.of_nat w) in
  let time := tp mod (86400 * 10 ^ Z.of_nat w) in
  first_day_number <= day <= last_day_number ->
  forall x, day_number x day -> xcovered (sys_directive w x time) l -> cut e ->
  exists s, format_sys w (xfmt_of l ++ e) tp = Ok (s ++ e) /\ xtexts (sys_text w x time) l s /\
  forall s', xtexts (sys_text w x time) l s' -> s' = s.
Proof.
  intros W T day time N x X L CE. fold (ticks w) in *.
  assert (E : x = date_of day) by (rewrite (day_number_num _ _ X); symmetry; apply date_of_num; exact (day_number_exists _ _ X)).
  assert (C : in_calendar x).
  { rewrite E. apply date_of_calendar. exact N. }
  pose proof (ticks_pos w) as K. pose proof (ticks_le w 12 W) as K2. change (ticks 12) with 1000000000000 in K2.
  assert (B : 0 <= time <= 9223372036854775807).
  { pose proof (Z.mod_pos_bound tp (86400 * ticks w)). unfold time. lia. }
  set (Rm := fun c => if Ascii.eqb c "z" then !"+00:00" else sys_str w x time c).
  exists (xstr_of (sys_str w x time) Rm l). split; [|split].
  - unfold format_sys. fold day in N. rewrite split_time_eq by assumption. cbn [bind]. fold day. fold time. rewrite <- E.
    unfold to_stream. cbn [f_has f_tod].
    change (hms_to_duration (ticks w) (tod_of w time)) with (hms_to_duration (ticks w) (HMS (hours_of w time) (minutes_of w time) (seconds_of w time) (time mod ticks w) false)).
    rewrite (proj2 (hms_of_eq w time W B)). cbn [bind]. destruct (Z.ltb_spec time 0); [lia|].
    assert (NN : forall c, sys_directive w x time c -> c <> NUL).
    { intros c [H'|[-> | ->]]; [now apply (moment_not_nul w x time)|discriminate|discriminate]. }
    rewrite (c_str_xitems (sys_directive w x time)) by assumption.
    assert (HD : forall c, sys_directive w x time c -> c <> "%" ->
      memb c directives = true /\
      directive w (Fields x no_wd (tod_of w time) true) (Some (!"UTC")) (Some 0) NUL false c = Ok (sys_str w x time c, false)).
    { intros c [H'|[-> | ->]] NP; unfold sys_str.
      - destruct (moment_in w x time c H') as (-> & ->). now apply moment_directive_ok.
      - split; reflexivity.
      - split; reflexivity. }
    apply (run_xitems w _ _ _ (sys_directive w x time) (sys_str w x time) Rm); auto.
    + intros m c T' H'. unfold Rm. destruct (Ascii.eqb_spec c "z") as [->|NZ].
      * destruct (takes_EO m _ T') as [-> | ->]; reflexivity.
      * rewrite mod_takes by assumption. apply HD; [exact H'|]. now destruct (takes_directive m c T').
    + destruct (HD "w") as [_ D]; [left; left; now left|discriminate|].
      unfold directive in D. destruct (extract_weekday _) as [v|e'| |]; [eauto|discriminate D..].
  - apply (xtexts_str _ (sys_directive w x time)); [intros c H; apply sys_str_text; auto; apply B| |exact L].
    intros m c T' H. unfold Rm. destruct (Ascii.eqb_spec c "z") as [->|NZ].
    + apply xt_zone; [exact T'|apply s_z].
    + apply xt_mod; [exact T'|exact NZ|]. apply sys_str_text; auto. apply B.
  - apply str_xtexts; [intros c s H; now apply sys_text_str|].
    intros m c s T' H. unfold Rm. inversion H; subst; [| |congruence].
    + destruct (Ascii.eqb_spec c "z"); [contradiction|]. now apply sys_text_str.
    + match goal with U : sys_text w _ _ "z" _ |- _ => apply sys_text_str in U; [|exact C]; cbn in U; injection U as -> -> -> -> ->; reflexivity end.
Qed.
Example C75_modifiers_example :
  format_ymd (!"%Od %Em %k %E%") (YMD 2021 1 3) = Ok (!"03 %Em %k %E%") /\
  format_ymd (!"%Y%O") (YMD 2021 1 3) = Ok (!"2021%O") /\
  format_sys 0 (!"%OH:%OM %Ez") 0 = Ok (!"00:00 +00:00") /\
  xcovered (date_directive (YMD 2021 1 3))
    [Mod "O" "d"; Plain (Lit " "); Mod "E" "m"; Plain (Lit " "); Unknown "k"; Plain (Lit " "); Mod "E" "%"].
Proof.
  repeat (split; [reflexivity|]).
  unfold xcovered. repeat apply Forall_cons; try apply Forall_nil; cbn beta iota;
    try (split; discriminate); try (split; [discriminate|reflexivity]).
  - split; [now right|]. split; [discriminate|]. intros _. now left.
  - split; [now left|]. split; [discriminate|]. intros X. discriminate X.
  - split; [now left|]. split; [discriminate|]. intros X. discriminate X.
Qed.

(** * C81: the exact texts; a value that is not valid is marked *)
Lemma marked_if (b : bool) (valid : Prop) what t : (b = true <-> valid) ->
  marked valid what t (t ++ (if b then [] else !" is not a valid " ++ what)).
Proof.
  intros H. unfold marked. destruct b; [left|right].
  - split; [now apply H|apply app_nil_r].
  - split; [|reflexivity]. intros V. apply H in V. discriminate V.
Qed.
Lemma range_iff (a b z : Z) : ((a <=? z) && (z <=? b))%Z%bool = true <-> a <= z <= b.
Proof. rewrite andb_true_iff, !Z.leb_le. reflexivity. Qed.
Lemma year_ok_iff y : year_ok y = true <-> y <> -32768.
Proof. unfold year_ok. change (imin (IT true 16)) with (-32768). rewrite negb_true_iff, Z.eqb_neq. reflexivity. Qed.
Lemma dec_padded n : 0 <= n -> padded 1 n (dec n).
Proof. intros H. rewrite dec_sgn. unfold sgn_str. destruct (Z.ltb_spec n 0); [lia|]. apply pad_padded; lia. Qed.
Lemma month_s_text m : 0 <= m -> month_text m (month_s m).
Proof.
  intros M. unfold month_text, month_s. destruct (month_ok m) eqn:E; [left|right]; unfold month_ok in E.
  - split; [now apply range_iff|reflexivity].
  - split; [intros X; apply range_iff in X; congruence|now apply dec_padded].
Qed.
Lemma weekday_s_text wd : 0 <= wd -> weekday_text wd (weekday_s wd).
Proof.
  intros M. unfold weekday_text, weekday_s, weekday_ok. destruct (Z.leb_spec wd 6); [left|right].
  - split; [lia|reflexivity].
  - split; [lia|now apply dec_padded].
Qed.
Theorem C81_text_day d : 0 <= d <= 255 -> exists t, padded 2 d t /\ marked (1 <= d <= 31) (!"day") t (day_put d).
Proof.
  intros D. exists (pad 2 d). split; [apply pad_padded; lia|]. unfold day_put, day_low. rewrite put_right_pad by lia.
  apply (marked_if (day_ok d)). apply range_iff.
Qed.
Theorem C81_text_month m : 0 <= m <= 255 ->
  exists t s, month_put m = Ok s /\ month_text m t /\ marked (1 <= m <= 12) (!"month") t s.
Proof.
  intros M. exists (month_s m). eexists. split; [unfold month_put; rewrite month_low_s; reflexivity|].
  split; [apply month_s_text; lia|]. apply (marked_if (month_ok m)). apply range_iff.
Qed.
Theorem C81_text_weekday wd : 0 <= wd <= 255 ->
  exists t s, weekday_put wd = Ok s /\ weekday_text wd t /\ marked (wd <= 6) (!"weekday") t s.
Proof.
  intros M. exists (weekday_s wd). eexists. split; [unfold weekday_put; rewrite weekday_low_s by lia; reflexivity|].
  split; [apply weekday_s_text; lia|]. apply (marked_if (weekday_ok wd)). apply Z.leb_le.
Qed.
Theorem C81_text_year y : -32768 <= y <= 32767 ->
  exists t, signed 4 y t /\ marked (y <> -32768) (!"year") t (year_put y).
Proof.
  intros Y. exists (year_low y). split; [rewrite year_low_sgn; apply sgn_signed; lia|].
  apply (marked_if (year_ok y)). apply year_ok_iff.
Qed.
Theorem C81_text_date x : -32768 <= yr x <= 32767 -> 0 <= mo x <= 255 -> 0 <= dy x <= 255 ->
  exists y m d, signed 1 (yr x) y /\ padded 2 (mo x) m /\ padded 2 (dy x) d /\
  marked (in_calendar x) (!"year_month_day") (y ++ "-" :: m ++ "-" :: d) (ymd_put x).
Proof.
  intros Y M D. exists (dec (yr x)), (pad 2 (mo x)), (pad 2 (dy x)).
  split; [rewrite dec_sgn; apply sgn_signed; lia|]. split; [apply pad_padded; lia|]. split; [apply pad_padded; lia|].
  assert (E : ymd_put x = (dec (yr x) ++ "-" :: pad 2 (mo x) ++ "-" :: pad 2 (dy x)) ++
    (if ymd_ok x then [] else !" is not a valid " ++ !"year_month_day")).
  { unfold ymd_put. rewrite !put_right_pad by lia. rewrite <- app_assoc. f_equal. cbn [app]. f_equal. rewrite <- app_assoc. reflexivity. }
  rewrite E. apply (marked_if (ymd_ok x)). apply ymd_ok_spec; lia.
Qed.
Theorem C81_text_year_month x : -32768 <= ym_year x <= 32767 -> 0 <= ym_month x <= 255 ->
  exists y m s, ym_put x = Ok s /\ signed 4 (ym_year x) y /\ month_text (ym_month x) m /\
  marked (ym_year x <> -32768 /\ 1 <= ym_month x <= 12) (!"year_month") (y ++ "/" :: m) s.
Proof.
  intros Y M. exists (year_low (ym_year x)), (month_s (ym_month x)). eexists.
  split; [unfold ym_put; rewrite month_low_s; reflexivity|].
  split; [rewrite year_low_sgn; apply sgn_signed; lia|]. split; [apply month_s_text; lia|].
  assert (E : forall r, year_low (ym_year x) ++ "/" :: month_s (ym_month x) ++ r = (year_low (ym_year x) ++ "/" :: month_s (ym_month x)) ++ r)
    by (intros r; rewrite <- app_assoc; reflexivity).
  rewrite E. apply (marked_if (year_ok (ym_year x) && month_ok (ym_month x))).
  rewrite andb_true_iff, year_ok_iff. unfold month_ok. rewrite range_iff. reflexivity.
Qed.
Theorem C81_text_year_month_last y m : -32768 <= y <= 32767 -> 0 <= m <= 255 ->
  exists t u s, ymdl_put y m = Ok s /\ signed 4 y t /\ month_text m u /\
  marked (y <> -32768 /\ 1 <= m <= 12) (!"year_month_day_last") (t ++ "/" :: u ++ !"/last") s.
Proof.
  intros Y M. exists (year_low y), (month_s m). eexists.
  split; [unfold ymdl_put; rewrite month_low_s; reflexivity|].
  split; [rewrite year_low_sgn; apply sgn_signed; lia|]. split; [apply month_s_text; lia|].
  assert (E : forall r, year_low y ++ "/" :: month_s m ++ !"/last" ++ r = (year_low y ++ "/" :: month_s m ++ !"/last") ++ r).
  { intros r. rewrite <- app_assoc. cbn [app]. rewrite <- app_assoc. reflexivity. }
  rewrite E. apply (marked_if (year_ok y && month_ok m)).
  rewrite andb_true_iff, year_ok_iff. unfold month_ok. rewrite range_iff. reflexivity.
Qed.
Example C81_text_example :
  day_put 0 = !"00 is not a valid day" /\ day_put 7 = !"07" /\ weekday_put 8 = Ok (!"8 is not a valid weekday") /\
  ym_put (YM 5 13) = Ok (!"0005/13 is not a valid year_month") /\ ymdl_put 2024 2 = Ok (!"2024/Feb/last").
Proof. repeat split. Qed.

Print Assumptions C75_modifiers.
Print Assumptions C81_text_date.
