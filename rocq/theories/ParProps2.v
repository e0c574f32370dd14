(** C80: parsing arbitrary text.  The value is parsed from a stream that holds the whole text; a
    failed parse is Throw RuntimeError in the model (failbit is set). *)
From Verif Require Import Base IntModel DateModel DateSpec DateProofs DateProofs2 FmtModel FmtSpec FmtProofs2 ToNumModel ParModel ParSpec ParProofs7 ParProofs8 ParProofs9.
Local Open Scope Z_scope.
Local Open Scope outcome_scope.

Lemma to_valid {A : Type} (R : A -> Prop) o : safe R o -> valid_or_fails R o.
Proof. intros [H|H]; [now right|now left]. Qed.
Lemma fields_safe fmt s : plain fmt -> safe (fun f => exists r, f = r_fields r /\ fok 0 r) (parse_fields fmt s).
Proof.
  intros P. unfold parse_fields. eapply safe_bind; [apply (from_stream_safe 0 ltac:(lia) fmt no_fields s P eq_refl)|].
  - cbn. unfold no_wd, weekday. cbn. lia.
  - intros r H. apply safe_ok. eauto.
Qed.
Ltac req b := let E := fresh "E" in destruct b eqn:E; [cbn [require bind]; apply safe_ok|left; reflexivity].

(** A format without field widths and without %z: the result is a date of the calendar, or
    failbit. *)
Theorem C80_date fmt s : plain fmt -> valid_or_fails in_calendar (parse_ymd fmt s).
Proof.
  intros P. apply to_valid. unfold parse_ymd. eapply safe_bind; [now apply fields_safe|]. intros f (r & -> & (Y & M & D & _)).
  req (ymd_ok (f_ymd (r_fields r))). apply ymd_ok_spec in E; auto. unfold yrange in Y. lia.
Qed.
Theorem C80_year fmt s : plain fmt -> valid_or_fails year_in_range (parse_year fmt s).
Proof.
  intros P. apply to_valid. unfold parse_year. eapply safe_bind; [now apply fields_safe|]. intros f (r & -> & (Y & M & D & _)).
  req (year_ok (yr (f_ymd (r_fields r)))). unfold year_ok, imin in E. cbn [sgn wid] in E. apply negb_true_iff, Z.eqb_neq in E. change (- 2 ^ (16 - 1)) with (-32768) in E.
  unfold year_in_range, yrange in *. lia.
Qed.
Theorem C80_month fmt s : plain fmt -> valid_or_fails (fun m => 1 <= m <= 12) (parse_month fmt s).
Proof.
  intros P. apply to_valid. unfold parse_month. eapply safe_bind; [now apply fields_safe|]. intros f (r & -> & _).
  req (month_ok (mo (f_ymd (r_fields r)))). unfold month_ok in E. apply andb_prop in E. rewrite !Z.leb_le in E. exact E.
Qed.
Theorem C80_day fmt s : plain fmt -> valid_or_fails (fun d => 1 <= d <= 31) (parse_day fmt s).
Proof.
  intros P. apply to_valid. unfold parse_day. eapply safe_bind; [now apply fields_safe|]. intros f (r & -> & _).
  req (day_ok (dy (f_ymd (r_fields r)))). unfold day_ok in E. apply andb_prop in E. rewrite !Z.leb_le in E. exact E.
Qed.
Theorem C80_weekday fmt s : plain fmt -> valid_or_fails (fun d => 0 <= d <= 6) (parse_weekday fmt s).
Proof.
  intros P. apply to_valid. unfold parse_weekday. eapply safe_bind; [now apply fields_safe|]. intros f (r & -> & (_ & _ & _ & D & _)).
  req (weekday_ok (f_wd (r_fields r))). unfold weekday_ok in E. rewrite Z.leb_le in E. lia.
Qed.
Theorem C80_month_day fmt s : plain fmt -> valid_or_fails (fun x => 1 <= fst x <= 12 /\ 1 <= snd x <= 31) (parse_month_day fmt s).
Proof.
  intros P. apply to_valid. unfold parse_month_day. eapply safe_bind; [now apply fields_safe|]. intros f (r & -> & _).
  req (month_ok (mo (f_ymd (r_fields r))) && day_ok (dy (f_ymd (r_fields r)))). unfold month_ok, day_ok in E. rewrite !andb_true_iff, !Z.leb_le in E. cbn [fst snd]. tauto.
Qed.
(** The year of a year_month is not checked, see [C80_year_month_refuted]. *)
Theorem C80_year_month_partial fmt s : plain fmt -> valid_or_fails (fun x => 1 <= ym_month x <= 12) (parse_year_month fmt s).
Proof.
  intros P. apply to_valid. unfold parse_year_month. eapply safe_bind; [now apply fields_safe|]. intros f (r & -> & _).
  req (month_ok (mo (f_ymd (r_fields r)))). unfold month_ok in E. apply andb_prop in E. rewrite !Z.leb_le in E. exact E.
Qed.
(** Time points and durations of 10^-w seconds, w up to 7 *)
Theorem C80_sys_time w fmt s : (w <= 7)%nat -> plain fmt -> valid_or_fails (fun _ => True) (parse_sys w fmt s).
Proof.
  intros W P. apply to_valid. unfold parse_sys. eapply safe_bind.
  { apply (from_stream_safe w W fmt tod_fields s P eq_refl). cbn. unfold no_wd, weekday. cbn. lia. }
  intros r (Y & M & D & _ & T & O). cbv zeta. rewrite O, Z.eqb_refl.
  destruct (ymd_ok (f_ymd (r_fields r)) && conventional w (f_tod (r_fields r))) eqn:E; [|left; reflexivity]. cbn [require bind].
  apply andb_prop in E. destruct E as [E CO]. apply ymd_ok_spec in E; [|unfold yrange in Y; lia|exact M|exact D].
  rewrite to_days_ok by exact E. cbn [bind]. destruct (to_duration_safe w W _ T) as (d & -> & HD).
  destruct E as [EY EX]. assert (YR : yrange (yr (f_ymd (r_fields r)))) by (unfold year_in_range in EY; destruct Y; [lia|assumption]).
  pose proof (year_bounds _ EX) as YB. pose proof (jan1_near _ YR) as J. pose proof (jan1_succ (yr (f_ymd (r_fields r)))) as JS. fold (num (f_ymd (r_fields r))).
  set (n := num (f_ymd (r_fields r))) in *. assert (NB : -4376000 <= n <= 2940000) by lia. clearbody n.
  pose proof (k_range w W) as K. set (k := ticks w) in *. clearbody k.
  rewrite ll_ok by lia. cbn [bind]. rewrite ll_ok by lia. cbn [bind]. rewrite ll_ok by nia. cbn [bind]. rewrite ll_ok by nia. now apply safe_ok.
Qed.
Theorem C80_local_time w fmt s : (w <= 7)%nat -> plain fmt -> valid_or_fails (fun _ => True) (parse_local w fmt s).
Proof.
  intros W P. apply to_valid. unfold parse_local. eapply safe_bind.
  { apply (from_stream_safe w W fmt tod_fields s P eq_refl). cbn. unfold no_wd, weekday. cbn. lia. }
  intros r (Y & M & D & _ & T & O). cbv zeta.
  destruct (ymd_ok (f_ymd (r_fields r)) && conventional w (f_tod (r_fields r))) eqn:E; [|left; reflexivity]. cbn [require bind].
  apply andb_prop in E. destruct E as [E CO]. apply ymd_ok_spec in E; [|unfold yrange in Y; lia|exact M|exact D].
  rewrite to_days_ok by exact E. cbn [bind]. destruct (to_duration_safe w W _ T) as (d & -> & HD).
  destruct E as [EY EX]. assert (YR : yrange (yr (f_ymd (r_fields r)))) by (unfold year_in_range in EY; destruct Y; [lia|assumption]).
  pose proof (year_bounds _ EX) as YB. pose proof (jan1_near _ YR) as J. pose proof (jan1_succ (yr (f_ymd (r_fields r)))) as JS. fold (num (f_ymd (r_fields r))).
  set (n := num (f_ymd (r_fields r))) in *. assert (NB : -4376000 <= n <= 2940000) by lia. clearbody n.
  pose proof (k_range w W) as K. set (k := ticks w) in *. clearbody k.
  cbn [bind]. rewrite ll_ok by nia. cbn [bind]. rewrite ll_ok by nia. now apply safe_ok.
Qed.
Theorem C80_duration w fmt s : (w <= 7)%nat -> plain fmt -> valid_or_fails (fun _ => True) (parse_duration w fmt s).
Proof.
  intros W P. apply to_valid. unfold parse_duration. eapply safe_bind.
  { apply (from_stream_safe w W fmt no_fields s P eq_refl). cbn. unfold no_wd, weekday. cbn. lia. }
  intros r (_ & _ & _ & _ & T & O). cbv zeta. destruct (f_has (r_fields r)); [|left; reflexivity]. cbn [require bind].
  destruct (to_duration_safe w W _ T) as (d & -> & HD). now apply safe_ok.
Qed.
(** Formats with many directives are plain; the parse can succeed and fail. *)
Example C80_example :
  plain (!"%a %d %b %Y, week %V of %G, day %j: %F %T %t%n%p %Ec %Oe 100%% %q") /\
  parse_sys 3 (!"%F %T") (!"2024-02-29 23:59:59.999") = Ok 1709251199999 /\
  parse_sys 3 (!"%F %T") (!"2023-02-29 23:59:59.999") = Throw RuntimeError /\
  parse_ymd (!"%Y-%U-%u %y") (!"-9999-99-7 99") = Throw RuntimeError /\
  parse_duration 6 (!"%H:%T") (!"99:99:99:99.123456789") = Ok 362439123456.
Proof. repeat split; vm_compute; reflexivity. Qed.

Theorem C80_year_month_refuted : plain (!"%m") /\ parse_year_month (!"%m") (!"5") = Ok (YM (-32768) 5).
Proof. split; vm_compute; reflexivity. Qed.
(** What the conditions on the format exclude *)
Theorem C80_width_finding : parse_year (!"%10Y") (!"-2147483648") = UB.
Proof. vm_compute. reflexivity. Qed.
Theorem C80_offset_finding : parse_sys 0 (!"%F %T %z") (!"2024-01-01 00:00:00 -ab") = UB.
Proof. vm_compute. reflexivity. Qed.
(** dates beyond 2262 do not fit into a time_point of nanoseconds *)
Theorem C80_far_years_finding : plain (!"%F") /\ parse_sys 9 (!"%F") (!"2500-01-01") = UB /\ parse_sys 9 (!"%F") (!"1600-01-01") = UB.
Proof. split; [repeat (constructor; [vm_compute; tauto|]); try constructor|split; vm_compute; reflexivity]. Qed.
Theorem C80_tab_finding : parse_ymd (!"%t99999999999") [] = UB.
Proof. vm_compute. reflexivity. Qed.
(** Nanoseconds: twelve characters of seconds are read *)
Theorem C80_nanoseconds_finding : plain (!"%S") /\ parse_duration 9 (!"%S") (!"999999999999") = UB.
Proof. split; vm_compute; reflexivity. Qed.

Print Assumptions C80_date.
Print Assumptions C80_sys_time.
