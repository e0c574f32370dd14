(** C80, C79: without a UTC offset in the format, a sys_time is parsed like a local_time. *)
From Verif Require Import Base IntModel ToNumModel DateModel DateSpec DateProofs DateProofs2 FmtModel FmtSpec FmtProofs2 FmtProofs3 FmtProofs4 ParModel ParSpec ParClockSpec ParProofs1 ParProofs2 ParProofs6 ParProofs7 ParProofs8 ParProofs9 ParProofs10 ParProofs11 ParProofs12 ParProps2 ParProps3 ParClockProps ParClockProps2.
Local Open Scope Z_scope.
Local Open Scope outcome_scope.

(** The same text is accepted, and the same number of ticks since the epoch results; or both fail. *)
Theorem C80_sys_local w fmt s : (w <= 7)%nat -> plain fmt -> parse_sys w fmt s = parse_local w fmt s.
Proof.
  intros W P. unfold parse_sys, parse_local.
  pose proof (from_stream_safe w W fmt tod_fields s P eq_refl ltac:(cbn; unfold no_wd, weekday; cbn; lia)) as F.
  destruct (from_stream w fmt tod_fields (stream s)) as [r|e| |]; cbn [bind]; [|reflexivity..].
  destruct F as [F|(r' & F & Y & M & D & _ & T & O)]; [discriminate|]. injection F as <-. cbv zeta. rewrite O, Z.eqb_refl.
  destruct (ymd_ok (f_ymd (r_fields r)) && conventional w (f_tod (r_fields r))) eqn:E; [|reflexivity]. cbn [require bind].
  apply andb_prop in E. destruct E as [E CO]. apply ymd_ok_spec in E; [|unfold yrange in Y; lia|exact M|exact D].
  rewrite to_days_ok by exact E. cbn [bind]. destruct (to_duration_safe w W _ T) as (d & -> & HD).
  destruct E as [EY EX]. assert (YR : yrange (yr (f_ymd (r_fields r)))) by (unfold year_in_range in EY; destruct Y; [lia|assumption]).
  pose proof (year_bounds _ EX) as YB. pose proof (jan1_near _ YR) as J. pose proof (jan1_succ (yr (f_ymd (r_fields r)))) as JS. fold (num (f_ymd (r_fields r))).
  set (n := num (f_ymd (r_fields r))) in *. assert (NB : -4376000 <= n <= 2940000) by lia. clearbody n.
  pose proof (k_range w W) as K. set (k := ticks w) in *. clearbody k.
  rewrite !ll_ok by lia. cbn [bind]. rewrite !ll_ok by nia. cbn [bind]. rewrite ll_ok by nia. cbn [bind]. rewrite !ll_ok by nia. cbn [bind]. f_equal. ring.
Qed.
(** "%F %R" for a sys_time *)
Theorem C79_date_minutes_sys w s tp : (w <= 7)%nat ->
  (parse_sys w (!"%F %R") s = Ok tp <->
   exists x n h m, date_minutes s x h m /\ day_number x n /\ tp = ((n * 24 + h) * 60 + m) * 60 * 10 ^ Z.of_nat w).
Proof. intros W. rewrite (C80_sys_local w (!"%F %R") s W) by reflexivity. now apply C79_date_minutes. Qed.
Theorem C79_date_minutes_sys_rejects w s : (w <= 7)%nat -> (forall x h m, ~ date_minutes s x h m) -> parse_sys w (!"%F %R") s = Throw RuntimeError.
Proof. intros W H. rewrite (C80_sys_local w (!"%F %R") s W) by reflexivity. now apply C79_date_minutes_rejects. Qed.
(** With an offset they differ by the offset. *)
Example C80_sys_local_example :
  plain (!"%A %d %B %Y %I:%M %p") /\ ~ plain (!"%F %R %z") /\
  parse_sys 3 (!"%A %d %B %Y %I:%M %p") (!"Thursday 29 February 2024 07:05 PM") = Ok (((19782 * 24 + 19) * 60 + 5) * 60 * 1000) /\
  parse_local 0 (!"%F %R %z") (!"2024-02-29 07:05 +0100") = Ok (((19782 * 24 + 7) * 60 + 5) * 60) /\
  parse_sys 0 (!"%F %R %z") (!"2024-02-29 07:05 +0100") = Ok (((19782 * 24 + 6) * 60 + 5) * 60).
Proof. split; [reflexivity|]. split; [intros H; discriminate H|]. vm_compute. auto. Qed.
Print Assumptions C80_sys_local.
