(** C57, C64, C65, C66: the calendar. *)
From Verif Require Import Base IntModel DateModel DateSpec DateProofs DateProofs2.
Local Open Scope Z_scope.

(** * C57: days and dates *)
Theorem C57_leap y : is_leap y = true <-> leap y.
Proof. rewrite is_leap_eq. apply leapb_spec. Qed.

Theorem C57_month_length y m n : month_length y m n -> last_day y m = n.
Proof. intros H. apply mlen_spec in H. destruct H as [M ->]. now apply last_day_eq. Qed.

Theorem C57_valid x : -32768 <= yr x <= 32767 -> 0 <= mo x <= 255 -> 0 <= dy x <= 255 ->
  ymd_ok x = true <-> in_calendar x.
Proof. intros Y M D. apply ymd_ok_spec; lia. Qed.

Theorem C57_date_roundtrip x : in_calendar x ->
  exists n, to_days x = Ok n /\ first_day_number <= n <= last_day_number /\ from_days n = Ok x.
Proof.
  intros C. exists (days_of (yr x) (mo x) (dy x)). split; [now apply to_days_ok|].
  pose proof (in_calendar_number x C) as N. split; [exact N|]. rewrite from_days_ok by exact N.
  f_equal. apply date_of_number, C.
Qed.

Theorem C57_number_roundtrip n : first_day_number <= n <= last_day_number ->
  exists x, from_days n = Ok x /\ in_calendar x /\ ymd_ok x = true /\ to_days x = Ok n.
Proof.
  intros N. exists (date_of n). split; [now apply from_days_ok|].
  pose proof (date_of_calendar n N) as C. split; [exact C|].
  destruct (date_of_props n) as [E D]. split.
  - apply ymd_ok_spec; auto; destruct C as [Y X]; apply exists_date_spec in X; unfold year_in_range in Y; lia.
  - rewrite to_days_ok by exact C. now rewrite D.
Qed.

(** The date of the next day number is the next day of the calendar ... *)
Theorem C57_consecutive n x y : first_day_number <= n < last_day_number ->
  from_days n = Ok x -> from_days (n + 1) = Ok y -> next x y.
Proof.
  intros N. rewrite !from_days_ok by lia. intros E1 E2. injection E1 as <-. injection E2 as <-.
  apply date_of_next.
Qed.
(** ... and day number n is n days after (or before) 1970-01-01. *)
Theorem C57_counts n : Z.of_nat n <= last_day_number ->
  exists x, from_days (Z.of_nat n) = Ok x /\ later n epoch x.
Proof.
  intros N. exists (date_of (Z.of_nat n)). split.
  - apply from_days_ok. unfold first_day_number. lia.
  - rewrite <- date_of_epoch. apply (date_of_later 0 n).
Qed.
Theorem C57_counts_back n : first_day_number <= - Z.of_nat n ->
  exists x, from_days (- Z.of_nat n) = Ok x /\ later n x epoch.
Proof.
  intros N. exists (date_of (- Z.of_nat n)). split.
  - apply from_days_ok. unfold last_day_number. lia.
  - rewrite <- date_of_epoch. pose proof (date_of_later (- Z.of_nat n) n) as L.
    now replace (- Z.of_nat n + Z.of_nat n) with 0 in L by lia.
Qed.
(** The difference of two day numbers is the number of days between the dates. *)
Theorem C57_difference k x y n m : in_calendar x -> in_calendar y -> later k x y ->
  to_days x = Ok n -> to_days y = Ok m -> m - n = Z.of_nat k.
Proof.
  intros X Y L. rewrite !to_days_ok by assumption. intros E1 E2. injection E1 as <-. injection E2 as <-.
  apply later_number in L. lia.
Qed.

(** Comparison of dates is comparison of day numbers. *)
Theorem C57_order x y n m : in_calendar x -> in_calendar y -> to_days x = Ok n -> to_days y = Ok m ->
  ymd_eq x y = (n =? m) /\ ymd_lt x y = (n <? m) /\ ymd_gt x y = (m <? n) /\
  ymd_le x y = (n <=? m) /\ ymd_ge x y = (m <=? n).
Proof.
  intros X Y. rewrite !to_days_ok by assumption. intros E1 E2. injection E1 as <-. injection E2 as <-.
  assert (L : forall u v, in_calendar u -> in_calendar v ->
    ymd_lt u v = (days_of (yr u) (mo u) (dy u) <? days_of (yr v) (mo v) (dy v))).
  { intros u v [_ U] [_ V]. apply Bool.eq_iff_eq_true. rewrite Z.ltb_lt, (number_order u v U V).
    unfold ymd_lt, earlier.
    destruct (Z.ltb_spec (yr u) (yr v)); [split; [lia|reflexivity]|].
    destruct (Z.ltb_spec (yr v) (yr u)); [split; [discriminate|lia]|].
    destruct (Z.ltb_spec (mo u) (mo v)); [split; [lia|reflexivity]|].
    destruct (Z.ltb_spec (mo v) (mo u)); [split; [discriminate|lia]|].
    rewrite Z.ltb_lt. lia. }
  unfold ymd_gt, ymd_le, ymd_ge. rewrite !L by assumption. split; [|split; [|split; [|split]]].
  - unfold ymd_eq. apply Bool.eq_iff_eq_true. rewrite !Bool.andb_true_iff, !Z.eqb_eq. split.
    + intros [[-> ->] ->]. reflexivity.
    + intros E. apply number_inj in E; [|apply X|apply Y]. now subst.
  - reflexivity.
  - reflexivity.
  - symmetry. apply Z.leb_antisym.
  - symmetry. apply Z.leb_antisym.
Qed.

(** The weekday advances cyclically through all of int, starting from Thursday (4). *)
Theorem C57_weekday z : is_int z -> 0 <= weekday_from_days z <= 6 /\ weekday_from_days z = (z + 4) mod 7.
Proof. intros H. rewrite weekday_from_days_eq by exact H. split; [apply weekday_range|reflexivity]. Qed.
Theorem C57_weekday_next z : is_int z -> is_int (z + 1) ->
  weekday_from_days (z + 1) = (if weekday_from_days z =? 6 then 0 else weekday_from_days z + 1).
Proof.
  intros H H'. rewrite !weekday_from_days_eq by assumption. unfold weekday_of.
  destruct (Z.eqb_spec ((z + 4) mod 7) 6); div_lia.
Qed.

(** Finding: a day number outside the years the class can hold silently wraps to another
    (for the first ones invalid) year, and one close to the end of int overflows. *)
Theorem C57_out_of_range_finding :
  from_days (last_day_number + 1) = Ok (YMD (-32768) 1 1) /\ ymd_ok (YMD (-32768) 1 1) = false /\
  from_days (last_day_number + 367) = Ok (YMD (-32767) 1 1) /\ ymd_ok (YMD (-32767) 1 1) = true /\
  forall z, is_int z -> 2147483647 - 719468 < z -> from_days z = UB.
Proof.
  split; [vm_compute; reflexivity|]. split; [reflexivity|]. split; [vm_compute; reflexivity|].
  split; [reflexivity|]. intros z I H. unfold from_days. rewrite int_ub by lia. reflexivity.
Qed.

Example C57_example :
  to_days (YMD 2024 2 29) = Ok 19782 /\ from_days 19782 = Ok (YMD 2024 2 29) /\
  from_days 19783 = Ok (YMD 2024 3 1) /\ next (YMD 2024 2 29) (YMD 2024 3 1) /\
  to_days (YMD 1900 2 28) = Ok (-25509) /\ from_days (-25508) = Ok (YMD 1900 3 1) /\
  in_calendar (YMD 2024 2 29) /\ ymd_ok (YMD 1900 2 29) = false /\ weekday_from_days 19782 = 4.
Proof.
  repeat match goal with |- _ /\ _ => split end; try (vm_compute; reflexivity).
  - apply (next_month 2024 2 29); [|lia]. apply mlen_spec. split; [lia|reflexivity].
  - apply in_month; [unfold year_in_range; lia|lia|]. change (mlen 2024 2) with 29. lia.
Qed.

(** * C64: arithmetic with weekdays, months and years *)
Theorem C64_weekday_add x n : 0 <= x <= 6 -> is_int n -> weekday_add x n = Ok ((x + n) mod 7).
Proof. apply weekday_add_eq. Qed.
Theorem C64_weekday_sub x n : 0 <= x <= 6 -> is_int n -> n <> -2147483648 ->
  weekday_sub x n = Ok ((x - n) mod 7).
Proof. apply weekday_sub_eq. Qed.
(** Moving a day by n moves its weekday by n. *)
Theorem C64_weekday_days d n : is_int d -> is_int n -> is_int (d + n) ->
  weekday_add (weekday_from_days d) n = Ok (weekday_from_days (d + n)).
Proof.
  intros D N S. rewrite !weekday_from_days_eq by assumption.
  rewrite weekday_add_eq by (auto; apply weekday_range). unfold weekday_of. f_equal.
  rewrite Zdiv.Zplus_mod_idemp_l. f_equal. lia.
Qed.
(** The difference of weekdays is the smallest number of days from one to the other. *)
Theorem C64_weekday_diff x y : 0 <= x <= 6 -> 0 <= y <= 6 ->
  exists n, weekday_diff x y = Ok n /\ 0 <= n <= 6 /\ weekday_add y n = Ok x.
Proof.
  intros X Y. exists ((x - y) mod 7). split; [now apply weekday_diff_eq|].
  pose proof (Z.mod_pos_bound (x - y) 7 ltac:(lia)). split; [lia|].
  rewrite weekday_add_eq by (auto; unfold is_int; lia). f_equal. rewrite Zdiv.Zplus_mod_idemp_r.
  replace (y + (x - y)) with x by lia. apply Z.mod_small. lia.
Qed.
Theorem C64_weekday_encoding w : 0 <= w <= 6 ->
  weekday (iso_encoding w) = w /\ 1 <= iso_encoding w <= 7 /\ (c_encoding w = w).
Proof.
  intros W. unfold iso_encoding, c_encoding. destruct (Z.eqb_spec w 0) as [->|N].
  - split; [reflexivity|lia].
  - split; [apply weekday_id; lia|lia].
Qed.

Theorem C64_month_add x n : 1 <= x <= 12 -> is_int n -> month_add x n = Ok ((x - 1 + n) mod 12 + 1).
Proof. apply month_add_eq. Qed.
Theorem C64_month_sub x n : 1 <= x <= 12 -> is_int n -> n <> -2147483648 ->
  month_sub x n = Ok ((x - 1 - n) mod 12 + 1).
Proof. apply month_sub_eq. Qed.
Theorem C64_month_diff x y : 1 <= x <= 12 -> 1 <= y <= 12 ->
  0 <= month_diff x y <= 11 /\ month_add y (month_diff x y) = Ok x.
Proof.
  intros X Y. rewrite month_diff_eq by assumption. pose proof (Z.mod_pos_bound (x - y) 12 ltac:(lia)).
  split; [lia|]. rewrite month_add_eq by (auto; unfold is_int; lia). f_equal. rewrite Zdiv.Zplus_mod_idemp_r.
  replace (y - 1 + (x - y)) with (x - 1) by lia. rewrite Z.mod_small by lia. lia.
Qed.

(** Adding months to a year_month adds to the number of months since year 0 ... *)
Theorem C64_year_month_add x n : ym_valid x -> ym_numbers (ym_number x + n) ->
  exists y, ym_add x n = Ok y /\ ym_valid y /\ ym_number y = ym_number x + n.
Proof.
  intros V N. eexists. split; [now apply ym_add_eq|]. split; [now apply ym_decode_valid|apply ym_decode].
Qed.
Theorem C64_year_month_sub x n : ym_valid x -> is_int n -> n <> -2147483648 -> ym_numbers (ym_number x - n) ->
  exists y, ym_sub x n = Ok y /\ ym_valid y /\ ym_number y = ym_number x - n.
Proof.
  intros V I M N. unfold ym_sub, is_int in *. rewrite int_ok by lia. cbn [bind].
  apply (C64_year_month_add x (- n) V). now replace (ym_number x + - n) with (ym_number x - n) by lia.
Qed.
(** ... and the difference of two of them is the difference of these numbers. *)
Theorem C64_year_month_diff x y : ym_valid x -> ym_valid y ->
  ym_diff x y = Ok (ym_number x - ym_number y) /\
  exists n, ym_diff x y = Ok n /\ ym_add y n = Ok x.
Proof.
  intros X Y. rewrite ym_diff_eq by assumption. split; [reflexivity|]. eexists. split; [reflexivity|].
  assert (E : ym_number y + (ym_number x - ym_number y) = ym_number x) by lia.
  pose proof (ym_valid_number x X) as N.
  rewrite ym_add_eq; rewrite ?E; auto. f_equal.
  apply ym_number_inj; auto; [now apply ym_decode_valid|apply ym_decode].
Qed.
Theorem C64_years x n : ym_valid x -> year_in_range (ym_year x + n) ->
  ym_add_years x n = ym_add x (12 * n) /\ ym_add_years x n = Ok (YM (ym_year x + n) (ym_month x)).
Proof.
  intros V Y. pose proof V as (M & Y0). unfold year_in_range in *.
  assert (E : ym_add_years x n = Ok (YM (ym_year x + n) (ym_month x))).
  { unfold ym_add_years, year_add. rewrite int_ok by lia. cbn [bind]. now rewrite year_id by lia. }
  split; [|exact E]. rewrite E. rewrite ym_add_eq; auto.
  - f_equal. unfold ym_number. f_equal.
    + replace (12 * ym_year x + (ym_month x - 1) + 12 * n) with (ym_month x - 1 + (ym_year x + n) * 12) by lia.
      rewrite Zdiv.Z_div_plus_full, Z.div_small by lia. lia.
    + replace (12 * ym_year x + (ym_month x - 1) + 12 * n) with (ym_month x - 1 + (ym_year x + n) * 12) by lia.
      rewrite Zdiv.Z_mod_plus_full, Z.mod_small by lia. lia.
  - unfold ym_numbers, ym_number. lia.
Qed.
Theorem C64_year_month_order x y : ym_valid x -> ym_valid y -> ym_lt x y = (ym_number x <? ym_number y).
Proof.
  destruct x as [y1 m1], y as [y2 m2]. unfold ym_valid, ym_lt, ym_number. cbn [ym_year ym_month].
  intros (M1 & _) (M2 & _). apply Bool.eq_iff_eq_true. rewrite Z.ltb_lt.
  destruct (Z.ltb_spec y1 y2); [split; [lia|reflexivity]|].
  destruct (Z.ltb_spec y2 y1); [split; [discriminate|lia]|].
  rewrite Z.ltb_lt. lia.
Qed.
(** Adding months to a date keeps the day of the month, so the result exists exactly if the
    target month is long enough. *)
Theorem C64_date_add_months x n y : in_calendar x -> ym_numbers (ym_number (YM (yr x) (mo x)) + n) ->
  ymd_add_months x n = Ok y ->
  dy y = dy x /\ ym_number (YM (yr y) (mo y)) = ym_number (YM (yr x) (mo x)) + n /\
  (ymd_ok y = true <-> exists l, month_length (yr y) (mo y) l /\ dy x <= l).
Proof.
  intros (Y & E) N. apply exists_date_spec in E. destruct E as (M & D).
  assert (V : ym_valid (YM (yr x) (mo x))) by (split; cbn; auto).
  unfold ymd_add_months. rewrite ym_add_eq by assumption. cbn [bind ym_year ym_month]. intros H. injection H as <-.
  cbn [yr mo dy]. set (k := ym_number (YM (yr x) (mo x)) + n) in *. clearbody k.
  split; [reflexivity|]. split; [apply ym_decode|].
  pose proof (ym_decode_valid k N) as (M' & Y'). cbn [ym_year ym_month] in M', Y'.
  assert (L : exists_date (YMD (k / 12) (k mod 12 + 1) (dy x)) <->
              exists l, month_length (k / 12) (k mod 12 + 1) l /\ dy x <= l).
  { unfold exists_date. cbn [yr mo dy]. split; [intros (_ & H); exact H|]. intros H. split; [lia|exact H]. }
  rewrite <- L. pose proof (mlen_bound (yr x) (mo x)). unfold year_in_range in Y'.
  rewrite ymd_ok_spec by (cbn [yr mo dy]; lia). unfold in_calendar. cbn [yr mo dy]. unfold year_in_range. tauto.
Qed.

Theorem C64_date_sub_months x n y : in_calendar x -> is_int n -> n <> -2147483648 ->
  ym_numbers (ym_number (YM (yr x) (mo x)) - n) -> ymd_sub_months x n = Ok y ->
  dy y = dy x /\ ym_number (YM (yr y) (mo y)) = ym_number (YM (yr x) (mo x)) - n /\
  (ymd_ok y = true <-> exists l, month_length (yr y) (mo y) l /\ dy x <= l).
Proof.
  intros C I M N. unfold ymd_sub_months, is_int in *. rewrite int_ok by lia. cbn [bind].
  apply (C64_date_add_months x (- n) y C). exact N.
Qed.
(** Years: the year changes by n, nothing else does. *)
Theorem C64_date_years x n : year_in_range (yr x) ->
  (year_in_range (yr x + n) -> ymd_add_years x n = Ok (YMD (yr x + n) (mo x) (dy x))) /\
  (year_in_range (yr x - n) -> ymd_sub_years x n = Ok (YMD (yr x - n) (mo x) (dy x))).
Proof.
  unfold year_in_range, ymd_sub_years, ymd_add_years, year_add. intros Y. split; intros H.
  - rewrite int_ok by lia. cbn [bind]. now rewrite year_id by lia.
  - rewrite int_ok by lia. cbn [bind]. rewrite int_ok by lia. cbn [bind].
    replace (yr x + - n) with (yr x - n) by lia. now rewrite year_id by lia.
Qed.
Theorem C64_year x n : year_in_range x ->
  (year_in_range (x + n) -> year_add x n = Ok (x + n)) /\
  (year_in_range (x - n) -> year_sub x n = Ok (x - n)) /\
  (year_in_range n -> year_diff x n = Ok (x - n)).
Proof.
  unfold year_in_range, year_add, year_sub, year_diff. intros Y. split; [|split]; intros H;
    rewrite int_ok by lia; cbn [bind]; rewrite ?year_id by lia; reflexivity.
Qed.
Theorem C64_year_month_sub_years x n : ym_valid x -> year_in_range (ym_year x - n) ->
  ym_sub_years x n = Ok (YM (ym_year x - n) (ym_month x)).
Proof.
  intros V Y. unfold ym_sub_years. pose proof V as (_ & Y0). unfold year_in_range in *. rewrite int_ok by lia.
  cbn [bind]. destruct (C64_years x (- n) V) as [_ E]; [unfold year_in_range; lia|].
  rewrite E. now replace (ym_year x + - n) with (ym_year x - n) by lia.
Qed.

Example C64_example :
  ym_add (YM 2023 11) 3 = Ok (YM 2024 2) /\ ym_sub (YM 2023 2) 26 = Ok (YM 2020 12) /\
  ym_diff (YM 2024 1) (YM 2023 12) = Ok 1 /\ month_add 11 (-23) = Ok 12 /\ month_diff 1 12 = 1 /\
  weekday_add 6 (-13) = Ok 0 /\ weekday_diff 0 6 = Ok 1 /\
  ymd_add_months (YMD 2023 1 31) 1 = Ok (YMD 2023 2 31) /\ ymd_ok (YMD 2023 2 31) = false /\
  ym_valid (YM 2023 11) /\ ym_numbers (ym_number (YM 2023 11) + 3).
Proof.
  repeat match goal with |- _ /\ _ => split end; try (vm_compute; reflexivity);
    unfold ym_valid, ym_numbers, ym_number, year_in_range; cbn [ym_year ym_month]; lia.
Qed.

(** * C65: the n-th and the last weekday of a month *)
Theorem C65_from_days n : first_day_number <= n <= last_day_number ->
  exists x d, ymw_from_days n = Ok x /\ from_days n = Ok (YMD (w_year x) (w_month x) d) /\
    w_day x = weekday_from_days n /\ index_of_day d (w_index x) /\
    ymw_ok x = Ok true /\ ymw_to_days x = Ok n.
Proof.
  intros N. rewrite ymw_from_days_eq by exact N. rewrite from_days_ok by exact N.
  rewrite weekday_from_days_eq by now apply calendar_int.
  eexists _, (dy (date_of n)). split; [reflexivity|]. cbn [w_year w_month w_day w_index].
  destruct (date_of_calendar n N) as [Y E]. apply exists_date_spec in E. destruct E as (M & D).
  destruct (date_of_props n) as [_ F]. destruct (date_of n) as [y m d]. cbn [yr mo dy] in *.
  assert (ID : index_of_day d ((d - 1) / 7 + 1)) by (unfold index_of_day; div_lia).
  pose proof (weekday_range n) as W. pose proof (mlen_bound y m).
  assert (I : 1 <= (d - 1) / 7 + 1 <= 15) by div_lia.
  assert (U : d = ymw_day y m (weekday_of n) ((d - 1) / 7 + 1)) by (apply ymw_day_unique; [exact ID|now rewrite F]).
  split; [reflexivity|]. split; [reflexivity|]. split; [exact ID|]. split.
  - rewrite ymw_ok_eq by assumption. rewrite <- U. f_equal. apply Z.leb_le. lia.
  - rewrite ymw_to_days_eq by assumption. rewrite <- ymw_day_number, <- U, F. reflexivity.
Qed.

(** ok() says whether the month has such a day; if so, the conversion yields that day. *)
Theorem C65_ok y m w i : year_in_range y -> 1 <= m <= 12 -> 0 <= w <= 6 -> 1 <= i <= 15 ->
  exists b, ymw_ok (YMW y m w i) = Ok b /\
    (b = true <-> exists d n, in_calendar (YMD y m d) /\ to_days (YMD y m d) = Ok n /\
                              weekday_from_days n = w /\ index_of_day d i).
Proof.
  intros Y M W I. eexists. split; [now apply ymw_ok_eq|]. rewrite Z.leb_le. split.
  - intros L. exists (ymw_day y m w i), (days_of y m (ymw_day y m w i)).
    pose proof (ymw_day_index y m w i) as X. pose proof X as X'. unfold index_of_day in X'.
    assert (C : in_calendar (YMD y m (ymw_day y m w i))) by (apply in_month; auto; lia).
    split; [exact C|]. split; [now rewrite to_days_ok|]. split; [|exact X].
    pose proof (in_calendar_number _ C) as N. cbn [yr mo dy] in N.
    rewrite weekday_from_days_eq by now apply calendar_int. now apply ymw_day_weekday.
  - intros (d & n & C & T & WD & X). rewrite to_days_ok in T by exact C. cbn [yr mo dy] in T. injection T as <-.
    pose proof (in_calendar_number _ C) as N. cbn [yr mo dy] in N.
    rewrite weekday_from_days_eq in WD by now apply calendar_int.
    rewrite <- (ymw_day_unique y m w i d X WD). destruct C as [_ E]. apply exists_date_spec in E. cbn in E. lia.
Qed.
Theorem C65_to_days y m w i d n : in_calendar (YMD y m d) -> to_days (YMD y m d) = Ok n ->
  weekday_from_days n = w -> index_of_day d i -> ymw_to_days (YMW y m w i) = Ok n.
Proof.
  intros C T WD X. pose proof C as (Y & E). apply exists_date_spec in E. cbn [yr mo dy] in *. destruct E as (M & D).
  rewrite to_days_ok in T by exact C. cbn [yr mo dy] in T. injection T as <-.
  pose proof (in_calendar_number _ C) as N. cbn [yr mo dy] in N.
  rewrite weekday_from_days_eq in WD by now apply calendar_int. pose proof (mlen_bound y m).
  pose proof (weekday_range (days_of y m d)) as W. rewrite WD in W. unfold index_of_day in X.
  rewrite ymw_to_days_eq by (auto; lia). rewrite <- ymw_day_number.
  now rewrite <- (ymw_day_unique y m w i d X WD).
Qed.
(** The last weekday of a month is in the month, and no later day of the month is that
    weekday. *)
Theorem C65_last y m w : year_in_range y -> 1 <= m <= 12 -> 0 <= w <= 6 ->
  exists n d l, wlast_to_days y m w = Ok n /\ from_days n = Ok (YMD y m d) /\ weekday_from_days n = w /\
    month_length y m l /\ l - 7 < d <= l.
Proof.
  intros Y M W. rewrite wlast_eq by assumption. set (a := days_of y m (mlen y m)).
  set (k := (weekday_of a - w) mod 7). pose proof (Z.mod_pos_bound (weekday_of a - w) 7 ltac:(lia)) as K. fold k in K.
  pose proof (mlen_bound y m).
  assert (C : in_calendar (YMD y m (mlen y m - k))) by (apply in_month; auto; lia).
  assert (E : days_of y m (mlen y m - k) = a - k) by (unfold a; rewrite (days_of_d y m (mlen y m)); lia).
  pose proof (in_calendar_number _ C) as N. cbn [yr mo dy] in N. rewrite E in N.
  exists (a - k), (mlen y m - k), (mlen y m). split; [reflexivity|]. split.
  - rewrite from_days_ok by exact N. rewrite <- E. f_equal. apply (date_of_number (YMD y m (mlen y m - k))), C.
  - split; [|split; [now apply mlen_spec|lia]].
    rewrite weekday_from_days_eq by now apply calendar_int. unfold k, weekday_of. clearbody a. div_lia.
Qed.

(** year_month_day_last is the last day of the month. *)
Theorem C65_last_day y m : year_in_range y -> 1 <= m <= 12 ->
  exists n l, month_length y m l /\ last_to_days y m = Ok n /\ from_days n = Ok (YMD y m l) /\
    to_days (YMD y m l) = Ok n.
Proof.
  intros Y M. exists (days_of y m (mlen y m)), (mlen y m). split; [now apply mlen_spec|].
  pose proof (mlen_bound y m).
  assert (C : in_calendar (YMD y m (mlen y m))) by (apply in_month; auto; lia).
  unfold last_to_days, ymd_last. rewrite last_day_eq by exact M. split; [exact (to_days_ok _ C)|].
  split; [|exact (to_days_ok _ C)].
  rewrite from_days_ok by exact (in_calendar_number _ C). f_equal. apply (date_of_number (YMD y m (mlen y m))), C.
Qed.

Example C65_example :
  ymw_from_days 19782 = Ok (YMW 2024 2 4 5) /\ ymw_ok (YMW 2024 2 4 5) = Ok true /\
  ymw_ok (YMW 2023 2 4 5) = Ok false /\ ymw_to_days (YMW 2024 2 4 5) = Ok 19782 /\
  wlast_to_days 2024 2 5 = Ok 19776 /\ from_days 19776 = Ok (YMD 2024 2 23).
Proof. repeat split; vm_compute; reflexivity. Qed.

(** * C66: rounding of durations, time of day *)
(** t is a signed integer type, one target unit is k source units. *)
Theorem C66_trunc k d : 1 <= k ->
  Z.abs (dur_trunc k d) * k <= Z.abs d < (Z.abs (dur_trunc k d) + 1) * k /\ 0 <= dur_trunc k d * d.
Proof.
  intros K. unfold dur_trunc. pose proof (Z.quot_rem d k ltac:(lia)) as E.
  destruct (Z.le_gt_cases 0 d) as [D|D].
  - pose proof (Z.rem_bound_pos_pos d k ltac:(lia) D). pose proof (Z.quot_pos d k D ltac:(lia)). nia.
  - pose proof (Z.rem_bound_pos_neg d k ltac:(lia) ltac:(lia)).
    assert (d ÷ k <= 0) by nia. nia.
Qed.
Theorem C66_floor t k d : is_ity t -> sgn t = true -> 1 <= k -> in_range t d ->
  exists r, dur_floor t k d = Ok r /\ r * k <= d < (r + 1) * k.
Proof.
  intros T S K R. exists (d / k). split; [now apply floor_eq|].
  pose proof (Z.div_mod d k ltac:(lia)). pose proof (Z.mod_pos_bound d k ltac:(lia)). lia.
Qed.
Theorem C66_ceil t k d : is_ity t -> sgn t = true -> 1 <= k -> in_range t d ->
  exists r, dur_ceil t k d = Ok r /\ (r - 1) * k < d <= r * k.
Proof.
  intros T S K R. exists (- ((- d) / k)). split; [now apply ceil_eq|].
  pose proof (Z.div_mod (- d) k ltac:(lia)). pose proof (Z.mod_pos_bound (- d) k ltac:(lia)). lia.
Qed.
Theorem C66_round t k d : is_ity t -> sgn t = true -> 1 <= k -> imin t + k <= d <= imax t - k ->
  exists r, dur_round t k d = Ok r /\ nearest k d r /\ forall r', nearest k d r' -> r' = r.
Proof.
  intros T S K R. destruct (round_ok t T S k d K R) as (r & E & N). exists r. split; [exact E|].
  split; [exact N|]. intros r' N'. eapply nearest_unique; eauto.
Qed.
(** hh_mm_ss: fields in their ranges, sum up to the absolute value, convert back. *)
Theorem C66_time_of_day k d : 1 <= k <= 1000000000000 -> -9223372036854775807 <= d <= 9223372036854775807 ->
  exists x, hms_of k d = Ok x /\ 0 <= h_ x /\ 0 <= m_ x <= 59 /\ 0 <= s_ x <= 59 /\ 0 <= sub_ x < k /\
    neg_ x = (d <? 0) /\ ((h_ x * 60 + m_ x) * 60 + s_ x) * k + sub_ x = Z.abs d /\
    hms_to_duration k x = Ok d.
Proof. apply hms_props. Qed.
Theorem C66_make12 h : 0 <= h <= 23 ->
  1 <= make12 h <= 12 /\ make24 (make12 h) (is_pm h) = h /\ is_am h = negb (is_pm h).
Proof.
  intros H.
  assert (C : In h (map Z.of_nat (seq 0 24))) by (apply in_map_iff; exists (Z.to_nat h); split; [lia|apply in_seq; lia]).
  cbn in C. repeat (destruct C as [<-|C]; [cbn; split; [lia|split; reflexivity]|]). destruct C.
Qed.
Theorem C66_make24 h pm : 1 <= h <= 12 ->
  0 <= make24 h pm <= 23 /\ is_pm (make24 h pm) = pm /\ make12 (make24 h pm) = h.
Proof.
  intros H.
  assert (C : In h (map Z.of_nat (seq 1 12))) by (apply in_map_iff; exists (Z.to_nat h); split; [lia|apply in_seq; lia]).
  cbn in C. destruct pm; repeat (destruct C as [<-|C]; [cbn; split; [lia|split; reflexivity]|]); destruct C.
Qed.

Example C66_example :
  dur_floor (IT true 64) 86400 (-1) = Ok (-1) /\ dur_ceil (IT true 64) 86400 (-1) = Ok 0 /\
  dur_round (IT true 64) 2 5 = Ok 2 /\ dur_round (IT true 64) 2 7 = Ok 4 /\ dur_round (IT true 64) 2 (-3) = Ok (-2) /\
  dur_trunc 86400 (-1) = 0 /\
  hms_of 1000 (-5025678) = Ok (HMS 1 23 45 678 true) /\ hms_to_duration 1000 (HMS 1 23 45 678 true) = Ok (-5025678).
Proof. repeat split; vm_compute; reflexivity. Qed.

Print Assumptions C57_date_roundtrip.
Print Assumptions C65_from_days.
Print Assumptions C66_round.
