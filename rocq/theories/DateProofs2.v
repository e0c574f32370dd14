(** Proofs about months, weekdays and durations. *)
From Verif Require Import Base IntModel IntProofs DateModel DateSpec DateProofs.
From Coq Require Import Zdiv.
Local Open Scope Z_scope.

Lemma weekday_from_days_eq z : is_int z -> weekday_from_days z = weekday_of z.
Proof.
  unfold is_int, weekday_of. intros H. unfold weekday_from_days. rewrite !uns_eq.
  rewrite byte_id.
  2:{ destruct (z >=? -4); match goal with |- context[?a mod 7] => pose proof (Z.mod_pos_bound a 7) end; lia. }
  rewrite Z.geb_leb. destruct (Z.leb_spec (-4) z).
  - rewrite Zplus_mod_idemp_l. rewrite (Z.mod_small (z + 4)) by lia. reflexivity.
  - replace (z mod 4294967296) with (z + 1 * 4294967296).
    2:{ div_lia. }
    replace (z + 1 * 4294967296) with (z + 4 + 613566756 * 7) by lia. apply Z_mod_plus_full.
Qed.
Lemma weekday_range z : 0 <= weekday_of z <= 6.
Proof. unfold weekday_of. pose proof (Z.mod_pos_bound (z + 4) 7). lia. Qed.
Lemma weekday_id w : 0 <= w <= 6 -> weekday w = w.
Proof. intros H. unfold weekday. destruct (Z.eqb_spec w 7); [lia|]. apply byte_id. lia. Qed.

Lemma weekday_diff_eq x y : 0 <= x <= 6 -> 0 <= y <= 6 -> weekday_diff x y = Ok ((x - y) mod 7).
Proof.
  intros X Y. unfold weekday_diff. rewrite int_ok by lia. cbn [bind].
  change 6 with (7 - 1). rewrite num_ok by lia. cbn [bind]. rewrite quot_floor by lia.
  rewrite int_ok by div_lia. cbn [bind]. rewrite int_ok by div_lia. f_equal. div_lia.
Qed.

Lemma ll_num k z : 0 < k -> -9000000000000000000 <= z - k -> z <= 9000000000000000000 ->
  (if z >=? 0 then Ok z else arith llong_t (z - (k - 1))) = Ok (if z >=? 0 then z else z - (k - 1)).
Proof. intros K H H'. destruct (z >=? 0) eqn:E; [reflexivity|]. apply ll_ok. lia. Qed.

Lemma weekday_add_eq x y : 0 <= x <= 6 -> is_int y -> weekday_add x y = Ok ((x + y) mod 7).
Proof.
  unfold is_int. intros X Y. unfold weekday_add. rewrite ll_ok by lia. cbn [bind].
  change 6 with (7 - 1). rewrite ll_num by lia. cbn [bind]. rewrite quot_floor by lia.
  rewrite ll_ok by div_lia. cbn [bind]. rewrite ll_ok by div_lia. cbn [bind].
  replace (x + y - (x + y) / 7 * 7) with ((x + y) mod 7) by div_lia.
  pose proof (Z.mod_pos_bound (x + y) 7 ltac:(lia)). rewrite uns_id by lia. rewrite weekday_id by lia. reflexivity.
Qed.
Lemma weekday_sub_eq x y : 0 <= x <= 6 -> is_int y -> y <> -2147483648 -> weekday_sub x y = Ok ((x - y) mod 7).
Proof.
  unfold is_int. intros X Y N. unfold weekday_sub. rewrite int_ok by lia. cbn [bind].
  rewrite weekday_add_eq by (unfold is_int; lia). f_equal.
Qed.

Lemma month_add_eq x y : 1 <= x <= 12 -> is_int y -> month_add x y = Ok ((x - 1 + y) mod 12 + 1).
Proof.
  unfold is_int. intros X Y. unfold month_add. rewrite ll_ok by lia. cbn [bind]. rewrite ll_ok by lia. cbn [bind].
  change 11 with (12 - 1). rewrite ll_num by lia. cbn [bind]. rewrite quot_floor by lia.
  rewrite ll_ok by div_lia. cbn [bind]. rewrite ll_ok by div_lia. cbn [bind].
  replace (x + y - 1 - (x + y - 1) / 12 * 12) with ((x - 1 + y) mod 12) by div_lia.
  pose proof (Z.mod_pos_bound (x - 1 + y) 12 ltac:(lia)). rewrite ll_ok by lia. cbn [bind].
  rewrite uns_id by lia. unfold month. rewrite byte_id by lia. reflexivity.
Qed.
Lemma month_sub_eq x y : 1 <= x <= 12 -> is_int y -> y <> -2147483648 ->
  month_sub x y = Ok ((x - 1 - y) mod 12 + 1).
Proof.
  unfold is_int. intros X Y N. unfold month_sub. rewrite int_ok by lia. cbn [bind].
  rewrite month_add_eq by (unfold is_int; lia). f_equal.
Qed.
Lemma month_diff_eq x y : 1 <= x <= 12 -> 1 <= y <= 12 -> month_diff x y = (x - y) mod 12.
Proof.
  intros X Y. unfold month_diff. rewrite !uns_eq.
  destruct (Z.leb_spec ((x - y) mod 4294967296) 11).
  - rewrite conv_int by div_lia. div_lia.
  - rewrite Zplus_mod_idemp_l. rewrite conv_int by div_lia. div_lia.
Qed.

(** * year_month *)
Lemma ym_add_raw x dm : ym_valid x -> -2147483648 + 12 <= dm <= 2147483647 - 12 ->
  ym_add x dm = Ok (YM (year ((ym_number x + dm) / 12)) ((ym_number x + dm) mod 12 + 1)).
Proof.
  destruct x as [y m]. unfold ym_valid, year_in_range, ym_number. cbn [ym_year ym_month]. intros (M & Y) D.
  unfold ym_add. cbn [ym_year ym_month]. rewrite int_ok by lia. cbn [bind]. rewrite int_ok by lia. cbn [bind].
  change 11 with (12 - 1). rewrite num_ok by lia. cbn [bind]. rewrite quot_floor by lia.
  rewrite int_ok by div_lia. cbn [bind]. rewrite int_ok by div_lia. cbn [bind].
  rewrite int_ok by div_lia. cbn [bind]. unfold year_add. rewrite int_ok by div_lia. cbn [bind].
  unfold month. rewrite (uns_id (m - 1 + dm - (m - 1 + dm) / 12 * 12 + 1)) by div_lia. rewrite byte_id by div_lia.
  do 2 f_equal.
  - f_equal. div_lia.
  - div_lia.
Qed.
Lemma ym_add_eq x dm : ym_valid x -> ym_numbers (ym_number x + dm) ->
  ym_add x dm = Ok (YM ((ym_number x + dm) / 12) ((ym_number x + dm) mod 12 + 1)).
Proof.
  intros V N. pose proof V as V'. unfold ym_numbers, ym_valid, year_in_range, ym_number in *.
  rewrite ym_add_raw by (unfold ym_valid, year_in_range; auto; lia). unfold ym_number.
  rewrite year_id by div_lia. reflexivity.
Qed.
Lemma ym_decode n : ym_number (YM (n / 12) (n mod 12 + 1)) = n.
Proof. unfold ym_number. cbn [ym_year ym_month]. div_lia. Qed.
Lemma ym_number_inj x y : ym_valid x -> ym_valid y -> ym_number x = ym_number y -> x = y.
Proof.
  destruct x as [y1 m1], y as [y2 m2]. unfold ym_valid, ym_number. cbn [ym_year ym_month]. intros (M1 & _) (M2 & _) E.
  assert (y1 = y2) by lia. subst. f_equal. lia.
Qed.
Lemma ym_valid_number x : ym_valid x -> ym_numbers (ym_number x).
Proof. unfold ym_valid, ym_numbers, ym_number, year_in_range. lia. Qed.
Lemma ym_decode_valid n : ym_numbers n -> ym_valid (YM (n / 12) (n mod 12 + 1)).
Proof. unfold ym_valid, ym_numbers, year_in_range. cbn [ym_year ym_month]. intros H. div_lia. Qed.

Lemma ym_diff_eq x y : ym_valid x -> ym_valid y -> ym_diff x y = Ok (ym_number x - ym_number y).
Proof.
  destruct x as [y1 m1], y as [y2 m2]. unfold ym_valid, ym_number, year_in_range. cbn [ym_year ym_month].
  intros (M1 & Y1) (M2 & Y2). unfold ym_diff, year_diff. cbn [ym_year ym_month].
  rewrite int_ok by lia. cbn [bind]. rewrite conv_int_uns by lia. rewrite int_ok by lia. cbn [bind].
  rewrite int_ok by lia. f_equal. lia.
Qed.

(** * Weekday of a month *)
Lemma calendar_int n : first_day_number <= n <= last_day_number -> is_int n.
Proof. unfold first_day_number, last_day_number, is_int. lia. Qed.

Lemma in_month y m d : year_in_range y -> 1 <= m <= 12 -> 1 <= d <= mlen y m -> in_calendar (YMD y m d).
Proof. intros Y M D. split; [exact Y|]. apply exists_date_spec. cbn [yr mo dy]. auto. Qed.

Lemma first_of_month y m : year_in_range y -> 1 <= m <= 12 ->
  to_days (YMD y m (day 1)) = Ok (days_of y m 1) /\ is_int (days_of y m 1) /\
  -12700000 <= days_of y m 1 <= 11300000.
Proof.
  intros Y M. change (day 1) with 1.
  assert (C : in_calendar (YMD y m 1)) by (apply in_month; auto; pose proof (mlen_bound y m); lia).
  split; [now rewrite to_days_ok|]. pose proof (in_calendar_number _ C) as N. cbn [yr mo dy] in N.
  split; [now apply calendar_int|]. unfold first_day_number, last_day_number in N. lia.
Qed.

Lemma ymw_to_days_eq y m w i : year_in_range y -> 1 <= m <= 12 -> 0 <= w <= 6 -> 1 <= i <= 15 ->
  ymw_to_days (YMW y m w i)
  = Ok (days_of y m 1 + ((w - weekday_of (days_of y m 1)) mod 7 + (i - 1) * 7)).
Proof.
  intros Y M W I. destruct (first_of_month y m Y M) as (F & FI & FB). unfold ymw_to_days. cbn [w_year w_month w_day w_index].
  rewrite F. cbn [bind]. rewrite weekday_id by lia. rewrite weekday_from_days_eq by exact FI.
  rewrite weekday_diff_eq by (auto; apply weekday_range). cbn [bind].
  pose proof (Z.mod_pos_bound (w - weekday_of (days_of y m 1)) 7 ltac:(lia)).
  rewrite (uns_id (i - 1)) by lia. rewrite conv_int_uns by lia. rewrite int_ok by lia. cbn [bind].
  rewrite int_ok by lia. reflexivity.
Qed.
(** The day of the month it falls on, possibly beyond its end *)
Definition ymw_day (y m w i : Z) : Z := (w - weekday_of (days_of y m 1)) mod 7 + (i - 1) * 7 + 1.
Lemma ymw_day_number y m w i :
  days_of y m (ymw_day y m w i) = days_of y m 1 + ((w - weekday_of (days_of y m 1)) mod 7 + (i - 1) * 7).
Proof. rewrite (days_of_d y m 1). unfold ymw_day. lia. Qed.
Lemma ymw_day_weekday y m w i : 0 <= w <= 6 -> weekday_of (days_of y m (ymw_day y m w i)) = w.
Proof.
  intros W. rewrite ymw_day_number. unfold weekday_of. set (n := days_of y m 1). clearbody n.
  replace (n + ((w - (n + 4) mod 7) mod 7 + (i - 1) * 7) + 4)
    with (n + (w - (n + 4) mod 7) mod 7 + 4 + (i - 1) * 7) by lia.
  rewrite Z_mod_plus_full. div_lia.
Qed.
Lemma ymw_day_index y m w i : index_of_day (ymw_day y m w i) i.
Proof.
  unfold index_of_day, ymw_day. pose proof (Z.mod_pos_bound (w - weekday_of (days_of y m 1)) 7 ltac:(lia)). lia.
Qed.
Lemma ymw_day_unique y m w i d : index_of_day d i -> weekday_of (days_of y m d) = w -> d = ymw_day y m w i.
Proof.
  unfold index_of_day. intros H <-. rewrite (days_of_d y m 1 d). unfold ymw_day, weekday_of.
  set (n := days_of y m 1). clearbody n. div_lia.
Qed.

Lemma ymw_ok_eq y m w i : year_in_range y -> 1 <= m <= 12 -> 0 <= w <= 6 -> 1 <= i <= 15 ->
  ymw_ok (YMW y m w i) = Ok (ymw_day y m w i <=? mlen y m).
Proof.
  intros Y M W I. destruct (first_of_month y m Y M) as (F & FI & FB). unfold ymw_ok. cbn [w_year w_month w_day w_index].
  unfold year_ok, month_ok, weekday_ok, imin. cbn [sgn wid]. change (- 2 ^ (16 - 1)) with (-32768).
  unfold year_in_range in Y. destruct (Z.eqb_spec y (-32768)); [lia|]. cbn [negb orb].
  destruct (Z.leb_spec 1 m), (Z.leb_spec m 12); try lia. cbn [negb orb andb].
  rewrite (weekday_id w) by lia. destruct (Z.leb_spec w 6); [|lia]. cbn [negb orb].
  destruct (Z.ltb_spec i 1); [lia|].
  pose proof (ymw_day_index y m w i) as X. unfold index_of_day in X. pose proof (mlen_bound y m).
  destruct (Z.leb_spec i 4).
  - f_equal. symmetry. apply Z.leb_le. lia.
  - rewrite F. cbn [bind]. rewrite weekday_from_days_eq by exact FI.
    rewrite weekday_diff_eq by (auto; apply weekday_range). cbn [bind].
    pose proof (Z.mod_pos_bound (w - weekday_of (days_of y m 1)) 7 ltac:(lia)).
    rewrite (uns_id (i - 1)) by lia. rewrite (uns_id ((i - 1) * 7)) by lia. rewrite conv_int_uns by lia.
    rewrite int_ok by lia. cbn [bind]. rewrite last_day_eq by lia. f_equal.
    unfold ymw_day. rewrite uns_id by lia. f_equal. lia.
Qed.

Lemma nibble_id z : 0 <= z <= 15 -> nibble z = z.
Proof. intros H. apply Z.mod_small. lia. Qed.

Lemma ymw_from_days_eq n : first_day_number <= n <= last_day_number ->
  ymw_from_days n
  = Ok (YMW (yr (date_of n)) (mo (date_of n)) (weekday_of n) ((dy (date_of n) - 1) / 7 + 1)).
Proof.
  intros H. unfold ymw_from_days. rewrite (from_days_ok n H). cbn [bind].
  rewrite weekday_from_days_eq by now apply calendar_int.
  destruct (date_of_props n) as [E _]. apply exists_date_spec in E. destruct E as (M & D).
  pose proof (mlen_bound (yr (date_of n)) (mo (date_of n))). pose proof (weekday_range n).
  rewrite (nibble_id (weekday_of n)) by lia. rewrite (uns_id (dy _ - 1)) by lia.
  rewrite uns_id by div_lia. rewrite nibble_id by div_lia. reflexivity.
Qed.

Lemma wlast_eq y m w : year_in_range y -> 1 <= m <= 12 -> 0 <= w <= 6 ->
  wlast_to_days y m w
  = Ok (days_of y m (mlen y m) - (weekday_of (days_of y m (mlen y m)) - w) mod 7).
Proof.
  intros Y M W. unfold wlast_to_days, last_to_days, ymd_last. rewrite last_day_eq by lia.
  assert (C : in_calendar (YMD y m (mlen y m))) by (apply in_month; auto; pose proof (mlen_bound y m); lia).
  rewrite to_days_ok by exact C. cbn [bind yr mo dy]. pose proof (in_calendar_number _ C) as N. cbn [yr mo dy] in N.
  rewrite weekday_from_days_eq by now apply calendar_int.
  rewrite weekday_diff_eq by (auto; apply weekday_range). cbn [bind].
  pose proof (Z.mod_pos_bound (weekday_of (days_of y m (mlen y m)) - w) 7 ltac:(lia)).
  unfold first_day_number, last_day_number in N. rewrite int_ok by lia. reflexivity.
Qed.

(** * Durations *)
Lemma arith_signed t z : is_ity t -> sgn t = true -> in_range t z -> arith t z = Ok z.
Proof. intros T _ H. now apply arith_in. Qed.

Section Durations.
Variable t : ity.
Hypothesis T : is_ity t.
Hypothesis SG : sgn t = true.
Lemma range_sym : exists b, 0 < b /\ imin t = - b /\ imax t = b - 1.
Proof.
  exists (2 ^ (wid t - 1)). unfold imin, imax. rewrite SG. split; [|auto].
  apply Z.pow_pos_nonneg; [lia|]. destruct T as [E|[E|[E|E]]]; rewrite E; lia.
Qed.

Lemma quot_between k d : 1 <= k -> (0 <= d -> 0 <= d ÷ k <= d /\ 0 <= d ÷ k * k <= d) /\
                                   (d <= 0 -> d <= d ÷ k <= 0 /\ d <= d ÷ k * k <= 0).
Proof.
  intros K.
  assert (P : forall e, 0 <= e -> 0 <= e ÷ k <= e /\ 0 <= e ÷ k * k <= e).
  { intros e E. rewrite Z.quot_div_nonneg by lia. pose proof (Z.div_mod e k ltac:(lia)).
    pose proof (Z.mod_pos_bound e k ltac:(lia)). pose proof (Z.div_pos e k E ltac:(lia)). nia. }
  split; [apply P|]. intros D. specialize (P (- d) ltac:(lia)). rewrite Z.quot_opp_l in P by lia. lia.
Qed.

Lemma quot_div_cases k d : 1 <= k ->
  (d ÷ k * k <= d /\ d ÷ k = d / k) \/ (d < d ÷ k * k /\ d ÷ k = d / k + 1).
Proof.
  intros K. destruct (Z.le_gt_cases 0 d) as [D|D].
  - left. rewrite Z.quot_div_nonneg by lia. pose proof (Z.mul_div_le d k ltac:(lia)). lia.
  - pose proof (quot_floor k d ltac:(lia)) as Q. rewrite Z.geb_leb in Q.
    destruct (Z.leb_spec 0 d); [lia|].
    pose proof (Z.div_mod d k ltac:(lia)) as E. pose proof (Z.mod_pos_bound d k ltac:(lia)) as B.
    pose proof (Z.quot_rem d k ltac:(lia)) as E'.
    assert (- k < Z.rem d k <= 0) by (apply Z.rem_bound_pos_neg; lia).
    assert (d ÷ k = d / k \/ d ÷ k = d / k + 1) as [F|F] by nia; rewrite F in *.
    + left. split; [|reflexivity]. nia.
    + destruct (Z.eq_dec (Z.rem d k) 0); [|right; split; [nia|reflexivity]].
      assert (k * (d / k + 1) = k * (d / k) + d mod k) by lia. nia.
Qed.

Lemma floor_eq k d : 1 <= k -> in_range t d -> dur_floor t k d = Ok (d / k).
Proof.
  intros K R. destruct range_sym as (b & B & MN & MX). unfold in_range in R. rewrite MN, MX in R.
  pose proof (quot_between k d K) as [Q1 Q2].
  unfold dur_floor, dur_trunc.
  rewrite arith_signed; auto; [|unfold in_range; rewrite MN, MX; lia]. cbn [bind].
  destruct (quot_div_cases k d K) as [[C E]|[C E]].
  - destruct (Z.gtb_spec (d ÷ k * k) d); [lia|]. now rewrite E.
  - destruct (Z.gtb_spec (d ÷ k * k) d); [|lia].
    assert (K2 : 2 <= k). { destruct (Z.eq_dec k 1) as [->|]; [|lia]. rewrite Z.quot_1_r in C. lia. }
    assert (- b <= d ÷ k - 1). { assert (d < d ÷ k * 1); [|lia]. assert (d ÷ k <= 0) by lia. nia. }
    rewrite arith_signed; auto; [|unfold in_range; rewrite MN, MX; lia]. f_equal. lia.
Qed.

Lemma ceil_eq k d : 1 <= k -> in_range t d -> dur_ceil t k d = Ok (- ((- d) / k)).
Proof.
  intros K R. destruct range_sym as (b & B & MN & MX). unfold in_range in R. rewrite MN, MX in R.
  pose proof (quot_between k d K) as [Q1 Q2].
  unfold dur_ceil, dur_trunc.
  rewrite arith_signed; auto; [|unfold in_range; rewrite MN, MX; lia]. cbn [bind].
  pose proof (quot_div_cases k (- d) K) as C. rewrite Z.quot_opp_l in C by lia.
  destruct C as [[C E]|[C E]].
  - destruct (Z.ltb_spec (d ÷ k * k) d); [lia|]. f_equal. lia.
  - destruct (Z.ltb_spec (d ÷ k * k) d); [|lia].
    assert (K2 : 2 <= k). { destruct (Z.eq_dec k 1) as [->|]; [|lia]. rewrite Z.quot_1_r in C. lia. }
    assert (d ÷ k + 1 <= b - 1). { assert (0 <= d ÷ k) by lia. nia. }
    rewrite arith_signed; auto; [|unfold in_range; rewrite MN, MX; lia]. f_equal. lia.
Qed.

Lemma round_ok k d : 1 <= k -> imin t + k <= d <= imax t - k ->
  exists r, dur_round t k d = Ok r /\ nearest k d r.
Proof.
  intros K R. destruct range_sym as (b & B & MN & MX). rewrite MN, MX in R.
  unfold dur_round. rewrite floor_eq; [|exact K|unfold in_range; rewrite MN, MX; lia]. cbn [bind].
  pose proof (Z.div_mod d k ltac:(lia)) as E. pose proof (Z.mod_pos_bound d k ltac:(lia)) as M.
  set (q := d / k) in *. set (r := d mod k) in *. clearbody q r.
  assert (QB : - b <= q < b - 1 /\ - b <= q * k /\ q * k + k <= b - 1) by nia.
  rewrite arith_signed; auto; [|unfold in_range; rewrite MN, MX; lia]. cbn [bind].
  rewrite arith_signed; auto; [|unfold in_range; rewrite MN, MX; lia]. cbn [bind].
  rewrite arith_signed; auto; [|unfold in_range; rewrite MN, MX; lia]. cbn [bind].
  rewrite arith_signed; auto; [|unfold in_range; rewrite MN, MX; lia]. cbn [bind].
  rewrite arith_signed; auto; [|unfold in_range; rewrite MN, MX; lia]. cbn [bind].
  assert (D0 : d - q * k = r) by lia. assert (D1 : (q + 1) * k - d = k - r) by lia. rewrite D0, D1.
  assert (A0 : Z.abs (d - q * k) = r) by lia. assert (A1 : Z.abs (d - (q + 1) * k) = k - r) by lia.
  destruct (Z.eqb_spec r (k - r)) as [H|H].
  - assert (QE : q = 2 * (q ÷ 2) + Z.rem q 2) by (apply Z.quot_rem; lia).
    pose proof (quot_between 2 q ltac:(lia)) as [Q1 Q2].
    rewrite arith_signed; auto; [|unfold in_range; rewrite MN, MX; lia]. cbn [bind].
    rewrite arith_signed; auto; [|unfold in_range; rewrite MN, MX; lia]. cbn [bind].
    destruct (Z.eqb_spec (q - q ÷ 2 * 2) 0) as [Z0|Z0].
    + exists q. split; [reflexivity|]. unfold nearest. rewrite A0. split; [lia|]. intros _.
      apply Z.even_spec. exists (q ÷ 2). lia.
    + exists (q + 1). split; [reflexivity|]. unfold nearest. rewrite A1. split; [lia|]. intros _.
      assert (O : Z.odd q = true).
      { rewrite <- Z.negb_even. destruct (Z.even q) eqn:EV; [|reflexivity]. apply Z.even_spec in EV.
        destruct EV as (c & ->). exfalso. apply Z0. rewrite Z.mul_comm, Z.quot_mul by lia. lia. }
      rewrite Z.add_1_r, Z.even_succ. exact O.
  - destruct (Z.ltb_spec r (k - r)).
    + exists q. split; [reflexivity|]. unfold nearest. rewrite A0. split; lia.
    + exists (q + 1). split; [reflexivity|]. unfold nearest. rewrite A1. split; lia.
Qed.
End Durations.

Lemma nearest_unique k d r r' : 1 <= k -> nearest k d r -> nearest k d r' -> r = r'.
Proof.
  unfold nearest. intros K (A & E) (A' & E').
  destruct (Z.eq_dec r r') as [H|N]; [exact H|exfalso].
  assert (r' = r + 1 \/ r = r' + 1) as [-> | ->] by nia.
  - assert (2 * Z.abs (d - r * k) = k /\ 2 * Z.abs (d - (r + 1) * k) = k) as [X Y] by lia.
    specialize (E X). specialize (E' Y). rewrite Z.add_1_r, Z.even_succ, <- Z.negb_even, E in E'. discriminate.
  - assert (2 * Z.abs (d - r' * k) = k /\ 2 * Z.abs (d - (r' + 1) * k) = k) as [X Y] by lia.
    specialize (E' X). specialize (E Y). rewrite Z.add_1_r, Z.even_succ, <- Z.negb_even, E' in E. discriminate.
Qed.

Lemma hms_props k d : 1 <= k <= 1000000000000 -> -9223372036854775807 <= d <= 9223372036854775807 ->
  exists x, hms_of k d = Ok x /\ 0 <= h_ x /\ 0 <= m_ x <= 59 /\ 0 <= s_ x <= 59 /\ 0 <= sub_ x < k /\
    neg_ x = (d <? 0) /\ ((h_ x * 60 + m_ x) * 60 + s_ x) * k + sub_ x = Z.abs d /\
    hms_to_duration k x = Ok d.
Proof.
  intros K D. unfold hms_of, dur_abs.
  assert (HA : (if d >=? 0 then Ok d else arith llong_t (- d)) = Ok (Z.abs d)).
  { rewrite Z.geb_leb. destruct (Z.leb_spec 0 d); [f_equal; lia|]. rewrite ll_ok by lia. f_equal. lia. }
  rewrite HA. cbn [bind]. set (a := Z.abs d). assert (A : 0 <= a <= 9223372036854775807) by (unfold a; lia).
  rewrite !(Z.quot_div_nonneg a) by lia.
  pose proof (Z.div_mod a (3600 * k) ltac:(lia)) as E1. pose proof (Z.mod_pos_bound a (3600 * k) ltac:(lia)) as B1.
  pose proof (Z.div_mod a (60 * k) ltac:(lia)) as E2. pose proof (Z.mod_pos_bound a (60 * k) ltac:(lia)) as B2.
  set (h := a / (3600 * k)) in *. set (m0 := a / (60 * k)) in *.
  set (r1 := a mod (3600 * k)) in *. set (r2 := a mod (60 * k)) in *. clearbody h m0 r1 r2.
  assert (H0 : 0 <= h) by nia. assert (M0 : 0 <= m0 - h * 60 <= 59) by nia.
  assert (MB : 0 <= m0 <= 9223372036854775807) by nia. assert (HB : h * 60 <= m0) by lia.
  rewrite ll_ok by lia. cbn [bind]. rewrite ll_ok by lia. cbn [bind].
  assert (S1 : 0 <= h * (3600 * k) <= a) by nia. rewrite ll_ok by lia. cbn [bind]. rewrite ll_ok by lia. cbn [bind].
  assert (S2 : 0 <= (m0 - h * 60) * (60 * k) /\ h * (3600 * k) + (m0 - h * 60) * (60 * k) <= a).
  { split; [nia|]. replace (h * (3600 * k) + (m0 - h * 60) * (60 * k)) with (m0 * (60 * k)) by ring. lia. }
  rewrite ll_ok by lia. cbn [bind]. rewrite ll_ok by lia. cbn [bind].
  set (r := a - h * (3600 * k) - (m0 - h * 60) * (60 * k)) in *.
  assert (R : r = r2) by (unfold r; replace (a - h * (3600 * k) - (m0 - h * 60) * (60 * k)) with (a - 60 * k * m0) by ring; lia).
  rewrite (Z.quot_div_nonneg r) by lia.
  pose proof (Z.div_mod r k ltac:(lia)) as E3. pose proof (Z.mod_pos_bound r k ltac:(lia)) as B3.
  set (s := r / k) in *. set (sub := r mod k) in *. clearbody s sub.
  assert (S0 : 0 <= s <= 59) by nia.
  rewrite ll_ok by lia. cbn [bind]. rewrite ll_ok by lia. cbn [bind].
  eexists. split; [reflexivity|]. cbn [h_ m_ s_ sub_ neg_].
  split; [lia|]. split; [lia|]. split; [lia|]. split; [lia|]. split; [reflexivity|].
  assert (TOT : ((h * 60 + (m0 - h * 60)) * 60 + s) * k + (r - s * k) = a) by (unfold r; ring).
  split; [exact TOT|].
  unfold hms_to_duration. cbn [h_ m_ s_ sub_ neg_].
  rewrite ll_ok by lia. cbn [bind]. rewrite ll_ok by lia. cbn [bind]. rewrite ll_ok by lia. cbn [bind].
  rewrite ll_ok by lia. cbn [bind]. rewrite ll_ok by lia. cbn [bind].
  replace (s * k + (r - s * k) + (m0 - h * 60) * (60 * k)) with (a - h * (3600 * k)) by (unfold r; ring).
  rewrite ll_ok by lia. cbn [bind].
  replace (a - h * (3600 * k) + h * (3600 * k)) with a by ring.
  unfold a. destruct (Z.ltb_spec d 0); rewrite ll_ok by lia; f_equal; lia.
Qed.
