(** Incomplete dates, dates at the end of a month and dates given by a weekday. *)
From Verif Require Import Base IntModel DateModel DateSpec DateProofs DateProofs2 DateProps SlashModel SlashSpec.
Local Open Scope Z_scope.
Local Open Scope outcome_scope.

Lemma in_cal y m d : year_in_range y -> 1 <= m <= 12 -> 1 <= d <= mlen y m -> in_calendar (YMD y m d).
Proof. apply in_month. Qed.
Lemma cal_inv x : in_calendar x -> year_in_range (yr x) /\ 1 <= mo x <= 12 /\ 1 <= dy x <= mlen (yr x) (mo x).
Proof. intros (Y & E). apply exists_date_spec in E. tauto. Qed.

(** A leap year and a year for every weekday: the i-th weekday w of month m exists in one of
    the years 2000 to 2027, for every index up to 5. *)
Definition years28 : list Z := map (fun n => 2000 + Z.of_nat n) (seq 0 28).
Definition ok_in (y m w i : Z) : bool := match ymw_ok (YMW y m w i) with Ok b => b | _ => false end.
Lemma every_weekday : forallb (fun m => forallb (fun w => forallb (fun i =>
    existsb (fun y => ok_in y m w i) years28) [1;2;3;4;5]) [0;1;2;3;4;5;6]) [1;2;3;4;5;6;7;8;9;10;11;12] = true.
Proof. vm_compute. reflexivity. Qed.
Lemma find_year m w i : 1 <= m <= 12 -> 0 <= w <= 6 -> 1 <= i <= 5 ->
  exists y, year_in_range y /\ ymw_ok (YMW y m w i) = Ok true.
Proof.
  intros M W X. pose proof every_weekday as H. rewrite forallb_forall in H.
  specialize (H m). rewrite forallb_forall in H. specialize (H ltac:(cbn; lia) w ltac:(cbn; lia)).
  rewrite forallb_forall in H. specialize (H i ltac:(cbn; lia)). apply existsb_exists in H.
  destruct H as (y & Y & E). exists y. split.
  - unfold years28 in Y. apply in_map_iff in Y. destruct Y as (n & <- & N). apply in_seq in N. unfold year_in_range. lia.
  - unfold ok_in in E. destruct (ymw_ok _) as [b| | |]; try discriminate. now subst.
Qed.

Lemma picked_nth y m w i : year_in_range y -> 1 <= m <= 12 -> 0 <= w <= 6 -> 1 <= i <= 15 ->
  ymw_ok (YMW y m w i) = Ok true -> exists d, in_calendar (YMD y m d) /\ picked y m (PNth w i) d.
Proof.
  intros Y M W X E. destruct (C65_ok y m w i Y M W X) as (b & E' & B). rewrite E in E'. injection E' as <-.
  destruct B as (B & _). destruct (B eq_refl) as (d & n & C & T & Wd & D). exists d. split; [exact C|].
  split; [exact D|]. exists n. split; [exact T|]. rewrite <- Wd. symmetry. apply weekday_from_days_eq.
  rewrite to_days_ok in T by exact C. injection T as <-. apply calendar_int, (in_calendar_number _ C).
Qed.
Lemma picked_nth_back y m w i d : in_calendar (YMD y m d) -> picked y m (PNth w i) d ->
  0 <= w <= 6 /\ 1 <= i <= 5 /\ ymw_ok (YMW y m w i) = Ok true.
Proof.
  intros C (D & n & T & W). pose proof (cal_inv _ C) as (Y & M & L). cbn [yr mo dy] in *.
  assert (W' : 0 <= w <= 6) by (subst; unfold weekday_of; pose proof (Z.mod_pos_bound (n + 4) 7); lia).
  pose proof (mlen_bound y m). unfold index_of_day in D. assert (X : 1 <= i <= 5) by lia.
  split; [exact W'|]. split; [exact X|].
  destruct (C65_ok y m w i Y M W') as (b & E & B); [lia|]. rewrite E. f_equal. apply B.
  exists d, n. repeat split; try assumption; try apply C; try apply D. rewrite <- W.
  rewrite to_days_ok in T by exact C. injection T as <-. apply weekday_from_days_eq, calendar_int, (in_calendar_number _ C).
Qed.
Lemma picked_last_of y m w : year_in_range y -> 1 <= m <= 12 -> 0 <= w <= 6 ->
  exists d, in_calendar (YMD y m d) /\ picked y m (PLastOf w) d.
Proof.
  intros Y M W. destruct (C65_last y m w Y M W) as (n & d & l & E & F & Wd & L & B).
  pose proof L as L'. apply mlen_spec in L'. destruct L' as (_ & ->). pose proof (mlen_bound y m).
  assert (C : in_calendar (YMD y m d)) by (apply in_cal; auto; lia).
  exists d. split; [exact C|]. split; [now exists (mlen y m)|].
  exists (days_of y m d). split; [apply (to_days_ok _ C)|].
  pose proof (in_calendar_number _ C) as N. cbn [yr mo dy] in N.
  assert (n = days_of y m d) as ->.
  { rewrite wlast_eq in E by assumption. injection E as <-.
    set (k := (weekday_of (days_of y m (mlen y m)) - w) mod 7) in *.
    pose proof (Z.mod_pos_bound (weekday_of (days_of y m (mlen y m)) - w) 7 ltac:(lia)) as K. fold k in K.
    assert (C2 : in_calendar (YMD y m (mlen y m - k))) by (apply in_cal; auto; lia).
    replace (days_of y m (mlen y m) - k) with (days_of y m (mlen y m - k)) in *
      by (rewrite (days_of_d y m (mlen y m) (mlen y m - k)); lia).
    destruct (C57_date_roundtrip _ C2) as (n & T & _ & F2). rewrite to_days_ok in T by exact C2. injection T as <-.
    cbn [yr mo dy] in F2. rewrite F in F2. now injection F2 as ->. }
  rewrite <- Wd. symmetry. now apply weekday_from_days_eq, calendar_int.
Qed.
Lemma picked_last y m : year_in_range y -> 1 <= m <= 12 ->
  in_calendar (YMD y m (mlen y m)) /\ picked y m PLast (mlen y m).
Proof.
  intros Y M. pose proof (mlen_bound y m). split; [apply in_cal; auto; lia|]. now apply mlen_spec.
Qed.

Lemma weekday_small w : 0 <= w <= 15 -> w <> 7 -> weekday w = w.
Proof.
  intros W N. unfold weekday. destruct (Z.eqb_spec w 7); [lia|]. unfold conv. cbn [sgn wid andb].
  apply Z.mod_small. change (2 ^ 8) with 256. lia.
Qed.
Lemma year_ok_eq y : short_ y -> year_ok y = true <-> year_in_range y.
Proof.
  intros Y. unfold short_, year_in_range, year_ok in *. change (imin (IT true 16)) with (-32768).
  rewrite negb_true_iff, Z.eqb_neq. lia.
Qed.
Lemma month_ok_eq m : month_ok m = true <-> 1 <= m <= 12.
Proof. unfold month_ok. rewrite andb_true_iff, !Z.leb_le. lia. Qed.
Lemma wi_ok_eq w i : four_bits w -> four_bits i -> w <> 7 -> wi_ok w i = true <-> 0 <= w <= 6 /\ 1 <= i <= 5.
Proof.
  unfold four_bits, wi_ok, weekday_ok. intros W X N. rewrite weekday_small by lia.
  rewrite !andb_true_iff, !Z.leb_le. lia.
Qed.
Lemma md_table_eq m : 1 <= m <= 12 -> nth (Z.to_nat (uns (m - 1))) md_table 0 = mlen 2000 m.
Proof.
  intros M.
  assert (m = 1 \/ m = 2 \/ m = 3 \/ m = 4 \/ m = 5 \/ m = 6 \/ m = 7 \/ m = 8 \/ m = 9 \/ m = 10 \/ m = 11 \/ m = 12) as K by lia.
  repeat destruct K as [K|K]; subst; reflexivity.
Qed.
Lemma md_ok_eq m d : md_ok m d = true <-> 1 <= m <= 12 /\ 1 <= d <= mlen 2000 m.
Proof.
  unfold md_ok. rewrite !andb_true_iff, month_ok_eq, !Z.leb_le. split.
  - intros (M & D). rewrite md_table_eq in D by exact M. auto.
  - intros (M & D). rewrite md_table_eq by exact M. auto.
Qed.
Lemma mlen_2000 y m : mlen y m <= mlen 2000 m.
Proof.
  unfold mlen. destruct (m =? 2); [|lia]. change (leapb 2000) with true. destruct (leapb y); lia.
Qed.

(** ok() of any of the calendar classes says whether there is a date that fits the value. *)
Theorem C91_ok v : storable v -> v <> VLast -> ~ (exists n, v = VInt n) ->
  exists b, val_ok v = Some (Ok b) /\ (b = true <-> exists x, in_calendar x /\ fits v x).
Proof.
  intros S N1 N2. destruct v as [n|y|m|d| |w i|w|y m|m d|m|m w i|m w|y m d|y m|y m w i|y m w];
    cbn [storable val_ok fits] in *; try (eexists; split; [reflexivity|]).
  - now destruct N2; exists n.
  - rewrite year_ok_eq by exact S. split.
    + intros Y. exists (YMD y 1 1). split; [|reflexivity]. apply in_cal; auto; [lia|]. pose proof (mlen_bound y 1). lia.
    + intros (x & (Y & _) & <-). exact Y.
  - rewrite month_ok_eq. split.
    + intros M. exists (YMD 2000 m 1). split; [|reflexivity]. pose proof (mlen_bound 2000 m).
      apply in_cal; auto; [unfold year_in_range|]; lia.
    + intros (x & C & <-). now apply cal_inv in C.
  - unfold day_ok. rewrite andb_true_iff, !Z.leb_le. split.
    + intros D. exists (YMD 2000 1 d). split; [|reflexivity]. apply in_cal; [unfold year_in_range; lia|lia|exact D].
    + intros (x & C & <-). apply cal_inv in C. pose proof (mlen_bound (yr x) (mo x)). lia.
  - now destruct N1.
  - destruct S as (S1 & S2 & S3). rewrite wi_ok_eq by assumption. split.
    + intros (W & X). destruct (find_year 1 w i) as (y & Y & E); [lia|exact W|exact X|].
      destruct (picked_nth y 1 w i) as (d & C & P); auto; try lia. now exists (YMD y 1 d).
    + intros ([y m d] & C & P). cbn [yr mo dy] in P. now destruct (picked_nth_back _ _ _ _ _ C P).
  - unfold weekday_ok. rewrite Z.leb_le. unfold byte in S. split.
    + intros W. destruct (picked_last_of 2000 1 w) as (d & C & P); [unfold year_in_range; lia|lia|lia|].
      now exists (YMD 2000 1 d).
    + intros ([y m d] & C & (_ & n & T & <-)). unfold weekday_of. pose proof (Z.mod_pos_bound (n + 4) 7). lia.
  - destruct S as (S1 & S2). rewrite andb_true_iff, year_ok_eq, month_ok_eq by exact S1. split.
    + intros (Y & M). exists (YMD y m 1). split; [|now split]. pose proof (mlen_bound y m). apply in_cal; auto. lia.
    + intros (x & C & <- & <-). apply cal_inv in C. tauto.
  - rewrite md_ok_eq. split.
    + intros (M & D). exists (YMD 2000 m d). split; [|now split]. apply in_cal; auto. unfold year_in_range. lia.
    + intros (x & C & <- & <-). apply cal_inv in C. pose proof (mlen_2000 (yr x) (mo x)). lia.
  - rewrite month_ok_eq. split.
    + intros M. destruct (picked_last 2000 m) as (C & P); [unfold year_in_range; lia|exact M|].
      exists (YMD 2000 m (mlen 2000 m)). split; [exact C|]. split; [reflexivity|exact P].
    + intros (x & C & <- & _). now apply cal_inv in C.
  - destruct S as (S0 & S1 & S2 & S3). rewrite andb_true_iff, month_ok_eq, wi_ok_eq by assumption. split.
    + intros (M & W & X). destruct (find_year m w i) as (y & Y & E); auto.
      destruct (picked_nth y m w i) as (d & C & P); auto; try lia. now exists (YMD y m d).
    + intros ([y m' d] & C & <- & P). cbn [yr mo dy] in P. destruct (picked_nth_back _ _ _ _ _ C P) as (W & X & _).
      apply cal_inv in C. tauto.
  - destruct S as (S0 & S1). unfold byte in *. unfold weekday_ok. rewrite andb_true_iff, month_ok_eq, Z.leb_le. split.
    + intros (M & W). destruct (picked_last_of 2000 m w) as (d & C & P); [unfold year_in_range; lia|lia|lia|].
      now exists (YMD 2000 m d).
    + intros ([y m' d] & C & <- & (_ & n & T & <-)). apply cal_inv in C. split; [tauto|].
      unfold weekday_of. pose proof (Z.mod_pos_bound (n + 4) 7). lia.
  - destruct S as (S0 & S1 & S2). unfold short_, byte in *. rewrite ymd_ok_spec by (cbn; lia). split.
    + intros C. now exists (YMD y m d).
    + intros ([y' m' d'] & C & <- & <- & <-). exact C.
  - destruct S as (S1 & S2). rewrite andb_true_iff, year_ok_eq, month_ok_eq by exact S1. split.
    + intros (Y & M). destruct (picked_last y m Y M) as (C & P). exists (YMD y m (mlen y m)). split; [exact C|].
      repeat split; exact P.
    + intros (x & C & <- & <- & _). apply cal_inv in C. tauto.
  - destruct S as (S0 & S1 & S2 & S3 & S4). unfold four_bits in *.
    assert (K : (year_in_range y /\ 1 <= m <= 12 /\ 0 <= w <= 6 /\ 1 <= i) \/
                ~ (year_in_range y /\ 1 <= m <= 12 /\ 0 <= w <= 6 /\ 1 <= i)) by (unfold year_in_range; lia).
    destruct K as [(Y & M & W & X)|K].
    + destruct (C65_ok y m w i Y M W) as (b & E & B); [lia|]. exists b. rewrite E. split; [reflexivity|]. split.
      * intros ->. destruct (picked_nth y m w i Y M W) as (d & C & P); [lia|exact E|]. exists (YMD y m d). auto.
      * intros ([y' m' d] & C & <- & <- & P). cbn [yr mo dy] in *.
        destruct (picked_nth_back _ _ _ _ _ C P) as (_ & _ & E'). rewrite E in E'. now injection E'.
    + exists false. split.
      * unfold ymw_ok. cbn [w_year w_month w_day w_index]. rewrite weekday_small by lia.
        destruct (_ || _) eqn:E; [reflexivity|]. exfalso. apply K.
        rewrite !orb_false_iff, !negb_false_iff, year_ok_eq, month_ok_eq in E by exact S0.
        unfold weekday_ok in E. rewrite Z.leb_le, Z.ltb_ge in E. unfold year_in_range in *. lia.
      * split; [discriminate|]. intros ([y' m' d] & C & <- & <- & P). cbn [yr mo dy] in *. exfalso. apply K.
        destruct (picked_nth_back _ _ _ _ _ C P) as (W & X & _). apply cal_inv in C. cbn [yr mo dy] in C.
        split; [tauto|]. split; [tauto|]. split; [exact W|lia].
  - destruct S as (S0 & S1 & S2). unfold byte in *. unfold weekday_ok.
    rewrite !andb_true_iff, year_ok_eq, month_ok_eq, Z.leb_le by exact S0. split.
    + intros ((Y & M) & W). destruct (picked_last_of y m w Y M) as (d & C & P); [lia|].
      exists (YMD y m d). auto.
    + intros ([y' m' d] & C & <- & <- & (_ & n & T & <-)). cbn [yr mo dy] in *. apply cal_inv in C.
      cbn [yr mo dy] in C. split; [tauto|].
      unfold weekday_of. pose proof (Z.mod_pos_bound (n + 4) 7). lia.
Qed.

Definition lex (c d : comparison) : comparison := match c with Eq => d | _ => c end.
Ltac bools := repeat match goal with
  | |- context[?p <? ?q] => destruct (Z.ltb_spec p q)
  | |- context[?p =? ?q] => destruct (Z.eqb_spec p q)
  end.
Ltac cmp_solve t :=
  destruct t; cbn [lex];
  cbn [val_cmp val_lt val_eq fits alike option_map];
  unfold ym_lt, md_lt, ymdl_lt, ymd_lt, ymd_eq, earlier; cbn [ym_year ym_month yr mo dy];
  (split; [intros o; destruct o; cbn [says val_cmp val_lt val_eq option_map];
           unfold ym_lt, md_lt, ymdl_lt, ymd_lt, ymd_eq; cbn [ym_year ym_month yr mo dy];
           bools; cbn; first [reflexivity|exfalso; lia]|]);
  (split; [split; [first [discriminate|intros _; congruence]|first [reflexivity|intros [=]; lia]]|]);
  (split; first [discriminate|intros _ x y F G Al; decompose [and] F; decompose [and] G; lia]).

(** The order of two values of one class is the order of the dates that fit them: those of
    the smaller one all come before those of the larger one, within one year or month where
    the values do not say which.  All six operators follow the same order. *)
Theorem C91_compare a b r : val_lt a b = Some r ->
  exists c, (forall o, val_cmp o a b = Some (says o c)) /\ (c = Eq <-> a = b) /\
    (c = Lt -> forall x y, fits a x -> fits b y -> alike a x y -> earlier x y) /\
    (c = Gt -> forall x y, fits a x -> fits b y -> alike a x y -> earlier y x).
Proof.
  intros E.
  destruct a as [n|y1|m1|d1| |w1 i1|w1|y1 m1|m1 d1|m1|m1 w1 i1|m1 w1|y1 m1 d1|y1 m1|y1 m1 w1 i1|y1 m1 w1],
    b as [n'|y2|m2|d2| |w2 i2|w2|y2 m2|m2 d2|m2|m2 w2 i2|m2 w2|y2 m2 d2|y2 m2|y2 m2 w2 i2|y2 m2 w2];
    try discriminate E; clear E.
  - exists (y1 ?= y2). cmp_solve (Z.compare_spec y1 y2).
  - exists (m1 ?= m2). cmp_solve (Z.compare_spec m1 m2).
  - exists (d1 ?= d2). cmp_solve (Z.compare_spec d1 d2).
  - exists (lex (y1 ?= y2) (m1 ?= m2)). destruct (Z.compare_spec y1 y2); cmp_solve (Z.compare_spec m1 m2).
  - exists (lex (m1 ?= m2) (d1 ?= d2)). destruct (Z.compare_spec m1 m2); cmp_solve (Z.compare_spec d1 d2).
  - exists (m1 ?= m2). cmp_solve (Z.compare_spec m1 m2).
  - exists (lex (y1 ?= y2) (lex (m1 ?= m2) (d1 ?= d2))).
    destruct (Z.compare_spec y1 y2), (Z.compare_spec m1 m2); cmp_solve (Z.compare_spec d1 d2).
  - exists (lex (y1 ?= y2) (m1 ?= m2)). destruct (Z.compare_spec y1 y2); cmp_solve (Z.compare_spec m1 m2).
Qed.

(** The classes with a weekday can only be compared for equality. *)
Theorem C91_equal a b r : storable a -> storable b -> val_eq a b = Some r ->
  (r = true <-> a = b) /\ val_cmp CNe a b = Some (negb r).
Proof.
  intros A B E. split; [|cbn [val_cmp]; now rewrite E].
  destruct a as [n|y1|m1|d1| |w1 i1|w1|y1 m1|m1 d1|m1|m1 w1 i1|m1 w1|y1 m1 d1|y1 m1|y1 m1 w1 i1|y1 m1 w1],
    b as [n'|y2|m2|d2| |w2 i2|w2|y2 m2|m2 d2|m2|m2 w2 i2|m2 w2|y2 m2 d2|y2 m2|y2 m2 w2 i2|y2 m2 w2];
    try discriminate E; cbn [val_eq storable] in *; unfold four_bits, ymd_eq in *; cbn [yr mo dy] in *;
    injection E as <-; rewrite ?weekday_small by tauto; rewrite ?andb_true_iff, ?Z.eqb_eq.
  all: split; [intros H; decompose [and] H; congruence|intros [=]; auto].
Qed.

(** Adding months to a date moves its month by that number and keeps the rest: the day of the
    month, the last day, or the weekday. *)
Theorem C91_months y m k n : ym_valid (YM y m) -> ym_numbers (12 * y + (m - 1) + n) ->
  exists y' m', 1 <= m' <= 12 /\ 12 * y' + (m' - 1) = 12 * y + (m - 1) + n /\
    val_add_months (dated y m k) n = Some (Ok (dated y' m' k)) /\
    val_add_months (VYm y m) n = Some (Ok (VYm y' m')).
Proof.
  intros V N. destruct (C64_year_month_add (YM y m) n V N) as ([y' m'] & E & (M & _) & U).
  unfold ym_number in U. cbn [ym_year ym_month] in U, M. exists y', m'. split; [exact M|]. split; [exact U|].
  destruct k; cbn [dated val_add_months]; unfold ymd_add_months; cbn [yr mo dy]; rewrite E; split; reflexivity.
Qed.
(** Subtracting them does the opposite. *)
Theorem C91_months_back y m k n : ym_valid (YM y m) -> is_int n -> n <> -2147483648 ->
  ym_numbers (12 * y + (m - 1) - n) ->
  exists y' m', 1 <= m' <= 12 /\ 12 * y' + (m' - 1) = 12 * y + (m - 1) - n /\
    val_sub_months (dated y m k) n = Some (Ok (dated y' m' k)) /\
    val_sub_months (VYm y m) n = Some (Ok (VYm y' m')).
Proof.
  intros V Hn Hm N. unfold val_sub_months, is_int in *. rewrite int_ok by lia. apply C91_months; [exact V|exact N].
Qed.
(** Years *)
Theorem C91_years y m k n : year_in_range y -> year_in_range (y + n) ->
  val_add_years (dated y m k) n = Some (Ok (dated (y + n) m k)) /\
  val_add_years (VYm y m) n = Some (Ok (VYm (y + n) m)).
Proof.
  intros Y Y'. destruct (C64_year y n Y) as (E & _). specialize (E Y').
  destruct k; cbn [dated val_add_years]; rewrite E; split; reflexivity.
Qed.
Theorem C91_years_back y m k n : year_in_range y -> year_in_range (y - n) ->
  val_sub_years (dated y m k) n = Some (Ok (dated (y - n) m k)) /\
  val_sub_years (VYm y m) n = Some (Ok (VYm (y - n) m)).
Proof.
  intros Y Y'. unfold val_sub_years. unfold year_in_range in *. rewrite int_ok by lia. apply C91_years; assumption.
Qed.

(** February 29 is a day of some year, February 30 of none; there is a fifth Monday in some
    February; the last day of January plus one month is the last day of February. *)
Example C91_example :
  val_ok (VMd 2 29) = Some (Ok true) /\ val_ok (VMd 2 30) = Some (Ok false) /\
  storable (VMw 2 1 5) /\ val_ok (VMw 2 1 5) = Some (Ok true) /\ val_ok (VMw 2 1 6) = Some (Ok false) /\
  val_cmp CLt (VMd 2 29) (VMd 3 1) = Some true /\ fits (VMd 2 29) (YMD 2024 2 29) /\
  val_cmp CGe (VYmdl 2024 2) (VYmdl 2024 1) = Some true /\ val_cmp CEq (VWi 1 2) (VWi 1 2) = Some true /\
  val_add_months (VYmdl 2023 1) 13 = Some (Ok (VYmdl 2024 2)) /\
  val_days (VYmdl 2024 2) = Some (to_days (YMD 2024 2 29)) /\
  val_sub_months (VYmw 2024 2 1 5) 3 = Some (Ok (VYmw 2023 11 1 5)).
Proof. repeat match goal with |- _ /\ _ => split end; try reflexivity. all: cbn; unfold byte, four_bits; lia. Qed.

(** An index above 15 or an invalid weekday above 15 wraps around and can become valid:
    Monday[17] is the first Monday, weekday(16)[1] the first Sunday. *)
Theorem C91_wrap_finding :
  bracket 1 17 = bracket 1 1 /\ val_ok (bracket 1 17) = Some (Ok true) /\
  weekday_ok (weekday 16) = false /\ val_ok (bracket (weekday 16) 1) = Some (Ok true).
Proof. repeat split. Qed.

Print Assumptions C91_ok.
Print Assumptions C91_compare.
Print Assumptions C91_months.
