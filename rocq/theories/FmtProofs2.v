(** Day numbers, week numbers and ISO weeks. *)
From Verif Require Import Base IntModel DateModel DateSpec DateProofs DateProofs2 FmtModel FmtSpec FmtProofs.
Local Open Scope Z_scope.

Definition num (x : ymd) : Z := days_of (yr x) (mo x) (dy x).
Definition jan1 (y : Z) : Z := days_of y 1 1.

Lemma num_date_of n : num (date_of n) = n.
Proof. apply date_of_props. Qed.
Lemma date_of_num x : exists_date x -> date_of (num x) = x.
Proof. apply date_of_number. Qed.

Lemma later_exists n x y : later n x y -> (exists_date x <-> exists_date y).
Proof.
  induction 1 as [x|n x y z _ IH N]; [tauto|]. apply next_exists in N. destruct N as [A B]. tauto.
Qed.
Lemma epoch_exists : exists_date epoch.
Proof. rewrite <- date_of_epoch. apply date_of_props. Qed.
Lemma day_number_exists x n : day_number x n -> exists_date x.
Proof.
  intros [[_ L]|[_ L]]; apply later_exists in L; apply L; apply epoch_exists.
Qed.
Lemma day_number_num x n : day_number x n -> n = num x.
Proof.
  intros [[P L]|[P L]]; apply later_number in L; unfold num; unfold epoch in L; cbn [yr mo dy] in L;
    change (days_of 1970 1 1) with 0 in L; lia.
Qed.
Lemma num_day_number x : exists_date x -> day_number x (num x).
Proof.
  intros E. unfold day_number. destruct (Z_lt_le_dec (num x) 0).
  - right. split; [lia|]. rewrite <- (date_of_num x E) at 2. rewrite <- date_of_epoch.
    pose proof (date_of_later (num x) (Z.to_nat (- num x))) as L.
    replace (num x + Z.of_nat (Z.to_nat (- num x))) with 0 in L by lia. exact L.
  - left. split; [lia|]. rewrite <- (date_of_num x E) at 2. rewrite <- date_of_epoch.
    pose proof (date_of_later 0 (Z.to_nat (num x))) as L.
    replace (0 + Z.of_nat (Z.to_nat (num x))) with (num x) in L by lia. exact L.
Qed.
Lemma date_of_day_number n : day_number (date_of n) n.
Proof. pose proof (num_day_number (date_of n)) as D. rewrite num_date_of in D. apply D, date_of_props. Qed.
Lemma jan1_exists y : exists_date (YMD y 1 1).
Proof. apply exists_date_spec. cbn [yr mo dy]. unfold mlen. cbn. lia. Qed.
Lemma num_jan1 y : num (YMD y 1 1) = jan1 y.
Proof. reflexivity. Qed.

Lemma jan1_succ y : 365 <= jan1 (y + 1) - jan1 y <= 366.
Proof. unfold jan1, days_of. change ((153 * mp 1 + 2) / 5) with 306. rewrite !my_small by lia. div_lia. Qed.
Lemma dec31 y : days_of y 12 31 = jan1 (y + 1) - 1.
Proof. pose proof (next_number _ _ (next_year y)) as E. cbn [yr mo dy] in E. unfold jan1. lia. Qed.
Lemma jan1_mono y z : y < z -> jan1 y + 365 <= jan1 z.
Proof.
  intros H. pose proof (year_order y z H) as E. rewrite dec31 in E. pose proof (jan1_succ y). unfold jan1 in *. lia.
Qed.
Lemma year_bounds x : exists_date x -> jan1 (yr x) <= num x < jan1 (yr x + 1).
Proof.
  intros E. pose proof E as E'. apply exists_date_spec in E'. destruct E' as (M & D). split.
  - destruct (Z_lt_le_dec (num x) (jan1 (yr x))) as [L|]; [|assumption].
    rewrite <- num_jan1 in L. apply number_order in L; [|exact E|apply jan1_exists].
    unfold earlier in L. cbn [yr mo dy] in L. lia.
  - destruct (Z_lt_le_dec (num x) (jan1 (yr x + 1))) as [|L]; [assumption|].
    assert (X : exists_date (YMD (yr x) 12 31)) by (apply exists_date_spec; cbn [yr mo dy]; unfold mlen; cbn; lia).
    assert (num (YMD (yr x) 12 31) < num x) as L' by (unfold num at 1; cbn [yr mo dy]; rewrite dec31; lia).
    apply number_order in L'; [|exact X|exact E]. unfold earlier in L'. cbn [yr mo dy] in L'.
    assert (mo x = 12) as E12 by lia. rewrite E12 in D. change (mlen (yr x) 12) with 31 in D. lia.
Qed.
Lemma year_unique x y : exists_date x -> jan1 y <= num x < jan1 (y + 1) -> yr x = y.
Proof.
  intros E B. pose proof (year_bounds x E) as C.
  destruct (Z.lt_trichotomy (yr x) y) as [L|[L|L]]; [|exact L|].
  - assert (yr x + 1 = y \/ yr x + 1 < y) as [F|F] by lia; [rewrite F in C; lia|]. apply jan1_mono in F. lia.
  - assert (y + 1 = yr x \/ y + 1 < yr x) as [F|F] by lia; [rewrite F in B; lia|]. apply jan1_mono in F. lia.
Qed.

(** * Counting weekdays *)
Definition offset_to (wd a : Z) : Z := (wd - weekday_of a) mod 7.
Lemma count_wd_eq wd a len : 0 <= wd <= 6 -> count_wd wd a len = (Z.of_nat len - offset_to wd a + 6) / 7.
Proof.
  intros W. unfold offset_to, weekday_of. induction len as [|len IH]; cbn [count_wd].
  - div_lia.
  - rewrite IH. unfold weekday_of. clear IH. rewrite Nat2Z.inj_succ. set (l := Z.of_nat len). clearbody l.
    destruct (Z.eqb_spec ((a + l + 4) mod 7) wd); div_lia.
Qed.
(** The rank of day [n] among the weekdays [wd] of its year *)
Definition rank (wd y n : Z) : Z := (n - jan1 y - offset_to wd (jan1 y)) / 7 + 1.
Lemma seen_rank wd x k : 0 <= wd <= 6 -> exists_date x -> (seen wd x k <-> k = rank wd (yr x) (num x)).
Proof.
  intros W E. pose proof (year_bounds x E) as B.
  assert (C : count_wd wd (jan1 (yr x)) (Z.to_nat (num x - jan1 (yr x) + 1)) = rank wd (yr x) (num x)).
  { rewrite count_wd_eq by exact W. unfold rank. rewrite Z2Nat.id by lia.
    replace (num x - jan1 (yr x) + 1 - offset_to wd (jan1 (yr x)) + 6)
      with (num x - jan1 (yr x) - offset_to wd (jan1 (yr x)) + 1 * 7) by lia.
    apply Z.div_add. lia. }
  split.
  - intros (a & b & A & Bn & ->). apply day_number_num in A, Bn. subst. rewrite num_jan1. exact C.
  - intros ->. exists (jan1 (yr x)), (num x). rewrite C. split; [apply (num_day_number (YMD (yr x) 1 1)), jan1_exists|].
    split; [now apply num_day_number|reflexivity].
Qed.
Lemma rank_range wd y n : 0 <= wd <= 6 -> jan1 y <= n < jan1 (y + 1) -> 0 <= rank wd y n <= 53.
Proof.
  intros W B. pose proof (jan1_succ y). unfold rank, offset_to.
  pose proof (Z.mod_pos_bound (wd - weekday_of (jan1 y)) 7 ltac:(lia)).
  set (o := (wd - weekday_of (jan1 y)) mod 7) in *. clearbody o. div_lia.
Qed.

(** * ISO weeks *)
Definition thursday (n : Z) : Z := n + 3 - (weekday_of n + 6) mod 7.
Definition isoy (n : Z) : Z := yr (date_of (thursday n)).
Definition isow (n : Z) : Z := rank 4 (isoy n) (thursday n).
(** The Monday of week 1 *)
Definition iso1 (y : Z) : Z := jan1 y + offset_to 4 (jan1 y) - 3.

Lemma thursday_spec n th : n - 6 <= th - 3 <= n -> weekday_of (th - 3) = 1 -> th = thursday n.
Proof. unfold thursday, weekday_of. intros A B. div_lia. Qed.
Lemma thursday_props n : n - 6 <= thursday n - 3 <= n /\ weekday_of (thursday n - 3) = 1.
Proof. unfold thursday, weekday_of. div_lia. Qed.
Lemma iso_week_eq x g k : exists_date x -> (iso_week x g k <-> g = isoy (num x) /\ k = isow (num x)).
Proof.
  intros E. unfold iso_week, isoy, isow. split.
  - intros (n & th & t & N & B & M & T & Y & S4).
    pose proof (day_number_exists _ _ T) as ET. apply day_number_num in N, T. subst.
    apply thursday_spec in B; [|exact M].
    assert (t = date_of (thursday (num x))) as -> by (rewrite <- B; now rewrite date_of_num).
    split; [reflexivity|]. apply seen_rank in S4; [|lia|apply date_of_props]. rewrite num_date_of in S4. exact S4.
  - intros (-> & ->). exists (num x), (thursday (num x)), (date_of (thursday (num x))).
    destruct (thursday_props (num x)) as [A B]. split; [now apply num_day_number|]. split; [exact A|].
    split; [exact B|]. split; [apply date_of_day_number|]. split; [reflexivity|].
    apply seen_rank; [lia|apply date_of_props|]. now rewrite num_date_of.
Qed.
Lemma isoy_bounds n : jan1 (isoy n) <= thursday n < jan1 (isoy n + 1).
Proof.
  unfold isoy. pose proof (year_bounds (date_of (thursday n)) ltac:(apply date_of_props)) as B.
  rewrite num_date_of in B. exact B.
Qed.
Lemma isow_range n : 1 <= isow n <= 53.
Proof.
  pose proof (isoy_bounds n) as B. unfold isow, rank. pose proof (jan1_succ (isoy n)) as J.
  destruct (thursday_props n) as [_ W]. unfold offset_to, weekday_of in *.
  set (t := thursday n) in *. set (a := jan1 (isoy n)) in *. clearbody t a. div_lia.
Qed.
Lemma iso_days n : 0 <= n - iso1 (isoy n) /\ (n - iso1 (isoy n)) / 7 + 1 = isow n.
Proof.
  pose proof (isoy_bounds n) as B. destruct (thursday_props n) as [A W]. unfold isow, rank, iso1, offset_to, weekday_of in *.
  set (t := thursday n) in *. set (a := jan1 (isoy n)) in *. clearbody t a. div_lia.
Qed.
(** The year of day n + 3 is the ISO year or the one after. *)
Lemma isoy_cases n : let y := yr (date_of (n + 3)) in
  isoy n = (if n <? iso1 y then y - 1 else y).
Proof.
  cbv zeta. set (y := yr (date_of (n + 3))).
  pose proof (year_bounds (date_of (n + 3)) ltac:(apply date_of_props)) as B. rewrite num_date_of in B. fold y in B.
  destruct (thursday_props n) as [A W]. unfold isoy. pose proof (jan1_succ (y - 1)) as J.
  replace (y - 1 + 1) with y in J by lia. unfold iso1.
  apply year_unique; [apply date_of_props|]. rewrite num_date_of.
  unfold offset_to, weekday_of in *. set (t := thursday n) in *. clearbody t.
  destruct (Z.ltb_spec n (jan1 y + (4 - (jan1 y + 4) mod 7) mod 7 - 3)).
  - replace (y - 1 + 1) with y by lia. set (a := jan1 y) in *. set (a' := jan1 (y - 1)) in *. clearbody a a'. div_lia.
  - set (a := jan1 y) in *. set (a' := jan1 (y + 1)) in *. clearbody a a'. div_lia.
Qed.
Lemma isoy_near x : exists_date x -> yr x - 1 <= isoy (num x) <= yr x + 1.
Proof.
  intros E. pose proof (isoy_bounds (num x)) as B. destruct (thursday_props (num x)) as [A _].
  pose proof (year_bounds x E) as C. set (g := isoy (num x)) in *. clearbody g.
  destruct (Z_lt_le_dec g (yr x - 1)) as [L|].
  { assert (g + 1 < yr x) as L1 by lia. apply jan1_mono in L1. pose proof (jan1_succ g). lia. }
  destruct (Z_lt_le_dec (yr x + 1) g) as [L|]; [|lia].
  apply jan1_mono in L. lia.
Qed.

(** * The code *)
Lemma iso_start_eq y : -32766 <= y <= 32767 -> iso_start y = Ok (iso1 y).
Proof.
  intros Y. unfold iso_start, year_sub. rewrite int_ok by lia. cbn [bind]. rewrite year_id by lia.
  rewrite wlast_eq by (unfold year_in_range; lia). cbn [bind]. change (mlen (y - 1) 12) with 31.
  rewrite weekday_diff_eq by lia. cbn [bind]. change ((1 - 4) mod 7) with 4.
  rewrite dec31. replace (y - 1 + 1) with y by lia.
  assert (C : in_calendar (YMD y 1 1)) by (split; [unfold year_in_range; cbn [yr]; lia|apply jan1_exists]).
  apply in_calendar_number in C. change (days_of (yr (YMD y 1 1)) (mo (YMD y 1 1)) (dy (YMD y 1 1))) with (jan1 y) in C.
  unfold first_day_number, last_day_number in C.
  unfold iso1, offset_to, weekday_of. set (a := jan1 y) in *. clearbody a.
  rewrite int_ok by div_lia. f_equal. div_lia.
Qed.
Lemma num_calendar x : in_calendar x -> first_day_number <= num x <= last_day_number.
Proof. apply in_calendar_number. Qed.
Lemma inner_num x : exists_date x -> -32766 <= yr x <= 32766 ->
  first_day_number + 365 <= num x <= last_day_number - 365.
Proof.
  intros E Y. pose proof (year_bounds x E) as B.
  assert (J1 : jan1 (-32766) <= jan1 (yr x)).
  { destruct (Z.eq_dec (-32766) (yr x)) as [->|]; [lia|]. pose proof (jan1_mono (-32766) (yr x) ltac:(lia)). lia. }
  assert (J2 : jan1 (yr x + 1) <= jan1 32767).
  { destruct (Z.eq_dec (yr x + 1) 32767) as [->|]; [lia|]. pose proof (jan1_mono (yr x + 1) 32767 ltac:(lia)). lia. }
  change (jan1 (-32766)) with (first_day_number + 365) in J1. change (jan1 32767) with (last_day_number - 364) in J2. lia.
Qed.
Lemma iso_year_eq x : exists_date x -> -32765 <= yr x <= 32766 ->
  iso_year (num x) = Ok (isoy (num x), iso1 (isoy (num x))).
Proof.
  intros E Y. pose proof (inner_num x E ltac:(lia)) as N. pose proof (isoy_near x E) as G. unfold first_day_number, last_day_number in N.
  unfold iso_year. rewrite int_ok by lia. cbn [bind]. rewrite from_days_ok by (unfold first_day_number, last_day_number; lia).
  cbn [bind]. pose proof (isoy_cases (num x)) as C. cbv zeta in C.
  set (y := yr (date_of (num x + 3))) in *.
  assert (YB : -32766 <= y <= 32767).
  { pose proof (date_of_year (num x + 3) ltac:(unfold first_day_number, last_day_number; lia)) as R.
    unfold year_in_range in R. fold y in R. split; [|lia].
    pose proof (year_bounds (date_of (num x + 3)) ltac:(apply date_of_props)) as B. rewrite num_date_of in B. fold y in B.
    destruct (Z.eq_dec y (-32767)) as [F|]; [|lia]. rewrite F in B. change (jan1 (-32767 + 1)) with (-12687063) in B. lia. }
  rewrite iso_start_eq by lia. cbn [bind]. destruct (num x <? iso1 y).
  - rewrite C in *. unfold year_sub. rewrite int_ok by lia. cbn [bind]. rewrite year_id by lia.
    assert (-32766 <= y - 1).
    { lia. }
    rewrite iso_start_eq by lia. reflexivity.
  - rewrite C. reflexivity.
Qed.
