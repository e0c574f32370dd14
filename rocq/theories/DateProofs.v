(** Proofs about the calendar. *)
From Verif Require Import Base IntModel DateModel DateSpec.
From Coq Require Import Zdiv Znumtheory.
Local Open Scope Z_scope.

Ltac div_lia := Z.to_euclidean_division_equations; lia.

Lemma int_ok z : -2147483648 <= z <= 2147483647 -> int_ z = Ok z.
Proof.
  intros H. unfold int_, arith, int_t, in_rangeb, imin, imax. cbn [sgn wid].
  change (- 2 ^ (32 - 1)) with (-2147483648). change (2 ^ (32 - 1) - 1) with 2147483647.
  destruct (Z.leb_spec (-2147483648) z), (Z.leb_spec z 2147483647); cbn [andb]; lia || reflexivity.
Qed.
Lemma int_ub z : ~ (-2147483648 <= z <= 2147483647) -> int_ z = UB.
Proof.
  intros H. unfold int_, arith, int_t, in_rangeb, imin, imax. cbn [sgn wid].
  change (- 2 ^ (32 - 1)) with (-2147483648). change (2 ^ (32 - 1) - 1) with 2147483647.
  destruct (Z.leb_spec (-2147483648) z), (Z.leb_spec z 2147483647); cbn [andb]; lia || reflexivity.
Qed.
Lemma ll_ok z : -9223372036854775808 <= z <= 9223372036854775807 -> arith llong_t z = Ok z.
Proof.
  intros H. unfold arith, llong_t, in_rangeb, imin, imax. cbn [sgn wid].
  change (- 2 ^ (64 - 1)) with (-9223372036854775808). change (2 ^ (64 - 1) - 1) with 9223372036854775807.
  destruct (Z.leb_spec (-9223372036854775808) z), (Z.leb_spec z 9223372036854775807); cbn [andb]; lia || reflexivity.
Qed.
Lemma uns_eq z : uns z = z mod 4294967296.
Proof. reflexivity. Qed.
Lemma uns_id z : 0 <= z <= 4294967295 -> uns z = z.
Proof. intros H. rewrite uns_eq. apply Z.mod_small. lia. Qed.
Lemma conv_int z : -2147483648 <= z <= 2147483647 -> conv int_t z = z.
Proof.
  intros H. unfold conv, int_t. cbn [sgn wid andb].
  change (2 ^ 32) with 4294967296. change (2 ^ (32 - 1)) with 2147483648.
  destruct (Z.leb_spec 2147483648 (z mod 4294967296)); div_lia.
Qed.
Lemma conv_int_uns z : -2147483648 <= z <= 2147483647 -> conv int_t (uns z) = z.
Proof.
  intros H. rewrite uns_eq. unfold conv, int_t. cbn [sgn wid andb].
  change (2 ^ 32) with 4294967296. change (2 ^ (32 - 1)) with 2147483648. rewrite Zmod_mod.
  destruct (Z.leb_spec 2147483648 (z mod 4294967296)); div_lia.
Qed.
Lemma year_id z : -32768 <= z <= 32767 -> year z = z.
Proof.
  intros H. unfold year, conv. cbn [sgn wid andb].
  change (2 ^ 16) with 65536. change (2 ^ (16 - 1)) with 32768.
  destruct (Z.leb_spec 32768 (z mod 65536)); div_lia.
Qed.
Lemma byte_id z : 0 <= z <= 255 -> conv (IT false 8) z = z.
Proof. intros H. unfold conv. cbn [sgn wid andb]. apply Z.mod_small. change (2 ^ 8) with 256. lia. Qed.

(** Truncating division of the adjusted numerator is the floor *)
Lemma quot_floor k z : 0 < k -> (if z >=? 0 then z else z - (k - 1)) ÷ k = z / k.
Proof.
  intros K. rewrite Z.geb_leb. destruct (Z.leb_spec 0 z) as [H|H].
  - apply Z.quot_div_nonneg; lia.
  - replace (z - (k - 1)) with (- (- z + (k - 1))) by lia. rewrite Z.quot_opp_l by lia.
    rewrite Z.quot_div_nonneg by lia.
    assert (E : (- z + (k - 1)) / k = - (z / k)); [|lia].
    symmetry. apply Z.div_unique with (r := k - 1 - z mod k).
    + pose proof (Z.mod_pos_bound z k). lia.
    + pose proof (Z.div_mod z k). lia.
Qed.
Lemma num_ok k z : 0 < k -> -2147483648 + k <= z <= 2147483647 ->
  (if z >=? 0 then Ok z else int_ (z - (k - 1))) = Ok (if z >=? 0 then z else z - (k - 1)).
Proof. intros K H. destruct (z >=? 0) eqn:E; [reflexivity|]. apply int_ok. lia. Qed.

(** * Day numbers as a formula over the integers *)
Definition my (y m : Z) : Z := y - (if m <=? 2 then 1 else 0).
Definition mp (m : Z) : Z := if m >? 2 then m - 3 else m + 9.
Definition days_of (y m d : Z) : Z :=
  365 * my y m + my y m / 4 - my y m / 100 + my y m / 400 + (153 * mp m + 2) / 5 + d - 1 - 719468.

Lemma to_days_formula x : -32768 <= yr x <= 32767 -> 1 <= mo x <= 12 -> 0 <= dy x <= 255 ->
  (1 <= dy x \/ 3 < mo x) ->
  to_days x = Ok (days_of (yr x) (mo x) (dy x)).
Proof.
  destruct x as [y m d]. cbn [yr mo dy]. intros Y M D D1. unfold to_days. cbn [yr mo dy].
  fold (my y m). set (Y' := my y m).
  assert (HY : -32769 <= Y' <= 32767) by (unfold Y', my; destruct (m <=? 2); lia).
  rewrite int_ok by lia. cbn [bind].
  change 399 with (400 - 1) at 1. rewrite num_ok by lia. cbn [bind].
  rewrite quot_floor by lia. assert (HE : -82 <= Y' / 400 <= 81) by div_lia.
  rewrite int_ok by lia. cbn [bind]. rewrite int_ok by div_lia. cbn [bind].
  assert (HQ : 0 <= Y' - Y' / 400 * 400 <= 399) by div_lia.
  rewrite (uns_id (Y' - Y' / 400 * 400)) by lia. remember (Y' - Y' / 400 * 400) as yoe eqn:Eyoe.
  replace (if m >? 2 then uns (m - 3) else uns (m + 9)) with (mp m).
  2:{ unfold mp. destruct (m >? 2) eqn:E; symmetry; apply uns_id; lia. }
  assert (HM : 0 <= mp m <= 11) by (unfold mp; destruct (m >? 2) eqn:E; lia).
  assert (HD : 1 <= (153 * mp m + 2) / 5 + d).
  { destruct D1; [div_lia|]. unfold mp. destruct (m >? 2) eqn:E; [|lia]. div_lia. }
  rewrite (uns_id (153 * mp m)) by lia. rewrite (uns_id (153 * mp m + 2)) by lia.
  rewrite (uns_id ((153 * mp m + 2) / 5 + d)) by div_lia.
  rewrite (uns_id ((153 * mp m + 2) / 5 + d - 1)) by div_lia.
  rewrite (uns_id (yoe * 365)) by lia. rewrite (uns_id (yoe * 365 + yoe / 4)) by div_lia.
  rewrite (uns_id (yoe * 365 + yoe / 4 - yoe / 100)) by div_lia.
  set (mm := (153 * mp m + 2) / 5) in *. assert (HMM : 0 <= mm <= 400) by (unfold mm; div_lia).
  assert (HZ : 0 <= yoe / 4 <= 99) by div_lia. assert (HC : 0 <= yoe / 100 <= 3) by div_lia.
  rewrite (uns_id (yoe * 365 + yoe / 4 - yoe / 100 + (mm + d - 1))) by (clearbody mm; div_lia).
  rewrite conv_int by (clearbody mm; div_lia).
  rewrite int_ok by lia. cbn [bind]. rewrite int_ok by lia. cbn [bind]. rewrite int_ok by lia.
  f_equal. unfold days_of. fold mm. fold Y'.
  assert (E4 : Y' / 4 = 100 * (Y' / 400) + yoe / 4) by div_lia.
  assert (E100 : Y' / 100 = 4 * (Y' / 400) + yoe / 100) by div_lia.
  rewrite E4, E100. lia.
Qed.

(** * Month lengths *)
Definition leapb (y : Z) : bool := (y mod 4 =? 0) && (negb (y mod 100 =? 0) || (y mod 400 =? 0)).
Lemma rem_zero a b : 0 < b -> (Z.rem a b =? 0) = (a mod b =? 0).
Proof.
  intros B. apply Bool.eq_iff_eq_true. rewrite !Z.eqb_eq.
  rewrite Z.rem_divide by lia. rewrite Z.mod_divide by lia. tauto.
Qed.
Lemma is_leap_eq y : is_leap y = leapb y.
Proof. unfold is_leap, leapb. now rewrite !rem_zero by lia. Qed.
Lemma leapb_spec y : leapb y = true <-> leap y.
Proof.
  unfold leapb, leap. rewrite <- !Z.mod_divide by lia.
  rewrite Bool.andb_true_iff, Bool.orb_true_iff, Bool.negb_true_iff, !Z.eqb_eq, Z.eqb_neq. tauto.
Qed.
Lemma leap_dec y : leap y \/ ~ leap y.
Proof. rewrite <- leapb_spec. destruct (leapb y); [left; reflexivity|right; discriminate]. Qed.

Definition mlen (y m : Z) : Z :=
  if m =? 2 then (if leapb y then 29 else 28)
  else if (m =? 4) || (m =? 6) || (m =? 9) || (m =? 11) then 30 else 31.

Lemma month_cases m : 1 <= m <= 12 ->
  m = 1 \/ m = 2 \/ m = 3 \/ m = 4 \/ m = 5 \/ m = 6 \/ m = 7 \/ m = 8 \/ m = 9 \/ m = 10 \/ m = 11 \/ m = 12.
Proof. lia. Qed.
Ltac months H := apply month_cases in H; repeat (destruct H as [H|H]); subst.

Lemma mlen_spec y m n : month_length y m n <-> (1 <= m <= 12 /\ n = mlen y m).
Proof.
  split.
  - intros H. destruct H as [y m H|y m H|y H|y H].
    + cbn [In] in H. intuition (subst; try lia; reflexivity).
    + cbn [In] in H. intuition (subst; try lia; reflexivity).
    + split; [lia|]. unfold mlen. cbn. apply leapb_spec in H. now rewrite H.
    + split; [lia|]. unfold mlen. cbn. destruct (leapb y) eqn:E; [|reflexivity].
      apply leapb_spec in E. contradiction.
  - intros (M & ->). unfold mlen. months M; cbn;
      try (apply ml_31; cbn; tauto); try (apply ml_30; cbn; tauto).
    destruct (leapb y) eqn:E.
    + apply ml_29. now apply leapb_spec.
    + apply ml_28. intros H. apply leapb_spec in H. congruence.
Qed.
Lemma mlen_bound y m : 28 <= mlen y m <= 31.
Proof. unfold mlen. repeat match goal with |- context[if ?b then _ else _] => destruct b end; lia. Qed.

Lemma last_day_eq y m : 1 <= m <= 12 -> last_day y m = mlen y m.
Proof.
  intros M. unfold last_day, mlen. rewrite is_leap_eq. months M; cbn; try reflexivity.
  destruct (leapb y); reflexivity.
Qed.

Lemma exists_date_spec x : exists_date x <-> 1 <= mo x <= 12 /\ 1 <= dy x <= mlen (yr x) (mo x).
Proof.
  unfold exists_date. split.
  - intros (H & n & L & N). apply mlen_spec in L. destruct L as [L ->]. lia.
  - intros (M & D). split; [lia|]. exists (mlen (yr x) (mo x)). split; [|lia]. now apply mlen_spec.
Qed.

Lemma ymd_ok_spec x : -32768 <= yr x <= 32767 -> 0 <= mo x -> 0 <= dy x ->
  ymd_ok x = true <-> in_calendar x.
Proof.
  destruct x as [y m d]. cbn [yr mo dy]. intros Y M D. unfold ymd_ok, in_calendar. rewrite exists_date_spec.
  cbn [yr mo dy]. unfold year_ok, month_ok, imin, year_in_range. cbn [sgn wid].
  change (- 2 ^ (16 - 1)) with (-32768).
  destruct (Z.eqb_spec y (-32768)) as [->|N]; cbn [negb andb].
  { split; [discriminate|lia]. }
  destruct (Z.leb_spec 1 m), (Z.leb_spec m 12); cbn [negb andb]; try (split; [discriminate|lia]).
  rewrite last_day_eq by lia. rewrite Bool.andb_true_iff, !Z.leb_le. lia.
Qed.

(** * Consecutive days have consecutive numbers *)
Lemma leap_years y : leapb y = true -> y / 4 - y / 100 + y / 400 = (y - 1) / 4 - (y - 1) / 100 + (y - 1) / 400 + 1.
Proof.
  unfold leapb. intros H. destruct (Z.eqb_spec (y mod 4) 0), (Z.eqb_spec (y mod 100) 0), (Z.eqb_spec (y mod 400) 0);
    try discriminate; div_lia.
Qed.
Lemma common_years y : leapb y = false -> y / 4 - y / 100 + y / 400 = (y - 1) / 4 - (y - 1) / 100 + (y - 1) / 400.
Proof.
  unfold leapb. intros H. destruct (Z.eqb_spec (y mod 4) 0), (Z.eqb_spec (y mod 100) 0), (Z.eqb_spec (y mod 400) 0);
    try discriminate; div_lia.
Qed.

Lemma my_small y m : m <= 2 -> my y m = y - 1.
Proof. intros H. unfold my. destruct (Z.leb_spec m 2); lia. Qed.
Lemma my_big y m : 2 < m -> my y m = y.
Proof. intros H. unfold my. destruct (Z.leb_spec m 2); lia. Qed.
Ltac months_ :=
  repeat match goal with
  | |- context[(153 * mp ?a + 2) / 5] =>
      let v := eval vm_compute in ((153 * mp a + 2) / 5) in change ((153 * mp a + 2) / 5) with v
  | |- context[my ?y ?a] => first [rewrite (my_small y a) by lia | rewrite (my_big y a) by lia]
  end.

Lemma next_number x y : next x y -> days_of (yr y) (mo y) (dy y) = days_of (yr x) (mo x) (dy x) + 1.
Proof.
  intros N. destruct N as [y m d n L D|y m n L M|y]; cbn [yr mo dy].
  - unfold days_of. lia.
  - apply mlen_spec in L. destruct L as [L ->]. unfold days_of. months L; try lia; unfold mlen;
      cbn [Z.eqb Pos.eqb orb]; months_; try lia.
    destruct (leapb y) eqn:E.
    + pose proof (leap_years y E). lia.
    + pose proof (common_years y E). lia.
  - unfold days_of. months_. replace (y + 1 - 1) with y by lia. lia.
Qed.

Lemma next_exists x y : next x y -> exists_date x /\ exists_date y.
Proof.
  intros N. rewrite !exists_date_spec. destruct N as [y m d n L D|y m n L M|y]; cbn [yr mo dy].
  - apply mlen_spec in L. destruct L as [L ->]. lia.
  - apply mlen_spec in L. destruct L as [L ->]. pose proof (mlen_bound y m). pose proof (mlen_bound y (m + 1)). lia.
  - unfold mlen. cbn. lia.
Qed.
Lemma next_fun x y z : next x y -> next x z -> y = z.
Proof.
  intros H1 H2.
  destruct H1 as [y m d n L D|y m n L M|y]; inversion H2; subst; try reflexivity;
    repeat match goal with H : month_length _ _ _ |- _ => apply mlen_spec in H; destruct H as [? ?] end; subst;
    try lia; unfold mlen in *; cbn in *; lia.
Qed.
Lemma next_total x : exists_date x -> exists y, next x y.
Proof.
  destruct x as [y m d]. rewrite exists_date_spec. cbn [yr mo dy]. intros (M & D).
  destruct (Z.eq_dec d (mlen y m)) as [->|N].
  - destruct (Z.eq_dec m 12) as [->|M'].
    + exists (YMD (y + 1) 1 1). exact (next_year y).
    + exists (YMD y (m + 1) 1). apply next_month; [now apply mlen_spec|lia].
  - exists (YMD y m (d + 1)). apply next_day with (mlen y m); [now apply mlen_spec|lia].
Qed.

(** * The order of dates is the order of day numbers *)
Lemma mp_step m : 1 <= m <= 12 -> mp m = 11 \/ mp m < 11.
Proof. unfold mp. destruct (m >? 2) eqn:E; lia. Qed.

Lemma month_start y m : 1 <= m <= 12 ->
  days_of y m (mlen y m) < days_of (if m =? 12 then y + 1 else y) (if m =? 12 then 1 else m + 1) 1.
Proof.
  intros M. assert (L : month_length y m (mlen y m)) by now apply mlen_spec.
  destruct (Z.eqb_spec m 12) as [->|N].
  - pose proof (next_number _ _ (next_year y)) as E. cbn [yr mo dy] in E. change (mlen y 12) with 31. lia.
  - assert (M' : m < 12) by lia. pose proof (next_number _ _ (next_month y m _ L M')) as E. cbn [yr mo dy] in E. lia.
Qed.
Lemma month_order y m m' : 1 <= m < m' -> m' <= 12 -> days_of y m (mlen y m) < days_of y m' 1.
Proof.
  intros M M'. remember (Z.to_nat (m' - m - 1)) as k eqn:K. revert m' M M' K.
  induction k as [|k IH]; intros m' M M' K.
  - assert (m' = m + 1) by lia. subst. pose proof (month_start y m ltac:(lia)) as E.
    destruct (Z.eqb_spec m 12); [lia|exact E].
  - specialize (IH (m' - 1) ltac:(lia) ltac:(lia) ltac:(lia)).
    pose proof (month_start y (m' - 1) ltac:(lia)) as E.
    destruct (Z.eqb_spec (m' - 1) 12); [lia|]. replace (m' - 1 + 1) with m' in E by lia.
    pose proof (mlen_bound y (m' - 1)). unfold days_of in *. lia.
Qed.
Lemma year_order y y' : y < y' -> days_of y 12 31 < days_of y' 1 1.
Proof.
  intros H. unfold days_of. months_.
  assert (y / 4 - y / 100 + y / 400 <= (y' - 1) / 4 - (y' - 1) / 100 + (y' - 1) / 400 + (y' - 1 - y)) by div_lia.
  div_lia.
Qed.

Lemma days_of_d y m d d' : days_of y m d' = days_of y m d + (d' - d).
Proof. unfold days_of. lia. Qed.

Lemma earlier_number x y : exists_date x -> exists_date y -> earlier x y ->
  days_of (yr x) (mo x) (dy x) < days_of (yr y) (mo y) (dy y).
Proof.
  rewrite !exists_date_spec. destruct x as [a m d], y as [y' m' d']. rename a into y. unfold earlier. cbn [yr mo dy].
  intros (M & D) (M' & D') [H|(-> & [H|(-> & H)])].
  - pose proof (year_order y y' H) as E.
    assert (days_of y m d <= days_of y 12 31).
    { rewrite (days_of_d y m (mlen y m) d).
      destruct (Z.eq_dec m 12) as [->|N]; [change (mlen y 12) with 31 in *; lia|].
      pose proof (month_order y m 12 ltac:(lia) ltac:(lia)). rewrite (days_of_d y 12 1 31). lia. }
    assert (days_of y' 1 1 <= days_of y' m' d').
    { rewrite (days_of_d y' m' 1 d').
      destruct (Z.eq_dec m' 1) as [->|N]; [lia|].
      pose proof (month_order y' 1 m' ltac:(lia) ltac:(lia)). change (mlen y' 1) with 31 in *.
      pose proof (days_of_d y' 1 1 31). lia. }
    lia.
  - pose proof (month_order y' m m' ltac:(lia) ltac:(lia)).
    pose proof (days_of_d y' m (mlen y' m) d). pose proof (days_of_d y' m' 1 d'). lia.
  - unfold days_of. lia.
Qed.

Lemma earlier_total x y : earlier x y \/ x = y \/ earlier y x.
Proof.
  destruct x as [y1 m1 d1], y as [y2 m2 d2]. unfold earlier. cbn [yr mo dy].
  destruct (Z.lt_trichotomy y1 y2) as [?|[->|?]]; [lia| |lia].
  destruct (Z.lt_trichotomy m1 m2) as [?|[->|?]]; [lia| |lia].
  destruct (Z.lt_trichotomy d1 d2) as [?|[->|?]]; [lia| |lia]. auto.
Qed.
Lemma number_inj x y : exists_date x -> exists_date y ->
  days_of (yr x) (mo x) (dy x) = days_of (yr y) (mo y) (dy y) -> x = y.
Proof.
  intros X Y E. destruct (earlier_total x y) as [H|[H|H]]; [|exact H|].
  - apply earlier_number in H; auto. lia.
  - apply earlier_number in H; auto. lia.
Qed.
Lemma number_order x y : exists_date x -> exists_date y ->
  (days_of (yr x) (mo x) (dy x) < days_of (yr y) (mo y) (dy y) <-> earlier x y).
Proof.
  intros X Y. split; [|now apply earlier_number]. intros L.
  destruct (earlier_total x y) as [H|[->|H]]; [exact H|lia|].
  apply earlier_number in H; auto. lia.
Qed.

(** * From day numbers to dates *)
Definition yoe_of (doe : Z) : Z := (doe - doe / 1460 + doe / 36524 - doe / 146096) / 365.
Definition doy_of (doe : Z) : Z := doe - (365 * yoe_of doe + yoe_of doe / 4 - yoe_of doe / 100).
Lemma yoe_bound doe : 0 <= doe <= 146096 -> 0 <= yoe_of doe <= 399.
Proof. unfold yoe_of. intros H. div_lia. Qed.
Lemma doy_low doe : 0 <= doe <= 146096 -> 0 <= doy_of doe.
Proof. unfold doy_of, yoe_of. intros H. div_lia. Qed.
Lemma doy_high doe : 0 <= doe <= 146096 ->
  doy_of doe <= 364 \/
  (doy_of doe = 365 /\ (yoe_of doe + 1) mod 4 = 0 /\ ((yoe_of doe + 1) mod 100 <> 0 \/ yoe_of doe = 399)).
Proof. unfold doy_of, yoe_of. intros H. div_lia. Qed.

Definition mp_of (doy : Z) : Z := (5 * doy + 2) / 153.
Definition d_of (doy : Z) : Z := doy - (153 * mp_of doy + 2) / 5 + 1.
Lemma mp_bound doy : 0 <= doy <= 365 -> 0 <= mp_of doy <= 11.
Proof. unfold mp_of. intros H. div_lia. Qed.
Lemma d_bound doy : 0 <= doy <= 365 ->
  1 <= d_of doy <= 31 /\ (mp_of doy = 11 -> d_of doy <= 29 /\ (d_of doy = 29 -> doy = 365)) /\
  (mp_of doy = 1 \/ mp_of doy = 3 \/ mp_of doy = 6 \/ mp_of doy = 8 -> d_of doy <= 30).
Proof. unfold d_of, mp_of. intros H. div_lia. Qed.

Definition m_of (doy : Z) : Z := if mp_of doy <? 10 then mp_of doy + 3 else mp_of doy - 9.
Definition date_of (dp : Z) : ymd :=
  let z := dp + 719468 in
  let era := z / 146097 in
  let doe := z - era * 146097 in
  let doy := doy_of doe in
  YMD (yoe_of doe + era * 400 + (if m_of doy <=? 2 then 1 else 0)) (m_of doy) (d_of doy).

Lemma date_of_props dp :
  exists_date (date_of dp) /\ days_of (yr (date_of dp)) (mo (date_of dp)) (dy (date_of dp)) = dp.
Proof.
  unfold date_of. cbv zeta. set (z := dp + 719468).
  assert (HD : 0 <= z - z / 146097 * 146097 <= 146096) by div_lia.
  set (doe := z - z / 146097 * 146097) in *. set (era := z / 146097) in *.
  assert (Ez : z = era * 146097 + doe) by (unfold doe; lia). clearbody doe era.
  pose proof (yoe_bound doe HD) as HY. pose proof (doy_low doe HD) as HL. pose proof (doy_high doe HD) as HH.
  assert (HDoy : 0 <= doy_of doe <= 365) by lia.
  pose proof (mp_bound _ HDoy) as HM. pose proof (d_bound _ HDoy) as (HDd & HD11 & HD30).
  assert (Edoy : doe = 365 * yoe_of doe + yoe_of doe / 4 - yoe_of doe / 100 + doy_of doe) by (unfold doy_of; lia).
  set (yoe := yoe_of doe) in *. set (doy := doy_of doe) in *. clearbody yoe doy.
  assert (Ed : d_of doy = doy - (153 * mp_of doy + 2) / 5 + 1) by reflexivity.
  assert (Hm : mp (m_of doy) = mp_of doy /\ 1 <= m_of doy <= 12 /\
               (if m_of doy <=? 2 then 1 else 0) = (if mp_of doy <? 10 then 0 else 1)).
  { unfold mp, m_of. destruct (Z.ltb_spec (mp_of doy) 10).
    - destruct (mp_of doy + 3 >? 2) eqn:E; [|lia]. destruct (Z.leb_spec (mp_of doy + 3) 2); lia.
    - destruct (mp_of doy - 9 >? 2) eqn:E; [lia|]. destruct (Z.leb_spec (mp_of doy - 9) 2); lia. }
  destruct Hm as (Hmp & Hm & Hy). cbn [yr mo dy]. rewrite Hy. split.
  - rewrite exists_date_spec. cbn [yr mo dy]. split; [exact Hm|]. split; [lia|].
    unfold mlen. unfold m_of in *.
    destruct (Z.ltb_spec (mp_of doy) 10) as [B|B].
    + destruct (Z.eqb_spec (mp_of doy + 3) 2); [lia|].
      destruct (Z.eqb_spec (mp_of doy + 3) 4), (Z.eqb_spec (mp_of doy + 3) 6), (Z.eqb_spec (mp_of doy + 3) 9),
        (Z.eqb_spec (mp_of doy + 3) 11); cbn [orb]; lia.
    + destruct (Z.eqb_spec (mp_of doy - 9) 2) as [E2|N2].
      * destruct (HD11 ltac:(lia)) as [D29 D29']. destruct (Z.eq_dec (d_of doy) 29) as [E29|N29].
        -- assert (leapb (yoe + era * 400 + 1) = true); [|now rewrite H; lia].
           destruct HH as [HH|(_ & H4 & H100)]; [lia|]. unfold leapb.
           replace (yoe + era * 400 + 1) with (yoe + 1 + era * 100 * 4) at 1 by lia. rewrite Z_mod_plus_full, H4.
           replace (yoe + era * 400 + 1) with (yoe + 1 + era * 4 * 100) at 1 by lia. rewrite Z_mod_plus_full.
           replace (yoe + era * 400 + 1) with (yoe + 1 + era * 400) by lia. rewrite Z_mod_plus_full.
           destruct H100 as [H100|H100].
           ++ destruct (Z.eqb_spec ((yoe + 1) mod 100) 0); [contradiction|reflexivity].
           ++ rewrite H100. reflexivity.
        -- destruct (leapb _); lia.
      * destruct (Z.eqb_spec (mp_of doy - 9) 4), (Z.eqb_spec (mp_of doy - 9) 6), (Z.eqb_spec (mp_of doy - 9) 9),
          (Z.eqb_spec (mp_of doy - 9) 11); cbn [orb]; lia.
  - unfold days_of. rewrite Hmp.
    assert (Emy : my (yoe + era * 400 + (if mp_of doy <? 10 then 0 else 1)) (m_of doy) = yoe + era * 400).
    { unfold my. rewrite Hy. lia. }
    rewrite Emy.
    replace ((yoe + era * 400) / 4) with (era * 100 + yoe / 4).
    2:{ replace (yoe + era * 400) with (yoe + era * 100 * 4) by lia. rewrite Z_div_plus_full by lia. lia. }
    replace ((yoe + era * 400) / 100) with (era * 4 + yoe / 100).
    2:{ replace (yoe + era * 400) with (yoe + era * 4 * 100) by lia. rewrite Z_div_plus_full by lia. lia. }
    rewrite Z_div_plus_full by lia. rewrite (Z.div_small yoe 400) by lia.
    unfold z in Ez. lia.
Qed.

Lemma date_of_year dp : first_day_number <= dp <= last_day_number -> year_in_range (yr (date_of dp)).
Proof.
  intros H. destruct (date_of_props dp) as [E D]. unfold year_in_range.
  assert (X1 : exists_date (YMD (-32767) 1 1)) by (apply exists_date_spec; cbn [yr mo dy]; change (mlen (-32767) 1) with 31; lia).
  assert (X2 : exists_date (YMD 32767 12 31)) by (apply exists_date_spec; cbn [yr mo dy]; change (mlen 32767 12) with 31; lia).
  assert (V1 : days_of (-32767) 1 1 = first_day_number) by reflexivity.
  assert (V2 : days_of 32767 12 31 = last_day_number) by reflexivity.
  pose proof (number_order _ _ E X1) as O1. pose proof (number_order _ _ X2 E) as O2. cbn [yr mo dy] in O1, O2.
  rewrite D in O1, O2. unfold earlier in O1, O2. cbn [yr mo dy] in O1, O2.
  split; apply Z.nlt_ge; intros N.
  - assert (dp < days_of (-32767) 1 1) by (apply O1; left; lia). lia.
  - assert (days_of 32767 12 31 < dp) by (apply O2; left; lia). lia.
Qed.

Lemma from_days_raw dp : -2147483648 <= dp <= 2147483647 - 719468 ->
  from_days dp = Ok (YMD (year (yr (date_of dp))) (mo (date_of dp)) (dy (date_of dp))).
Proof.
  intros H. unfold from_days, date_of. cbv zeta. cbn [yr mo dy].
  rewrite int_ok by lia. cbn [bind]. set (z := dp + 719468).
  change 146096 with (146097 - 1) at 1. rewrite num_ok by lia. cbn [bind]. rewrite quot_floor by lia.
  assert (HE : -14700 <= z / 146097 <= 14700) by (unfold z; div_lia).
  rewrite int_ok by (unfold z; div_lia). cbn [bind].
  assert (HD : 0 <= z - z / 146097 * 146097 <= 146096) by div_lia.
  rewrite int_ok by lia. cbn [bind]. rewrite (uns_id (z - _)) by lia.
  set (era := z / 146097) in *. set (doe := z - era * 146097) in *. clearbody era doe.
  assert (B1 : 0 <= doe / 1460 <= 101) by div_lia. assert (B2 : 0 <= doe / 36524 <= 4) by div_lia.
  assert (B3 : 0 <= doe / 146096 <= 1) by div_lia.
  assert (B4 : 0 <= doe - doe / 1460) by div_lia. assert (B5 : 0 <= doe - doe / 1460 + doe / 36524 - doe / 146096) by div_lia.
  rewrite (uns_id (doe - doe / 1460)) by lia. rewrite (uns_id (doe - doe / 1460 + doe / 36524)) by lia.
  rewrite (uns_id (doe - doe / 1460 + doe / 36524 - doe / 146096)) by lia. fold (yoe_of doe).
  pose proof (yoe_bound doe HD) as HY. pose proof (doy_low doe HD) as HL. pose proof (doy_high doe HD) as HH.
  assert (HDoy : 0 <= doy_of doe <= 365) by lia.
  rewrite int_ok by lia. cbn [bind]. rewrite conv_int by lia. rewrite int_ok by lia. cbn [bind].
  assert (C1 : 0 <= yoe_of doe / 4 <= 99) by div_lia. assert (C2 : 0 <= yoe_of doe / 100 <= 3) by div_lia.
  assert (C3 : 0 <= 365 * yoe_of doe + yoe_of doe / 4 - yoe_of doe / 100) by div_lia.
  rewrite (uns_id (365 * yoe_of doe)) by lia. rewrite (uns_id (365 * yoe_of doe + yoe_of doe / 4)) by lia.
  rewrite (uns_id (365 * yoe_of doe + yoe_of doe / 4 - yoe_of doe / 100)) by lia.
  fold (doy_of doe). rewrite (uns_id (doy_of doe)) by lia.
  set (doy := doy_of doe) in *. clearbody doy.
  rewrite (uns_id (5 * doy)) by lia. rewrite (uns_id (5 * doy + 2)) by lia. fold (mp_of doy).
  pose proof (mp_bound _ HDoy) as HM. pose proof (d_bound _ HDoy) as (HDd & _ & _).
  rewrite (uns_id (153 * mp_of doy)) by lia. rewrite (uns_id (153 * mp_of doy + 2)) by lia.
  assert (C4 : 0 <= doy - (153 * mp_of doy + 2) / 5) by (unfold d_of in HDd; lia).
  assert (C5 : 0 <= (153 * mp_of doy + 2) / 5) by div_lia.
  rewrite (uns_id (doy - _)) by lia. fold (d_of doy). rewrite (uns_id (d_of doy)) by lia.
  replace (if mp_of doy <? 10 then uns (mp_of doy + 3) else uns (mp_of doy - 9)) with (m_of doy).
  2:{ unfold m_of. destruct (Z.ltb_spec (mp_of doy) 10); symmetry; apply uns_id; lia. }
  assert (Hm : 1 <= m_of doy <= 12) by (unfold m_of; destruct (Z.ltb_spec (mp_of doy) 10); lia).
  rewrite int_ok by (destruct (m_of doy <=? 2); lia). cbn [bind].
  unfold month, day. rewrite !byte_id by lia. reflexivity.
Qed.

Lemma from_days_ok dp : first_day_number <= dp <= last_day_number -> from_days dp = Ok (date_of dp).
Proof.
  intros H. pose proof (date_of_year dp H) as Y. unfold year_in_range in Y.
  unfold first_day_number, last_day_number in H. rewrite from_days_raw by lia. rewrite year_id by lia.
  now destruct (date_of dp).
Qed.

Lemma to_days_ok x : in_calendar x -> to_days x = Ok (days_of (yr x) (mo x) (dy x)).
Proof.
  intros (Y & E). unfold year_in_range in Y. apply exists_date_spec in E. destruct E as (M & D).
  pose proof (mlen_bound (yr x) (mo x)). apply to_days_formula; lia.
Qed.
Lemma in_calendar_number x : in_calendar x ->
  first_day_number <= days_of (yr x) (mo x) (dy x) <= last_day_number.
Proof.
  intros (Y & E). unfold year_in_range in Y.
  assert (X1 : exists_date (YMD (-32767) 1 1)) by (apply exists_date_spec; cbn [yr mo dy]; change (mlen (-32767) 1) with 31; lia).
  assert (X2 : exists_date (YMD 32767 12 31)) by (apply exists_date_spec; cbn [yr mo dy]; change (mlen 32767 12) with 31; lia).
  assert (V1 : days_of (-32767) 1 1 = first_day_number) by reflexivity.
  assert (V2 : days_of 32767 12 31 = last_day_number) by reflexivity.
  pose proof (number_order _ _ E X1) as O1. pose proof (number_order _ _ X2 E) as O2. cbn [yr mo dy] in O1, O2.
  rewrite <- V1, <- V2. pose proof (proj1 (exists_date_spec x) E) as (M & D).
  split; apply Z.nlt_ge; intros N.
  - apply O1 in N. unfold earlier in N. cbn [yr mo dy] in N. lia.
  - apply O2 in N. unfold earlier in N. cbn [yr mo dy] in N.
    assert (mo x = 12 /\ yr x = 32767) as [E1 E2] by lia. rewrite E1, E2 in D. change (mlen 32767 12) with 31 in D. lia.
Qed.
Lemma date_of_calendar dp : first_day_number <= dp <= last_day_number -> in_calendar (date_of dp).
Proof. intros H. split; [now apply date_of_year|]. apply date_of_props. Qed.
Lemma date_of_number x : exists_date x -> date_of (days_of (yr x) (mo x) (dy x)) = x.
Proof. intros E. destruct (date_of_props (days_of (yr x) (mo x) (dy x))) as [E' D]. now apply number_inj. Qed.

Lemma date_of_next dp : next (date_of dp) (date_of (dp + 1)).
Proof.
  destruct (date_of_props dp) as [E D]. destruct (next_total _ E) as (y & N).
  pose proof (next_number _ _ N) as F. rewrite D in F. destruct (next_exists _ _ N) as [_ Y].
  assert (y = date_of (dp + 1)) as <-; [|exact N].
  destruct (date_of_props (dp + 1)) as [E' D']. apply number_inj; auto. lia.
Qed.
Lemma date_of_later dp n : later n (date_of dp) (date_of (dp + Z.of_nat n)).
Proof.
  induction n as [|n IH].
  - replace (dp + Z.of_nat 0) with dp by lia. constructor.
  - econstructor; [exact IH|]. replace (dp + Z.of_nat (S n)) with (dp + Z.of_nat n + 1) by lia. apply date_of_next.
Qed.
Lemma later_number n x y : later n x y ->
  days_of (yr y) (mo y) (dy y) = days_of (yr x) (mo x) (dy x) + Z.of_nat n.
Proof. induction 1 as [x|n x y z _ IH N]; [lia|]. apply next_number in N. lia. Qed.
Lemma date_of_epoch : date_of 0 = epoch.
Proof. reflexivity. Qed.
