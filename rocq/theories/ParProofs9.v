(** Any input: from the variables to a date and a time, without overflow. *)
From Verif Require Import Base IntModel DateModel DateSpec DateProofs DateProofs2 FmtModel FmtSpec FmtProofs2 ToNumModel ParModel ParSpec ParProofs7 ParProofs8.
Local Open Scope Z_scope.
Local Open Scope outcome_scope.

Definition safe {A : Type} (R : A -> Prop) (o : outcome A) : Prop := o = Throw RuntimeError \/ exists a, o = Ok a /\ R a.
Lemma safe_ok {A : Type} (R : A -> Prop) a : R a -> safe R (Ok a). Proof. intros H. right. eauto. Qed.
Lemma safe_broken {A : Type} (R : A -> Prop) : safe R broken. Proof. now left. Qed.
Lemma safe_bind {A B : Type} (Q : A -> Prop) (R : B -> Prop) o f : safe Q o -> (forall a, Q a -> safe R (f a)) -> safe R (x <- o ;; f x).
Proof. intros [->|(a & -> & H)] F; [now left|]. cbn [bind]. auto. Qed.

Lemma safe_mono {A : Type} (Q R : A -> Prop) o : (forall a, Q a -> R a) -> safe Q o -> safe R o.
Proof. intros H [->|(a & -> & K)]; [now left|right; eauto]. Qed.

(** Years that can be read *)
Definition yrange (Y : Z) : Prop := -10010 <= Y <= 10010.
Definition yopt (Y : Z) : Prop := Y = -32768 \/ yrange Y.
Definition small (z : Z) : Prop := -99 <= z <= 99.
Definition near (n : Z) : Prop := -4500000 <= n <= 3100000.
Lemma two_digit_safe yy Y C : yy = 100 \/ small yy -> Y = -32768 \/ -9999 <= Y <= 9999 -> C = -327 \/ -100 <= C <= 99 ->
  safe (fun r => (fst r = -32768 \/ -10000 <= fst r <= 9999) /\ (snd r = -327 \/ -100 <= snd r <= 99)) (two_digit yy Y C (-32768) (-327)).
Proof.
  intros HY HYY HC. unfold two_digit, small in *. destruct (Z.eqb_spec yy 100) as [->|N].
  { apply safe_ok. cbn [fst snd]. lia. }
  destruct ((0 <=? yy) && (yy <=? 99)) eqn:R; [|apply safe_broken]. cbn [negb]. apply andb_prop in R. rewrite !Z.leb_le in R.
  eapply (safe_bind (fun c => -100 <= c <= 99)).
  { destruct (Z.eqb_spec C (-327)); [|apply safe_ok; lia]. destruct (Z.eqb_spec Y (-32768)); [destruct (yy >=? 69); apply safe_ok; lia|].
    destruct (Z.geb_spec Y 0).
    - cbn [bind]. apply safe_ok. pose proof (Z.quot_pos Y 100). pose proof (Z.quot_lt_upper_bound Y 100 100). lia.
    - rewrite int_ok by lia. cbn [bind]. apply safe_ok.
      pose proof (Z.quot_opp_l (Y - 100) 100 ltac:(lia)). pose proof (Z.quot_pos (- (Y - 100)) 100). pose proof (Z.quot_lt_upper_bound (- (Y - 100)) 100 101). lia. }
  intros c HC'.
  eapply (safe_bind (fun y => -10000 <= y <= 9999)).
  { destruct (Z.geb_spec c 0).
    - rewrite int_ok by lia. cbn [bind]. rewrite int_ok by lia. apply safe_ok. lia.
    - rewrite int_ok by lia. cbn [bind]. rewrite int_ok by lia. cbn [bind]. destruct (yy =? 0) eqn:E; [|apply Z.eqb_neq in E]; rewrite int_ok by lia; apply safe_ok; lia. }
  intros y HY'. destruct (negb (Y =? -32768) && negb (Y =? y)); [apply safe_broken|]. apply safe_ok. cbn [fst snd]. lia.
Qed.
Lemma jan1_near y : yrange y -> -4376000 <= jan1 y <= 2937000.
Proof.
  unfold yrange. intros H.
  assert (J1 : jan1 (-10011) = -4375956 \/ True) by auto.
  assert (jan1 (-10011) <= jan1 y <= jan1 10011).
  { pose proof (jan1_mono (-10011) y). pose proof (jan1_mono y 10011). lia. }
  assert (E1 : -4376000 <= jan1 (-10011)) by (vm_compute; discriminate). assert (E2 : jan1 10011 <= 2937000) by (vm_compute; discriminate). lia.
Qed.
(** The day [n] lies in a year that can be handled *)
Lemma from_near n : near n -> from_days n = Ok (date_of n) /\ exists_date (date_of n) /\ -32765 <= yr (date_of n) <= 32766.
Proof.
  unfold near. intros H. rewrite from_days_ok by (unfold first_day_number, last_day_number; lia). split; [reflexivity|].
  pose proof (date_of_props n) as [E D]. split; [exact E|]. pose proof (year_bounds _ E) as B. rewrite num_date_of in B.
  assert (A1 : jan1 (-12000) < -4500000) by (vm_compute; reflexivity). assert (A2 : 3100000 < jan1 12000) by (vm_compute; reflexivity).
  split.
  - destruct (Z_lt_le_dec (yr (date_of n)) (-32765)); [|lia]. pose proof (jan1_mono (yr (date_of n) + 1) (-12000) ltac:(lia)). lia.
  - destruct (Z_lt_le_dec 32766 (yr (date_of n))); [|lia]. pose proof (jan1_mono 12000 (yr (date_of n)) ltac:(lia)). lia.
Qed.
Lemma year_of_day n lo hi : jan1 lo <= n < jan1 (hi + 1) -> lo <= yr (date_of n) <= hi.
Proof.
  intros H. pose proof (date_of_props n) as [E D]. pose proof (year_bounds _ E) as B. rewrite num_date_of in B. set (y := yr (date_of n)) in *. clearbody y.
  split.
  - destruct (Z_lt_le_dec y lo) as [L|]; [|lia]. destruct (Z.eq_dec (y + 1) lo) as [<-|]; [lia|]. pose proof (jan1_mono (y + 1) lo ltac:(lia)). lia.
  - destruct (Z_lt_le_dec hi y) as [L|]; [|lia]. destruct (Z.eq_dec (hi + 1) y) as [<-|]; [lia|]. pose proof (jan1_mono (hi + 1) y ltac:(lia)). lia.
Qed.
Lemma exists_md x : exists_date x -> 1 <= mo x <= 12 /\ 1 <= dy x <= 31.
Proof. intros E. apply exists_date_spec in E. pose proof (mlen_bound (yr x) (mo x)). lia. Qed.
Lemma week_date_safe st n wd first : near (st - 7) -> near (st + 700) -> 0 <= n <= 99 -> 0 <= wd <= 6 -> 0 <= first <= 6 ->
  exists q, week_date st n wd first = Ok (date_of q) /\ st - 7 <= q <= st + 699.
Proof.
  unfold near. intros N1 N2 HN HW HF. unfold week_date. rewrite int_ok by lia. cbn [bind]. rewrite int_ok by lia. cbn [bind]. rewrite int_ok by lia. cbn [bind].
  assert (EW : weekday (uns wd) = wd).
  { unfold weekday. rewrite uns_id by lia. destruct (Z.eqb_spec wd 7); [lia|]. now rewrite byte_id by lia. }
  rewrite EW, weekday_diff_eq by lia. cbn [bind]. pose proof (Z.mod_pos_bound (wd - first) 7 ltac:(lia)). rewrite int_ok by lia. cbn [bind].
  destruct (from_near (st + 7 * (n - 1) + (wd - first) mod 7) ltac:(unfold near; lia)) as [-> _]. eexists. split; [reflexivity|lia].
Qed.
Lemma agree_safe Y m d x b : yopt Y -> small m -> small d -> (Y = -32768 -> yrange (yr x)) -> exists_date x ->
  safe (fun r => yopt (fst (fst r)) /\ (Y <> -32768 -> fst (fst r) = Y) /\ small (snd (fst r)) /\ small (snd r)) (agree Y m d x b).
Proof.
  intros HY HM HD HX E. pose proof (exists_md x E) as [M D]. unfold agree. change (nav FY) with (-32768).
  eapply (safe_bind (fun y => yopt y /\ (Y <> -32768 -> y = Y))).
  { destruct (Z.eqb_spec Y (-32768)); [apply safe_ok; split; [right; auto|congruence]|]. destruct (b && _); [apply safe_broken|apply safe_ok; auto]. }
  intros y [Hy Hy2]. eapply (safe_bind small).
  { destruct (m =? 0); [apply safe_ok; unfold small; lia|]. destruct (negb _); [apply safe_broken|apply safe_ok; auto]. }
  intros m1 Hm. eapply (safe_bind small).
  { destruct (d =? 0); [apply safe_ok; unfold small; lia|]. destruct (negb _); [apply safe_broken|apply safe_ok; auto]. }
  intros d1 Hd. apply safe_ok. cbn [fst snd]. auto.
Qed.
Lemma vget v : vok v -> (v FY = -32768 \/ -9999 <= v FY <= 9999) /\ (v FG = -32768 \/ -9999 <= v FG <= 9999) /\
  (v Fy = 100 \/ small (v Fy)) /\ (v Fg = 100 \/ small (v Fg)) /\ (v FC = -327 \/ -100 <= v FC <= 99) /\ small (v Fm) /\ small (v Fd) /\
  (v Fj = -1 \/ 0 <= v Fj <= 999) /\ (v Fwd = 8 \/ 0 <= v Fwd <= 6) /\ (v FU = 100 \/ 0 <= v FU <= 99) /\ (v FV = 100 \/ 0 <= v FV <= 99) /\ (v FW = 100 \/ 0 <= v FW <= 99).
Proof.
  intros V. unfold small.
  pose proof (V FY); pose proof (V FG); pose proof (V Fy); pose proof (V Fg); pose proof (V FC); pose proof (V Fm); pose proof (V Fd); pose proof (V Fj); pose proof (V Fwd); pose proof (V FU); pose proof (V FV); pose proof (V FW).
  cbn [nav rng] in *. lia.
Qed.
Definition stage (r : Z * Z * Z) : Prop := yopt (fst (fst r)) /\ small (snd (fst r)) /\ small (snd r).
Lemma uw_safe Y m d n wd first : stage (Y, m, d) -> n = 100 \/ 0 <= n <= 99 -> wd = 8 \/ 0 <= wd <= 6 -> first = 0 \/ first = 1 ->
  safe stage (if negb (Y =? -32768) && negb (n =? 100) && negb (wd =? 8) then
     st <- ymw_to_days (YMW (year Y) 1 first 1) ;; x <- week_date st n wd first ;; agree Y m d x true else Ok (Y, m, d)).
Proof.
  intros (HY & HM & HD) HN HW HF. cbn [fst snd] in *. destruct (_ && _) eqn:EV; [|apply safe_ok; now split].
  rewrite !andb_true_iff, !negb_true_iff, !Z.eqb_neq in EV. destruct EV as [[E1 E2] E3]. destruct HY as [HY|HY]; [congruence|]. pose proof (jan1_near Y HY) as J. unfold yrange in HY.
  rewrite year_id by lia. rewrite ymw_to_days_eq by (unfold year_in_range; lia). cbn [bind]. fold (jan1 Y).
  pose proof (Z.mod_pos_bound (first - weekday_of (jan1 Y)) 7 ltac:(lia)). set (st := jan1 Y + _). assert (HS : jan1 Y <= st <= jan1 Y + 7) by (unfold st; lia). clearbody st.
  destruct (week_date_safe st n wd first) as (q & -> & Q); [unfold near; lia|unfold near; lia|lia|lia|lia|]. cbn [bind].
  destruct (from_near q ltac:(unfold near; lia)) as (_ & EX & _).
  eapply safe_mono; [|apply agree_safe; auto]; [intros [[a b] c]; unfold stage; cbn [fst snd]; tauto|right; unfold yrange; lia|congruence].
Qed.
Lemma uw_ok x first : exists_date x -> yrange (yr x) -> first = 0 \/ first = 1 -> exists q, ymw_to_days (YMW (yr x) 1 first 1) = Ok q /\ near q.
Proof.
  intros E HY HF. pose proof (jan1_near _ HY) as J. unfold yrange in HY. rewrite ymw_to_days_eq by (unfold year_in_range; lia). fold (jan1 (yr x)).
  pose proof (Z.mod_pos_bound (first - weekday_of (jan1 (yr x))) 7 ltac:(lia)). eexists. split; [reflexivity|]. unfold near. lia.
Qed.
Lemma uw_check n first x k : exists_date x -> yrange (yr x) -> near n -> first = 0 \/ first = 1 ->
  safe (fun _ => True) (if negb (k =? 100) then
     st <- ymw_to_days (YMW (yr x) 1 first 1) ;; q <- int_ (n - st) ;; fl <- dur_floor int_t 7 q ;; if negb (k =? fl + 1) then broken else Ok tt else Ok tt).
Proof.
  intros E HY HN HF. destruct (negb (k =? 100)); [|now apply safe_ok]. destruct (uw_ok x first E HY HF) as (q & -> & Q). cbn [bind]. unfold near in *. rewrite int_ok by lia. cbn [bind].
  rewrite floor_eq; [cbn [bind]; destruct (negb _); [apply safe_broken|now apply safe_ok]|..]; try first [reflexivity | lia | (unfold in_range, imin, imax; cbn [sgn wid int_t]; change (2 ^ (32 - 1)) with 2147483648; lia)].
  unfold is_ity. cbn. auto.
Qed.
Lemma resolve_date_safe v : vok v ->
  safe (fun r => let '(x, wd, j) := r in ((yr x = -32768 \/ yrange (yr x)) /\ 0 <= mo x /\ 0 <= dy x) /\ (wd = 8 \/ 0 <= wd <= 6) /\ (j = -1 \/ 0 <= j <= 999)) (resolve_date v).
Proof.
  intros V. destruct (vget v V) as (BY & BG & By & Bg & BC & Bm & Bd & Bj & Bw & BU & BV & BW). clear V. unfold resolve_date. change (nav FY) with (-32768). change (nav FG) with (-32768). change (nav FC) with (-327).
  eapply safe_bind; [apply two_digit_safe; assumption|]. intros [Y C] [HY HC]. cbn [fst snd] in HY, HC.
  eapply safe_bind; [apply two_digit_safe; assumption|]. intros [G C'] [HG _]. cbn [fst snd] in HG. clear HC C C'.
  set (Y0 := if (Y <? -32767) || (Y >? 32767) then -32768 else Y). assert (H0 : yopt Y0) by (unfold Y0, yopt, yrange; destruct ((Y <? -32767) || (Y >? 32767)); lia). clearbody Y0. clear HY Y.
  set (useV := negb (G =? -32768) && _ && _).
  eapply (safe_bind stage).
  { destruct useV eqn:EV; [|apply safe_ok; unfold stage; auto]. unfold useV in EV. rewrite !andb_true_iff, !negb_true_iff, !Z.eqb_neq in EV. destruct EV as [[E1 E2] E3].
    rewrite int_ok by lia. cbn [bind]. rewrite year_id by lia. rewrite wlast_eq by (unfold year_in_range; lia). cbn [bind].
    change (mlen (G - 1) 12) with 31. rewrite dec31. replace (G - 1 + 1) with G by lia. rewrite weekday_diff_eq by lia. cbn [bind]. change ((1 - 4) mod 7) with 4.
    pose proof (jan1_near G ltac:(unfold yrange; lia)) as J. pose proof (Z.mod_pos_bound (weekday_of (jan1 G - 1) - 4) 7 ltac:(lia)) as MM.
    set (st := jan1 G - 1 - (weekday_of (jan1 G - 1) - 4) mod 7 + 4).
    rewrite int_ok by lia. cbn [bind]. fold st. assert (HS : jan1 G - 7 <= st <= jan1 G + 3) by (unfold st; lia). clearbody st.
    destruct (week_date_safe st (v FV) (v Fwd) 1) as (q & -> & Q); [unfold near; lia|unfold near; lia|lia|lia|lia|]. cbn [bind].
    destruct (from_near q ltac:(unfold near; lia)) as (_ & EX & _).
    eapply safe_mono; [|apply agree_safe; auto]; [intros [[a b] c]; unfold stage; cbn [fst snd]; tauto|].
    intros _. pose proof (year_of_day q (G - 1) (G + 2)) as K. unfold yrange.
    pose proof (jan1_mono (G - 1) G ltac:(lia)). pose proof (jan1_mono G (G + 1) ltac:(lia)). pose proof (jan1_mono (G + 1) (G + 2) ltac:(lia)). pose proof (jan1_mono (G + 2) (G + 2 + 1) ltac:(lia)). lia. }
  clearbody useV. intros [[Y1 m1] d1] H1. cbv zeta.
  eapply safe_bind; [apply uw_safe; auto|]. intros [[Y2 m2] d2] H2.
  eapply safe_bind; [apply uw_safe; auto|]. intros [[Y3 m3] d3] H3. clear H1 H2 m1 d1 m2 d2.
  set (useJ := negb (v Fj =? -1) && _).
  eapply (safe_bind stage).
  { destruct useJ eqn:EJ; [|now apply safe_ok]. unfold useJ in EJ. rewrite !andb_true_iff, !negb_true_iff, !Z.eqb_neq in EJ. destruct EJ as [E1 E2].
    destruct H3 as ([HY|HY] & HM & HD); cbn [fst snd] in *; [congruence|]. pose proof (jan1_near _ HY) as J. unfold yrange in HY.
    rewrite year_id by lia. rewrite to_days_ok by (split; [unfold year_in_range; cbn [yr]; lia|apply jan1_exists]). cbn [bind yr mo dy]. fold (jan1 Y3).
    rewrite int_ok by lia. cbn [bind]. rewrite int_ok by lia. cbn [bind]. destruct (from_near (jan1 Y3 + (v Fj - 1)) ltac:(unfold near; lia)) as (-> & EX & _). cbn [bind].
    eapply safe_mono; [|apply agree_safe; auto]; [intros [[a b] c]; unfold stage; cbn [fst snd]; tauto|right; unfold yrange; lia|congruence]. }
  intros [[Y4 m4] d4] (HY & HM & HD). cbn [fst snd] in *. clear H3. clearbody useJ.
  assert (EY : year Y4 = Y4) by (apply year_id; unfold yopt, yrange in HY; lia). rewrite EY.
  set (x := YMD Y4 (month (uns m4)) (day (uns d4))).
  assert (MD : 0 <= mo x /\ 0 <= dy x).
  { unfold x. cbn [mo dy]. unfold month, day, conv. cbn [sgn wid andb]. change (2 ^ 8) with 256. pose proof (Z.mod_pos_bound (uns m4) 256). pose proof (Z.mod_pos_bound (uns d4) 256). lia. }
  eapply (safe_bind (fun wd => wd = 8 \/ 0 <= wd <= 6)).
  { destruct (ymd_ok x) eqn:OK; [|now apply safe_ok].
    apply ymd_ok_spec in OK; [|unfold x; cbn [yr]; unfold yopt, yrange in HY; lia|apply MD|apply MD].
    rewrite to_days_ok by exact OK. cbn [bind]. fold (num x). destruct OK as [OY EX].
    assert (HX : yrange (yr x)) by (unfold x in *; cbn [yr] in *; unfold year_in_range in OY; destruct HY; [lia|assumption]).
    pose proof (year_bounds x EX) as YB. pose proof (jan1_near _ HX) as J. pose proof (jan1_succ (yr x)) as JS. assert (NX : near (num x)) by (unfold near; lia).
    rewrite weekday_from_days_eq by (unfold is_int; unfold near in NX; lia). rewrite weekday_diff_eq by (try lia; unfold weekday_of; pose proof (Z.mod_pos_bound (num x + 4) 7); lia). cbn [bind].
    rewrite Z.sub_0_r. set (e := weekday_of (num x) mod 7). assert (HE : 0 <= e <= 6) by (unfold e; pose proof (Z.mod_pos_bound (weekday_of (num x)) 7); lia). clearbody e.
    destruct (negb (v Fwd =? 8) && negb (v Fwd =? e)); [apply safe_broken|].
    eapply (safe_bind (fun _ => True)).
    { destruct (negb (_ || _ || _)); [|now apply safe_ok].
      eapply (safe_bind (fun _ => True)).
      { destruct (negb (G =? -32768) || negb (v FV =? 100)); [|now apply safe_ok].
        rewrite (iso_year_eq x EX) by (unfold yrange in HX; lia). cbn [bind]. destruct (negb (G =? -32768) && _); [apply safe_broken|]. destruct (negb (v FV =? 100)); [|now apply safe_ok].
        assert (is : -5000000 <= iso1 (isoy (num x)) <= 5000000).
        { pose proof (isoy_near x EX) as GN. assert (GR : yrange (isoy (num x)) \/ isoy (num x) = -10011 \/ isoy (num x) = 10011) by (unfold yrange in *; lia).
          unfold iso1, offset_to. pose proof (Z.mod_pos_bound (4 - weekday_of (jan1 (isoy (num x)))) 7 ltac:(lia)).
          destruct GR as [GR|[GR|GR]]; [pose proof (jan1_near _ GR); lia| |].
          - assert (-4376000 <= jan1 (-10011) <= 0) by (vm_compute; split; discriminate). rewrite GR in *. lia.
          - assert (0 <= jan1 10011 <= 2937000) by (vm_compute; split; discriminate). rewrite GR in *. lia. }
        unfold near in NX. rewrite int_ok by lia. cbn [bind]. destruct (negb _); [apply safe_broken|now apply safe_ok]. }
      intros _ _. eapply safe_bind; [apply (uw_check (num x) 0); auto|]. intros _ _. apply (uw_check (num x) 1); auto. }
    intros _ _. apply safe_ok. destruct (Z.eqb_spec (v Fwd) 8); lia. }
  intros wd' HW'. apply safe_ok. split; [split; [exact HY|exact MD]|]. split; [exact HW'|]. destruct useJ; [now left|exact Bj].
Qed.
Definition hrange (h : Z) : Prop := h = -2147483648 \/ 0 <= h <= 99.
Lemma resolve_hour_safe v : vok v -> safe hrange (resolve_hour v).
Proof.
  intros V. pose proof (V FH) as BH. pose proof (V FI) as BI. pose proof (V Fp) as Bp. cbn [nav rng] in *. unfold resolve_hour, hrange. change (nav FH) with (-2147483648).
  set (H := v FH) in *. set (h := v FI) in *. set (p := v Fp) in *. clearbody H h p.
  destruct (Z.eqb_spec h 0); [apply safe_ok; lia|]. destruct ((1 <=? h) && (h <=? 12)) eqn:R; [|apply safe_broken]. cbn [negb]. apply andb_prop in R. rewrite !Z.leb_le in R.
  destruct (Z.eqb_spec p (-1)); cbn [negb].
  - destruct (Z.eqb_spec H (-2147483648)); cbn [negb]; [apply safe_broken|]. destruct (Z.eqb_spec h 12).
    + destruct (negb _ && negb _); [apply safe_broken|apply safe_ok; lia].
    + rewrite int_ok by lia. cbn [bind]. destruct (negb _); [apply safe_broken|apply safe_ok; lia].
  - eapply (safe_bind (fun p' => (h = 12 /\ -1 <= p' <= 0) \/ (h <> 12 /\ 0 <= p' <= 1))).
    { destruct (Z.eqb_spec h 12); [rewrite int_ok by lia|]; apply safe_ok; lia. }
    intros p' Hp. rewrite int_ok by lia. cbn [bind]. rewrite int_ok by lia. cbn [bind].
    destruct (Z.eqb_spec H (-2147483648)); [apply safe_ok; lia|]. destruct (negb _); [apply safe_broken|apply safe_ok; lia].
Qed.

Section Tod.
Context (w : nat) (W : (w <= 7)%nat).
Let k := ticks w.
Lemma k_range : 1 <= k <= 10000000.
Proof.
  unfold k, ticks. split; [assert (0 < 10 ^ Z.of_nat w) by (apply Z.pow_pos_nonneg; lia); lia|].
  change 10000000 with (10 ^ 7). apply Z.pow_le_mono_r; lia.
Qed.
Definition tsmall (t : hms) : Prop :=
  0 <= h_ t <= 100000 /\ 0 <= m_ t <= 99 /\ -1000000000000000000 <= s_ t * k <= 1000000000000000000 /\ - k < sub_ t < k /\ neg_ t = false.
Lemma resolve_tod_safe v H j has0 : vok v -> hrange H -> j = -1 \/ 0 <= j <= 999 -> safe (fun r => tsmall (fst r)) (resolve_tod w v H j no_tod has0).
Proof.
  intros V HH HJ. pose proof k_range as K. unfold resolve_tod. change (nav FH) with (-2147483648). change (nav FM) with (-2147483648). change (nav Fs) with (-9223372036854775808).
  pose proof (V FM) as BM. pose proof (V Fs) as Bs. cbn [nav rng] in BM, Bs. fold k. cbv zeta.
  eapply (safe_bind (fun r => 0 <= h_ (fst r) <= 99 /\ 0 <= m_ (fst r) <= 99 /\ 0 <= s_ (fst r) <= 59 /\ 0 <= sub_ (fst r) < k /\ neg_ (fst r) = false)).
  { destruct (Z.eqb_spec H (-2147483648)); cbn [negb]; [apply safe_ok; cbn; lia|]. unfold hrange in HH. destruct HH as [|HH]; [congruence|].
    rewrite ll_ok by nia. cbn [bind]. destruct (hms_props k (H * (3600 * k)) ltac:(lia) ltac:(nia)) as (t & -> & T1 & T2 & T3 & T4 & T5 & T6 & _). cbn [bind]. apply safe_ok. cbn [fst].
    assert (neg_ t = false) by (rewrite T5; apply Z.ltb_ge; nia). rewrite Z.abs_eq in T6 by nia. split; [split; [lia|nia]|]. split; [lia|]. auto. }
  intros [t1 has1] (A1 & A2 & A3 & A4 & A5). cbn [fst] in *.
  set (t2 := if negb (v FM =? -2147483648) then (HMS (h_ t1) (v FM) (s_ t1) (sub_ t1) (neg_ t1), true) else (t1, has1)).
  assert (T2 : 0 <= h_ (fst t2) <= 99 /\ 0 <= m_ (fst t2) <= 99 /\ 0 <= s_ (fst t2) <= 59 /\ 0 <= sub_ (fst t2) < k /\ neg_ (fst t2) = false).
  { unfold t2. destruct (Z.eqb_spec (v FM) (-2147483648)); cbn [negb fst h_ m_ s_ sub_ neg_]; [auto|]. intuition lia. }
  clearbody t2. destruct t2 as [t2 has2]. cbn [fst] in T2. clear A1 A2 A3 A4 A5. destruct T2 as (A1 & A2 & A3 & A4 & A5).
  eapply (safe_bind (fun r => 0 <= h_ (fst r) <= 99 /\ tsmall (fst r))).
  { destruct (Z.eqb_spec (v Fs) (-9223372036854775808)); cbn [negb].
    - apply safe_ok. cbn [fst]. split; [exact A1|]. unfold tsmall. split; [lia|]. split; [lia|]. split; [nia|]. split; [lia|exact A5].
    - destruct Bs as [|Bs]; [congruence|]. pose proof (Z.quot_rem (v Fs) k ltac:(lia)) as QR.
      assert (RB : - k < Z.rem (v Fs) k < k) by (pose proof (Z.rem_bound_abs (v Fs) k ltac:(lia)); lia).
      assert (B1 : -1000000000000000000 <= v Fs ÷ k * k <= 1000000000000000000).
      { destruct (Z.eq_dec (v Fs) (-1)) as [E|E].
        - rewrite E. destruct (Z.eq_dec k 1) as [->|]; [cbn; lia|]. assert (Q0 : -1 ÷ k = 0) by (apply Z.quot_small_iff; lia). rewrite Q0. lia.
        - pose proof (Z.rem_nonneg (v Fs) k ltac:(lia) ltac:(lia)). pose proof (Z.quot_pos (v Fs) k ltac:(lia) ltac:(lia)). nia. }
      rewrite ll_ok by lia. cbn [bind]. rewrite ll_ok by lia. cbn [bind]. apply safe_ok. cbn [fst h_]. split; [exact A1|]. unfold tsmall. cbn [h_ m_ s_ sub_ neg_]. repeat split; lia || auto. }
  intros [t3 has3] (B1 & B2 & B3 & B4 & B5 & B6). cbn [fst] in *. destruct (Z.eqb_spec j (-1)); cbn [negb].
  - apply safe_ok. unfold tsmall. auto.
  - rewrite ll_ok by lia. cbn [bind]. apply safe_ok. unfold tsmall. cbn [fst h_ m_ s_ sub_ neg_]. repeat split; lia || auto.
Qed.
Lemma to_duration_safe t : tsmall t -> exists d, hms_to_duration k t = Ok d /\ -1100000000000000000 <= d <= 1100000000000000000.
Proof.
  intros (A & B & C & D & E). pose proof k_range as K. unfold hms_to_duration. rewrite E.
  assert (0 <= m_ t * (60 * k) <= 59400000000) by nia. assert (0 <= h_ t * (3600 * k) <= 3600000000000000) by nia.
  repeat (rewrite ll_ok by lia; cbn [bind]). eexists. split; [reflexivity|lia].
Qed.
(** What from_stream gives *)
Definition fok (r : parsed) : Prop :=
  let f := r_fields r in
  (yr (f_ymd f) = -32768 \/ yrange (yr (f_ymd f))) /\ 0 <= mo (f_ymd f) /\ 0 <= dy (f_ymd f) /\ 0 <= f_wd f <= 8 /\ tsmall (f_tod f) /\ r_off r = nav Foff.
Lemma from_stream_safe fmt f0 s : plain fmt -> f_tod f0 = no_tod -> 0 <= f_wd f0 <= 8 -> safe fok (from_stream w fmt f0 (stream s)).
Proof.
  intros P T0 W0. destruct (front w W fmt f0 s P) as [->|(v & z & s' & V & ->)]; [now left|]. rewrite T0.
  eapply safe_bind; [apply (resolve_date_safe v V)|]. intros [[x wd] j] ((X1 & X2 & X3) & HW & HJ).
  eapply safe_bind; [apply (resolve_hour_safe v V)|]. intros H HH.
  eapply safe_bind; [apply (resolve_tod_safe v H j (f_has f0) V HH HJ)|]. intros [t has] HT. apply safe_ok. unfold fok. cbn [r_fields f_ymd f_wd f_tod r_off].
  split; [exact X1|]. split; [exact X2|]. split; [exact X3|]. split.
  - destruct (Z.eqb_spec wd 8); [exact W0|]. unfold weekday. rewrite uns_id by lia. destruct (wd =? 7); rewrite byte_id by lia; lia.
  - split; [exact HT|]. destruct (V Foff) as [|[]]. assumption.
Qed.
End Tod.
