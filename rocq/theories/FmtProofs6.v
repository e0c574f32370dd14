(** The texts of the operators << determine the values. *)
From Verif Require Import Base IntModel DateModel DateSpec DateProofs DateProofs2 StrProofs2 FmtModel FmtSpec FmtProofs FmtProofs2 FmtProofs3 FmtProofs4 FmtProofs5.
Local Open Scope Z_scope.

(** [s] does not go on with a digit *)
Definition stops (s : str) : Prop := match s with [] => True | c :: _ => ~ is_dig c end.
Ltac stops_tac := cbn [stops app lit list_ascii_of_string]; intros X; unfold is_dig in X; revert X; vm_compute; intros [X1 X2]; first [apply X1; reflexivity|apply X2; reflexivity].
Lemma split_digits a : forall b r t, Forall is_dig a -> Forall is_dig b -> stops r -> stops t ->
  a ++ r = b ++ t -> a = b /\ r = t.
Proof.
  induction a as [|c a IH]; intros [|e b] r t A B R T E; cbn [app] in E.
  - auto.
  - subst r. inversion B; subst. now destruct R.
  - subst t. inversion A; subst. now destruct T.
  - injection E as -> E. inversion A; inversion B; subst. destruct (IH b r t) as [-> ->]; auto.
Qed.
Lemma pad_dig k n : 0 <= n -> Forall is_dig (pad k n).
Proof. intros H. unfold pad. apply Forall_app. split; [apply zeros_dig|apply dec_u_dig, H]. Qed.
Lemma pad_value k n : 0 <= n -> value (pad k n) = n.
Proof. intros H. unfold pad. rewrite value_zeros. apply dec_u_dig, H. Qed.
Lemma pad_ne k n : 0 <= n -> exists c s, pad k n = c :: s /\ is_dig c.
Proof.
  intros H. pose proof (pad_dig k n H) as F. destruct (dec_u_dig n H) as (_ & _ & NE & _). unfold pad in *.
  destruct (repeat "0"%char (k - length (dec_u n)) ++ dec_u n) as [|c s] eqn:E.
  - apply app_eq_nil in E. destruct E. contradiction.
  - exists c, s. inversion F; auto.
Qed.
Lemma pad_split k n m r t : 0 <= n -> 0 <= m -> stops r -> stops t -> pad k n ++ r = pad k m ++ t -> n = m /\ r = t.
Proof.
  intros N M R T E. apply split_digits in E; auto using pad_dig. destruct E as [E ->]. split; [|reflexivity].
  rewrite <- (pad_value k n N), <- (pad_value k m M). now rewrite E.
Qed.
Lemma minus_dig : ~ is_dig "-".
Proof. unfold is_dig. change (uc "-") with 45. lia. Qed.
Lemma sgn_split k n m r t : stops r -> stops t -> sgn_str k n ++ r = sgn_str k m ++ t -> n = m /\ r = t.
Proof.
  intros R T E. unfold sgn_str in E. destruct (Z.ltb_spec n 0), (Z.ltb_spec m 0).
  - cbn [app] in E. injection E as E. apply pad_split in E; auto; try lia. destruct E. split; [lia|assumption].
  - destruct (pad_ne k m ltac:(lia)) as (c & s & Q & D). rewrite Q in E. cbn [app] in E. injection E as <- _. now apply minus_dig in D.
  - destruct (pad_ne k n ltac:(lia)) as (c & s & Q & D). rewrite Q in E. cbn [app] in E. injection E as -> _. now apply minus_dig in D.
  - apply pad_split in E; auto; lia.
Qed.
Lemma dec_sgn n : dec n = sgn_str 1 n.
Proof.
  unfold sgn_str. destruct (Z.ltb_spec n 0); [|now apply dec_pad].
  rewrite <- (dec_pad (- n)) by lia. rewrite (dec_nonneg (- n)) by lia. unfold dec. destruct (Z.ltb_spec n 0); [reflexivity|lia].
Qed.
Lemma put_right_split k n m r t : 0 <= n -> 0 <= m -> stops r -> stops t ->
  put_right "0" k n ++ r = put_right "0" k m ++ t -> n = m /\ r = t.
Proof. intros N M R T E. rewrite !put_right_pad in E by assumption. now apply pad_split in E. Qed.

(** * Numbers with a remark *)
Lemma stops_remark (b : bool) (s : str) : stops s -> stops (if b then [] else s).
Proof. destruct b; [intros _; exact I|auto]. Qed.
Lemma day_put_inj d e : 0 <= d -> 0 <= e -> day_put d = day_put e -> d = e.
Proof.
  intros D E H. unfold day_put, day_low in H. apply put_right_split in H; try assumption; [apply H| |]; apply stops_remark; stops_tac.
Qed.
Lemma year_put_inj y z : year_put y = year_put z -> y = z.
Proof. intros H. unfold year_put in H. rewrite !year_low_sgn in H. apply sgn_split in H; [apply H| |]; apply stops_remark; stops_tac. Qed.
Lemma ymd_put_split x y r t : 0 <= mo x -> 0 <= dy x -> 0 <= mo y -> 0 <= dy y -> stops r -> stops t ->
  ymd_put x ++ r = ymd_put y ++ t -> x = y /\ r = t.
Proof.
  intros A B C D R T H. unfold ymd_put in H. rewrite !dec_sgn in H. rewrite <- !app_assoc in H. cbn [app] in H.
  rewrite <- !app_assoc in H. cbn [app] in H. rewrite <- !app_assoc in H.
  apply sgn_split in H; [|stops_tac|stops_tac]. destruct H as [Y H]. injection H as H.
  apply put_right_split in H; [|assumption|assumption|stops_tac|stops_tac]. destruct H as [M H]. injection H as H.
  apply put_right_split in H; [|assumption|assumption| |].
  - destruct H as [G H]. destruct x as [x1 x2 x3], y as [y1 y2 y3]. cbn [yr mo dy] in *. subst. split; [reflexivity|]. now apply app_inv_head in H.
  - destruct (ymd_ok x); [exact R|stops_tac].
  - destruct (ymd_ok y); [exact T|stops_tac].
Qed.
Lemma ymd_put_inj x y : 0 <= mo x -> 0 <= dy x -> 0 <= mo y -> 0 <= dy y -> ymd_put x = ymd_put y -> x = y.
Proof.
  intros A B C D H. apply (ymd_put_split x y [] []); auto; try exact I. now rewrite H.
Qed.

(** * Names or numbers *)
Definition month_s (m : Z) : str := if month_ok m then short (nth (Z.to_nat (m - 1)) months []) else dec m.
Definition weekday_s (wd : Z) : str := if weekday_ok wd then short (nth (Z.to_nat wd) day_names []) else dec wd.
Lemma month_low_s m : month_low m = Ok (month_s m).
Proof.
  unfold month_low, month_s. destruct (month_ok m) eqn:E; [|reflexivity].
  unfold month_ok in E. apply andb_prop in E. rewrite !Z.leb_le in E.
  assert (C : in_calendar (YMD 2000 m 1)).
  { split; [unfold year_in_range; cbn [yr]; lia|]. apply exists_date_spec. cbn [yr mo dy]. pose proof (mlen_bound 2000 m). lia. }
  pose proof (month_same [Dir "b"%char] (YMD 2000 m 1) C) as H. cbn [mo] in H.
  assert (CV : covered (date_directive (YMD 2000 m 1)) [Dir "b"%char]) by (constructor; [now left|constructor]).
  rewrite (to_stream_ymd _ [Dir "b"%char] C CV) in H.
  change (fmt_of [Dir "b"%char]) with (!"%b") in H. rewrite H; [|constructor; [reflexivity|constructor]].
  unfold str_of. cbn [map concat item_str date_str mo]. now rewrite app_nil_r.
Qed.
Lemma weekday_low_s wd : 0 <= wd -> weekday_low wd = Ok (weekday_s wd).
Proof.
  intros P. unfold weekday_low, weekday_s. destruct (weekday_ok wd) eqn:E; [|reflexivity].
  apply Z.leb_le in E. unfold format_weekday, to_stream. cbn [fields_wd f_has bind].
  change (c_str (!"%a")) with (!"%a"). unfold run. cbn [lit list_ascii_of_string].
  change (memb "%" directives) with false. cbn [Ascii.eqb Bool.eqb orb]. change (memb "a" directives) with true.
  unfold directive. cbn [Ascii.eqb Bool.eqb NUL]. fold (fields_wd wd). rewrite extract_weekday_wd by lia. cbn [bind].
  rewrite (name_at _ _ (Z.to_nat wd + 7)) by (cbn [length weekday_names]; lia). cbn [bind].
  rewrite weekday_names_short by lia. now rewrite app_nil_r.
Qed.
Definition is_alpha (c : ascii) : Prop := 65 <= uc c.
Lemma short_months i j r t : (i < 12)%nat -> (j < 12)%nat ->
  short (nth i months []) ++ r = short (nth j months []) ++ t -> i = j /\ r = t.
Proof.
  intros A B. do 12 (destruct i as [|i]; [do 12 (destruct j as [|j]; [cbn; intros H; (discriminate || (injection H as H; auto))|]); lia|]). lia.
Qed.
Lemma short_days i j r t : (i < 7)%nat -> (j < 7)%nat ->
  short (nth i day_names []) ++ r = short (nth j day_names []) ++ t -> i = j /\ r = t.
Proof.
  intros A B. do 7 (destruct i as [|i]; [do 7 (destruct j as [|j]; [cbn; intros H; (discriminate || (injection H as H; auto))|]); lia|]). lia.
Qed.
Lemma month_head i r : (i < 12)%nat -> exists c s, short (nth i months []) ++ r = c :: s /\ is_alpha c.
Proof. intros A. do 12 (destruct i as [|i]; [eexists _, _; split; [reflexivity|vm_compute; discriminate]|]). lia. Qed.
Lemma day_head i r : (i < 7)%nat -> exists c s, short (nth i day_names []) ++ r = c :: s /\ is_alpha c.
Proof. intros A. do 7 (destruct i as [|i]; [eexists _, _; split; [reflexivity|vm_compute; discriminate]|]). lia. Qed.
Lemma dec_head n r : exists c s, dec n ++ r = c :: s /\ ~ is_alpha c.
Proof.
  rewrite dec_sgn. unfold sgn_str. destruct (Z.ltb_spec n 0).
  - eexists _, _. split; [reflexivity|]. vm_compute. intros X. now apply X.
  - destruct (pad_ne 1 n ltac:(lia)) as (c & s & -> & D). eexists _, _. split; [reflexivity|].
    unfold is_alpha, is_dig in *. lia.
Qed.
Lemma month_split m n r t : stops r -> stops t -> month_s m ++ r = month_s n ++ t -> m = n /\ r = t.
Proof.
  intros R T. unfold month_s. destruct (month_ok m) eqn:M, (month_ok n) eqn:N'; intros H;
    unfold month_ok in M, N'; try apply andb_prop in M; try apply andb_prop in N'; rewrite ?Z.leb_le in M; rewrite ?Z.leb_le in N'.
  - apply short_months in H; [|lia|lia]. destruct H. split; [lia|assumption].
  - destruct (month_head (Z.to_nat (m - 1)) r ltac:(lia)) as (c & s & E1 & A).
    destruct (dec_head n t) as (c' & s' & E2 & B). rewrite E1, E2 in H. injection H as -> _. contradiction.
  - destruct (month_head (Z.to_nat (n - 1)) t ltac:(lia)) as (c & s & E1 & A).
    destruct (dec_head m r) as (c' & s' & E2 & B). rewrite E1, E2 in H. injection H as -> _. contradiction.
  - rewrite !dec_sgn in H. now apply sgn_split in H.
Qed.
Lemma weekday_split m n r t : 0 <= m -> 0 <= n -> stops r -> stops t -> weekday_s m ++ r = weekday_s n ++ t -> m = n /\ r = t.
Proof.
  intros P Q R T. unfold weekday_s. destruct (weekday_ok m) eqn:M, (weekday_ok n) eqn:N'; intros H;
    unfold weekday_ok in M, N'; rewrite ?Z.leb_le in M; rewrite ?Z.leb_le in N'.
  - apply short_days in H; [|lia|lia]. destruct H. split; [lia|assumption].
  - destruct (day_head (Z.to_nat m) r ltac:(lia)) as (c & s & E1 & A).
    destruct (dec_head n t) as (c' & s' & E2 & B). rewrite E1, E2 in H. injection H as -> _. contradiction.
  - destruct (day_head (Z.to_nat n) t ltac:(lia)) as (c & s & E1 & A).
    destruct (dec_head m r) as (c' & s' & E2 & B). rewrite E1, E2 in H. injection H as -> _. contradiction.
  - rewrite !dec_sgn in H. now apply sgn_split in H.
Qed.
Lemma month_put_inj m n : month_put m = month_put n -> m = n.
Proof.
  unfold month_put. rewrite !month_low_s. cbn [bind]. intros H. injection H as H.
  apply month_split in H; [apply H| |]; apply stops_remark; stops_tac.
Qed.
Lemma weekday_put_inj m n : 0 <= m -> 0 <= n -> weekday_put m = weekday_put n -> m = n.
Proof.
  intros P Q. unfold weekday_put. rewrite !weekday_low_s by assumption. cbn [bind]. intros H. injection H as H.
  apply weekday_split in H; [apply H|assumption|assumption| |]; apply stops_remark; stops_tac.
Qed.
Lemma month_put_ok m : exists s, month_put m = Ok s.
Proof. unfold month_put. rewrite month_low_s. eexists. reflexivity. Qed.
Lemma weekday_put_ok m : 0 <= m -> exists s, weekday_put m = Ok s.
Proof. intros P. unfold weekday_put. rewrite weekday_low_s by exact P. eexists. reflexivity. Qed.
Lemma ym_put_inj x y : ym_put x = ym_put y -> x = y.
Proof.
  unfold ym_put. rewrite !month_low_s. cbn [bind]. intros H. injection H as H. rewrite !year_low_sgn in H.
  apply sgn_split in H; [|stops_tac|stops_tac]. destruct H as [Y H]. injection H as H.
  apply month_split in H; [|apply stops_remark; stops_tac|apply stops_remark; stops_tac].
  destruct x as [x1 x2], y as [y1 y2]. cbn [ym_year ym_month] in *. destruct H. now subst.
Qed.
Lemma ymdl_put_inj y m z n : ymdl_put y m = ymdl_put z n -> y = z /\ m = n.
Proof.
  unfold ymdl_put. rewrite !month_low_s. cbn [bind]. intros H. injection H as H. rewrite !year_low_sgn in H.
  apply sgn_split in H; [|stops_tac|stops_tac]. destruct H as [Y H]. injection H as H.
  apply month_split in H; [|stops_tac|stops_tac]. now destruct H.
Qed.
Lemma weekday_small z : 0 <= z <= 15 -> z <> 7 -> weekday z = z.
Proof.
  intros Z1 Z2. unfold weekday. destruct (Z.eqb_spec z 7); [lia|]. unfold conv. cbn [sgn wid].
  apply Z.mod_small. change (2 ^ 8) with 256. lia.
Qed.
Lemma ymw_put_inj x y s : 0 <= w_day x <= 15 -> w_day x <> 7 -> 0 <= w_day y <= 15 -> w_day y <> 7 ->
  ymw_put x = Ok s -> ymw_put y = Ok s -> x = y.
Proof.
  intros A B C D. unfold ymw_put, wdi_low. rewrite !month_low_s. cbn [bind].
  rewrite !weekday_small by assumption. rewrite !weekday_low_s by lia. cbn [bind].
  destruct (ymw_ok x) as [b| | |]; cbn [bind]; try discriminate. destruct (ymw_ok y) as [e| | |]; cbn [bind]; try discriminate.
  intros E1 E2. injection E1 as <-. injection E2 as H. rewrite !year_low_sgn in H.
  apply sgn_split in H; [|stops_tac|stops_tac]. destruct H as [Y H]. injection H as H.
  apply month_split in H; [|stops_tac|stops_tac]. destruct H as [M H]. injection H as H.
  rewrite <- !app_assoc in H. cbn [app] in H. rewrite <- !app_assoc in H.
  apply weekday_split in H; [|lia|lia|stops_tac|stops_tac]. destruct H as [WD H]. injection H as H.
  rewrite !dec_sgn in H. apply sgn_split in H; [|stops_tac|stops_tac]. destruct H as [IX _].
  destruct x as [x1 x2 x3 x4], y as [y1 y2 y3 y4]. cbn [w_year w_month w_day w_index] in *. now subst.
Qed.

(** * Times *)
Lemma clock_str_inj w d e : 0 <= d -> 0 <= e -> clock_str w d = clock_str w e -> d = e.
Proof.
  intros D E H. destruct (parts_range w d D) as (H1 & M1 & S1 & B1). destruct (parts_range w e E) as (H2 & M2 & S2 & B2).
  unfold clock_str in H. apply pad_split in H; [|lia|lia|stops_tac|stops_tac]. destruct H as [HH H]. injection H as H.
  apply pad_split in H; [|lia|lia|stops_tac|stops_tac]. destruct H as [MM H]. injection H as H.
  unfold sec_str in H.
  assert (X : seconds_of w d = seconds_of w e /\ d mod ticks w = e mod ticks w).
  { destruct w as [|w]; apply pad_split in H; try lia; try exact I; try stops_tac.
    - split; [apply H|]. change (ticks 0) with 1. now rewrite !Z.mod_1_r.
    - destruct H as [SS H]. injection H as H. split; [exact SS|].
      rewrite <- (app_nil_r (pad _ (d mod _))), <- (app_nil_r (pad _ (e mod _))) in H.
      apply pad_split in H; try exact I; [apply H|apply B1|apply B2]. }
  destruct X as [SS BB]. pose proof (ticks_pos w) as K.
  unfold hours_of, minutes_of, seconds_of in HH, MM, SS. fold (ticks w) in HH, MM, SS. set (k := ticks w) in *.
  rewrite (Z.mul_comm 3600 k) in HH. rewrite (Z.mul_comm 60 k) in MM.
  rewrite <- !Z.div_div in HH by lia. rewrite <- !Z.div_div in MM by lia.
  pose proof (Z.div_mod d k ltac:(lia)) as E1. pose proof (Z.div_mod e k ltac:(lia)) as E2.
  rewrite BB in E1. set (p := d / k) in *. set (q := e / k) in *. clearbody p q.
  assert (p = q) by div_lia. congruence.
Qed.
Lemma hms_put_inj w d e t u : (w <= 12)%nat -> -9223372036854775807 <= d <= 9223372036854775807 ->
  -9223372036854775807 <= e <= 9223372036854775807 ->
  hms_of (ticks w) d = Ok t -> hms_of (ticks w) e = Ok u -> hms_put w t = hms_put w u -> d = e.
Proof.
  assert (POS : forall d t, (w <= 12)%nat -> 0 <= d <= 9223372036854775807 -> hms_of (ticks w) d = Ok t -> hms_put w t = clock_str w d).
  { intros d' t' W D H. rewrite (proj1 (hms_of_eq w d' W D)) in H. injection H as <-. now apply hms_put_str. }
  assert (NEG : forall d t, (w <= 12)%nat -> -9223372036854775807 <= d < 0 -> hms_of (ticks w) d = Ok t -> hms_put w t = "-"%char :: clock_str w (- d)).
  { intros d' t' W D H. destruct (hms_of_neg w (- d') W ltac:(lia)) as [X _]. rewrite Z.opp_involutive in X. rewrite X in H. injection H as <-.
    destruct (parts_range w (- d') ltac:(lia)) as (H1 & M1 & S1 & B1).
    unfold hms_put. rewrite sec_put_neg by (try exact W; lia). cbn [neg_ h_ m_ app]. now rewrite !put_two_pad by lia. }
  assert (HD : forall d, 0 <= d -> exists c s, clock_str w d = c :: s /\ c <> "-"%char).
  { intros d' D. destruct (parts_range w d' D) as (H1 & _). unfold clock_str. destruct (pad_ne 2 (hours_of w d') H1) as (c & s & -> & X).
    eexists _, _. split; [reflexivity|]. intros ->. now apply minus_dig in X. }
  intros W D E T U H.
  destruct (Z_lt_le_dec d 0) as [D'|D'], (Z_lt_le_dec e 0) as [E'|E'].
  - rewrite (NEG d t), (NEG e u) in H by (auto; lia). injection H as H. apply clock_str_inj in H; lia.
  - rewrite (NEG d t), (POS e u) in H by (auto; lia). destruct (HD e E') as (c & s & Q & X). rewrite Q in H. injection H as <- _. now destruct X.
  - rewrite (POS d t), (NEG e u) in H by (auto; lia). destruct (HD d D') as (c & s & Q & X). rewrite Q in H. injection H as -> _. now destruct X.
  - rewrite (POS d t), (POS e u) in H by (auto; lia). now apply clock_str_inj in H.
Qed.
Lemma sys_time_put_eq w tp : (w <= 12)%nat -> -9223372036854775808 <= tp <= 9223372036854775807 ->
  first_day_number <= tp / (86400 * ticks w) <= last_day_number ->
  -9223372036854775808 <= tp / (86400 * ticks w) * (86400 * ticks w) ->
  sys_time_put w tp = Ok (ymd_put (date_of (tp / (86400 * ticks w))) ++ " "%char :: clock_str w (tp mod (86400 * ticks w))).
Proof.
  intros W T N LO. pose proof (ticks_pos w) as K1. pose proof (ticks_le w 12 W) as K2. change (ticks 12) with 1000000000000 in K2.
  unfold sys_time_put. pose proof N as N'. unfold first_day_number, last_day_number in N'.
  assert (IR : in_range llong_t tp).
  { unfold in_range. change (imin llong_t) with (-9223372036854775808). change (imax llong_t) with 9223372036854775807. lia. }
  assert (IT : is_ity llong_t) by (unfold is_ity; cbn; lia).
  rewrite (floor_eq llong_t IT eq_refl (86400 * ticks w) tp) by (exact IR || lia).
  cbn [bind]. pose proof (Z.div_mod tp (86400 * ticks w) ltac:(lia)) as E. pose proof (Z.mod_pos_bound tp (86400 * ticks w) ltac:(lia)) as B.
  set (q := tp / (86400 * ticks w)) in *. set (r := tp mod (86400 * ticks w)) in *. clearbody q r.
  rewrite conv_int by lia. rewrite from_days_ok by exact N. cbn [bind].
  rewrite ll_ok by lia. cbn [bind]. rewrite ll_ok by lia. cbn [bind].
  replace (tp - q * (86400 * ticks w)) with r by lia.
  rewrite (proj1 (hms_of_eq w r W ltac:(lia))). cbn [bind]. do 3 f_equal. apply hms_put_str; [exact W|lia].
Qed.
Lemma date_of_fields n : first_day_number <= n <= last_day_number -> 0 <= mo (date_of n) /\ 0 <= dy (date_of n).
Proof.
  intros N. assert (E : exists_date (date_of n)) by apply date_of_props. apply exists_date_spec in E.
  pose proof (mlen_bound (yr (date_of n)) (mo (date_of n))). lia.
Qed.
Lemma sys_time_put_inj w tp tq s : (w <= 12)%nat ->
  -9223372036854775808 <= tp <= 9223372036854775807 -> first_day_number <= tp / (86400 * ticks w) <= last_day_number ->
  -9223372036854775808 <= tp / (86400 * ticks w) * (86400 * ticks w) ->
  -9223372036854775808 <= tq <= 9223372036854775807 -> first_day_number <= tq / (86400 * ticks w) <= last_day_number ->
  -9223372036854775808 <= tq / (86400 * ticks w) * (86400 * ticks w) ->
  sys_time_put w tp = Ok s -> sys_time_put w tq = Ok s -> tp = tq.
Proof.
  intros W T1 N1 L1 T2 N2 L2. rewrite !sys_time_put_eq by assumption. intros E1 E2.
  assert (K : 0 < 86400 * ticks w) by (pose proof (ticks_pos w); lia).
  set (D := 86400 * ticks w) in *. clearbody D.
  injection E1 as <-. injection E2 as H. destruct (date_of_fields _ N1) as [F1 F2]. destruct (date_of_fields _ N2) as [F3 F4].
  apply ymd_put_split in H; [|assumption|assumption|assumption|assumption|stops_tac|stops_tac].
  destruct H as [X Y]. injection Y as Y.
  apply clock_str_inj in Y; [|apply Z.mod_pos_bound; exact K|apply Z.mod_pos_bound; exact K].
  assert (Q : tp / D = tq / D) by (rewrite <- (num_date_of (tp / D)), <- (num_date_of (tq / D)), X; reflexivity).
  pose proof (Z.div_mod tp D ltac:(lia)). pose proof (Z.div_mod tq D ltac:(lia)). congruence.
Qed.
Lemma duration_put_inj w d e : duration_put w d = duration_put w e -> d = e.
Proof. unfold duration_put. intros H. apply app_inv_tail in H. rewrite !dec_sgn in H. 
  rewrite <- (app_nil_r (sgn_str 1 d)), <- (app_nil_r (sgn_str 1 e)) in H. now apply sgn_split in H. Qed.
