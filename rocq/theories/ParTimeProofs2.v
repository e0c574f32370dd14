(** The time of day that follows from the variables of from_stream. *)
From Verif Require Import Base IntModel ToNumModel DateModel DateSpec DateProofs DateProofs2 FmtModel FmtSpec FmtProofs2 FmtProofs3 FmtProofs4 ParModel ParSpec ParProofs1 ParProofs2 ParProofs6 ParProofs7 ParProofs8 ParProofs9 ParProofs10 ParTimeProofs1 ParProofs11 ParProofs12.
Local Open Scope Z_scope.
Local Open Scope outcome_scope.

(** A day of the year is only kept if there is no year *)
Lemma j_none v x wd j : resolve_date v = Ok (x, wd, j) -> ymd_ok x = true -> j = -1.
Proof.
  unfold resolve_date. destruct (two_digit (v Fy) _ _ _ _) as [[Y C]| | |]; try discriminate. cbn [bind]. destruct (two_digit (v Fg) _ _ _ _) as [[G C2]| | |]; try discriminate. cbn [bind].
  match goal with |- bind ?a _ = _ -> _ => destruct a as [[[Y1 m1] d1]| | |]; try discriminate end. cbn [bind].
  match goal with |- bind ?a _ = _ -> _ => destruct a as [[[Y2 m2] d2]| | |]; try discriminate end. cbn [bind].
  match goal with |- bind ?a _ = _ -> _ => destruct a as [[[Y3 m3] d3]| | |]; try discriminate end. cbn [bind].
  destruct (negb (v Fj =? -1) && negb (Y3 =? nav FY)) eqn:UJ.
  - match goal with |- bind ?a _ = _ -> _ => destruct a as [[[Y4 m4] d4]| | |]; try discriminate end. cbn [bind].
    match goal with |- bind ?a _ = _ -> _ => destruct a as [w'| | |]; try discriminate end. cbn [bind]. congruence.
  - cbn [bind]. match goal with |- bind ?a _ = _ -> _ => destruct a as [w'| | |]; try discriminate end. cbn [bind]. intros H. injection H as <- _ <-. intros OK.
    destruct (Z.eqb_spec (v Fj) (-1)) as [E|E]; [exact E|]. cbn [negb andb] in UJ. destruct (Z.eqb_spec Y3 (nav FY)) as [->|]; [|discriminate]. exfalso.
    unfold ymd_ok in OK. cbn [yr] in OK. cbv [nav year conv] in OK. cbn in OK. discriminate.
Qed.
Lemma int_small n : -1000 <= n <= 1000 -> int_ n = Ok n. Proof. intros B. apply int_ok. unfold is_int. lia. Qed.
Lemma j_unset v x wd j : resolve_date v = Ok (x, wd, j) -> v Fj = -1 -> j = -1.
Proof.
  unfold resolve_date. destruct (two_digit (v Fy) _ _ _ _) as [[Y C]| | |]; try discriminate. cbn [bind]. destruct (two_digit (v Fg) _ _ _ _) as [[G C2]| | |]; try discriminate. cbn [bind].
  match goal with |- bind ?a _ = _ -> _ => destruct a as [[[Y1 m1] d1]| | |]; try discriminate end. cbn [bind].
  match goal with |- bind ?a _ = _ -> _ => destruct a as [[[Y2 m2] d2]| | |]; try discriminate end. cbn [bind].
  match goal with |- bind ?a _ = _ -> _ => destruct a as [[[Y3 m3] d3]| | |]; try discriminate end. cbn [bind].
  intros H E. rewrite E in H. change (-1 =? -1) with true in H. cbn [negb andb bind] in H.
  match type of H with bind ?a _ = _ => destruct a as [w'| | |]; try discriminate end. cbn [bind] in H. congruence.
Qed.
(** The hour from the two clocks *)
Lemma hour_sound v h : vok v -> resolve_hour v = Ok h ->
  (v FI = 0 -> h = v FH) /\ (v FI <> 0 -> hour12 (v FI) h /\ 0 <= h <= 99 /\ (v Fp <> -1 -> (h <? 12) = (v Fp =? 0)) /\ (v FH <> nav FH -> h = v FH)).
Proof.
  intros V H. unfold resolve_hour in H. destruct (Z.eqb_spec (v FI) 0) as [E|E]; [injection H as <-; split; [auto|contradiction]|].
  split; [contradiction|intros _]. destruct ((1 <=? v FI) && (v FI <=? 12)) eqn:B; [|discriminate]. apply andb_prop in B. rewrite !Z.leb_le in B. cbn [negb] in H.
  pose proof (V FH) as VH. pose proof (V Fp) as VP. cbn [rng nav] in VH, VP.
  destruct (Z.eqb_spec (v Fp) (-1)) as [EP|NP]; cbn [negb] in H.
  - destruct (Z.eqb_spec (v FH) (nav FH)) as [EH|NH]; cbn [negb] in H; [discriminate|]. cbn [nav] in NH. assert (0 <= v FH <= 99) by tauto.
    destruct (Z.eqb_spec (v FI) 12) as [E12|N12].
    + destruct (Z.eqb_spec (v FH) 0) as [E0|N0]; cbn [negb andb] in H.
      * injection H as <-. unfold hour12. rewrite E12, E0. repeat split; auto; try lia; contradiction.
      * destruct (Z.eqb_spec (v FH) 12) as [E1|N1]; cbn [negb] in H; [|discriminate]. injection H as <-. unfold hour12. rewrite E12, E1. repeat split; auto; try lia; contradiction.
    + rewrite int_small in H by lia. cbn [bind] in H. destruct (Z.eqb_spec (v FI) (v FH)) as [E1|N1]; cbn [orb negb] in H.
      * injection H as <-. unfold hour12. rewrite E1. repeat split; auto; try lia; contradiction.
      * destruct (Z.eqb_spec (v FI) (v FH + 12)) as [E2|N2]; cbn [negb] in H; [|discriminate]. lia.
  - assert (0 <= v Fp <= 1) by tauto. assert (HP : exists p', (if v FI =? 12 then int_ (v Fp - 1) else Ok (v Fp)) = Ok p' /\ p' = v Fp - (if v FI =? 12 then 1 else 0)).
    { destruct (v FI =? 12); [rewrite int_small by lia|]; eexists; split; try reflexivity; lia. }
    destruct HP as (p' & HP & EP). rewrite HP in H. cbn [bind] in H. assert (-1 <= p' <= 1) by (destruct (v FI =? 12); lia).
    rewrite int_small in H by lia. cbn [bind] in H. rewrite int_small in H by lia. cbn [bind] in H.
    assert (HH : h = v FI + p' * 12 /\ (v FH <> nav FH -> h = v FH)).
    { destruct (Z.eqb_spec (v FH) (nav FH)) as [EH|NH]; [injection H as <-; split; [reflexivity|contradiction]|].
      destruct (Z.eqb_spec (v FI + p' * 12) (v FH)) as [EQ|]; cbn [negb] in H; [|discriminate]. injection H as <-. auto. }
    destruct HH as [HH1 HH2]. split; [|split; [|split; [|exact HH2]]].
    + split; [lia|]. rewrite HH1. symmetry. apply Z_mod_plus_full.
    + destruct (Z.eqb_spec (v FI) 12); lia.
    + intros _. destruct (Z.eqb_spec (v FI) 12); destruct (Z.eqb_spec (v Fp) 0); destruct (Z.ltb_spec h 12); try reflexivity; lia.
Qed.
Definition or0 (n z : Z) : Z := if z =? n then 0 else z.
Lemma tod_sound w v h t has0 has : (w <= 7)%nat -> (h = nav FH \/ 0 <= h <= 99) -> (v FM = nav FM \/ 0 <= v FM <= 99) -> (v Fs = nav Fs \/ 0 <= v Fs <= 1000000000000000000) ->
  resolve_tod w v h (-1) no_tod has0 = Ok (t, has) ->
  t = HMS (or0 (nav FH) h) (or0 (nav FM) (v FM)) (or0 (nav Fs) (v Fs) / ticks w) (or0 (nav Fs) (v Fs) mod ticks w) false /\
  has = has0 || negb (h =? nav FH) || negb (v FM =? nav FM) || negb (v Fs =? nav Fs).
Proof.
  intros W BH BM BS. assert (K := k_range w W). unfold resolve_tod. set (k := ticks w) in *. cbv zeta.
  assert (E1 : (if negb (h =? nav FH) then n <- arith llong_t (h * (3600 * k)) ;; t <- hms_of k n ;; Ok (t, true) else Ok (no_tod, has0)) = Ok (HMS (or0 (nav FH) h) 0 0 0 false, has0 || negb (h =? nav FH))).
  { unfold or0. destruct (Z.eqb_spec h (nav FH)) as [E|E]; [cbn [negb]; rewrite orb_false_r; reflexivity|]. cbn [negb]. rewrite orb_true_r. assert (0 <= h <= 99) by tauto. rewrite ll_ok by nia. cbn [bind].
    unfold k. rewrite (proj1 (hms_of_eq w (h * (3600 * ticks w)) ltac:(lia) ltac:(fold k; nia))). cbn [bind]. do 2 f_equal.
    unfold hours_of, minutes_of, seconds_of. fold (ticks w). fold k.
    rewrite Z.div_mul by lia. replace (h * (3600 * k)) with (h * 60 * (60 * k)) by ring. rewrite Z.div_mul by lia. rewrite Z_mod_mult.
    replace (h * 60 * (60 * k)) with (h * 60 * 60 * k) by ring. rewrite Z.div_mul by lia. rewrite !Z_mod_mult. reflexivity. }
  rewrite E1. cbn [bind h_ m_ s_ sub_ neg_]. change (-1 =? -1) with true. cbn [negb].
  assert (E2 : (if negb (v FM =? nav FM) then (HMS (or0 (nav FH) h) (v FM) 0 0 false, true) else (HMS (or0 (nav FH) h) 0 0 0 false, has0 || negb (h =? nav FH))) = (HMS (or0 (nav FH) h) (or0 (nav FM) (v FM)) 0 0 false, has0 || negb (h =? nav FH) || negb (v FM =? nav FM))).
  { unfold or0. destruct (v FM =? nav FM); cbn [negb]; rewrite ?orb_true_r, ?orb_false_r; reflexivity. }
  rewrite E2. cbn [h_ m_ s_ sub_ neg_]. set (Hh := or0 (nav FH) h). set (Mm := or0 (nav FM) (v FM)). clearbody Hh Mm. set (hs := has0 || _ || _). unfold or0. destruct (Z.eqb_spec (v Fs) (nav Fs)) as [E|E]; cbn [negb bind].
  - intros H. injection H as <- <-. rewrite Z.div_0_l, Z.mod_0_l by lia. rewrite orb_false_r. split; reflexivity.
  - assert (0 <= v Fs <= 1000000000000000000) by tauto. rewrite Z.quot_div_nonneg by lia. pose proof (Z.div_mod (v Fs) k ltac:(lia)) as DM. pose proof (Z.mod_pos_bound (v Fs) k ltac:(lia)) as MB.
    assert (0 <= v Fs / k) by (apply Z.div_pos; lia). rewrite (ll_ok (v Fs / k * k)) by lia. cbn [bind]. rewrite ll_ok by lia. cbn [bind]. intros H2. injection H2 as <- <-. rewrite orb_true_r. split; [f_equal; lia|reflexivity].
Qed.
(** In the conventional range it is a time of the day *)
Lemma tod_day w H M q : (w <= 7)%nat -> 0 <= H -> 0 <= M -> 0 <= q -> conventional w (HMS H M (q / ticks w) (q mod ticks w) false) = true ->
  let d := (H * 3600 + M * 60) * ticks w + q in
  hms_to_duration (ticks w) (HMS H M (q / ticks w) (q mod ticks w) false) = Ok d /\ 0 <= d < 86400 * ticks w /\ hours_of w d = H /\ minutes_of w d = M /\ ticks_of w d = q.
Proof.
  intros W BH BM BQ C d. assert (K := k_range w W). unfold conventional in C. cbn [neg_ h_ m_ sub_ s_ negb] in C. rewrite !andb_true_iff in C. destruct C as [[[[_ C1] C2] _] C3]. rewrite Z.ltb_lt in C1, C2, C3.
  unfold hours_of, minutes_of, ticks_of. fold (ticks w). set (k := ticks w) in *. pose proof (Z.div_mod q k ltac:(lia)) as DM. pose proof (Z.mod_pos_bound q k ltac:(lia)) as MB.
  assert (0 <= q / k) by (apply Z.div_pos; lia). assert (Q60 : q < 60 * k) by nia.
  assert (DR : 0 <= d < 86400 * k) by (unfold d; nia). split.
  - unfold hms_to_duration. cbn [s_ sub_ m_ h_ neg_]. rewrite (ll_ok (q / k * k)) by nia. cbn [bind]. rewrite ll_ok by lia. cbn [bind]. rewrite ll_ok by nia. cbn [bind]. rewrite ll_ok by nia. cbn [bind].
    rewrite ll_ok by nia. cbn [bind]. assert (E : q / k * k + q mod k + M * (60 * k) + H * (3600 * k) = d) by (unfold d; lia). rewrite E. rewrite ll_ok by lia. cbn [bind]. rewrite Z.mul_1_r. apply ll_ok. lia.
  - split; [exact DR|]. split; [|split].
    + unfold d. symmetry. apply (Z.div_unique _ _ _ (M * 60 * k + q)); nia.
    + assert (E : d / (60 * k) = H * 60 + M) by (unfold d; symmetry; apply (Z.div_unique _ _ _ q); nia). rewrite E. symmetry. apply (Z.mod_unique _ _ H); lia.
    + unfold d. symmetry. apply (Z.mod_unique _ _ (H * 60 + M)); nia.
Qed.
