(** The date and the time from the fields that were read. *)
From Verif Require Import Base IntModel ToNumModel DateModel DateSpec DateProofs DateProofs2 StrProofs2 FmtModel FmtSpec FmtProofs FmtProofs2 FmtProofs3 FmtProofs4 FmtProofs6 ParModel ParSpec ParProofs1 ParProofs2 ParProofs3.
Local Open Scope Z_scope.
Local Open Scope outcome_scope.

Section Res.
Context (w : nat) (x : ymd) (d : Z).
Context (C : in_calendar x) (Y : 0 <= yr x <= 9999).
Context (v : vals) (K : list fld) (V : forall g, v g = if known K g then fval w x d g else nav g).
Notation kn g := (known K g).

Definition part (a z n : Z) : Prop := n = z \/ n = a.
Lemma mdx : 1 <= mo x <= 12 /\ 1 <= dy x <= 31.
Proof. destruct C as [_ E]. apply exists_date_spec in E. pose proof (mlen_bound (yr x) (mo x)). lia. Qed.
Lemma numb : -719528 <= num x <= 2932896.
Proof.
  pose proof (year_bounds x ltac:(apply C)) as B.
  assert (jan1 (yr x + 1) <= jan1 10000).
  { destruct (Z.eq_dec (yr x + 1) 10000) as [->|]; [lia|]. pose proof (jan1_mono (yr x + 1) 10000 ltac:(lia)). lia. }
  assert (jan1 0 <= jan1 (yr x)).
  { destruct (Z.eq_dec (yr x) 0) as [->|]; [lia|]. pose proof (jan1_mono 0 (yr x) ltac:(lia)). lia. }
  change (jan1 10000) with 2932897 in *. change (jan1 0) with (-719528) in *. lia.
Qed.
Lemma jan1b : -719528 <= jan1 (yr x) <= num x.
Proof.
  pose proof (year_bounds x ltac:(apply C)) as B. split; [|lia].
  assert (jan1 0 <= jan1 (yr x)).
  { destruct (Z.eq_dec (yr x) 0) as [->|]; [lia|]. pose proof (jan1_mono 0 (yr x) ltac:(lia)). lia. }
  change (jan1 0) with (-719528) in *. lia.
Qed.
Lemma year_x n : -2 <= n <= 9999 -> year n = n. Proof. intros H. apply year_id. lia. Qed.
Lemma month_x : month (uns (mo x)) = mo x.
Proof. pose proof mdx. rewrite uns_id by lia. unfold month. apply byte_id. lia. Qed.
Lemma day_x : day (uns (dy x)) = dy x.
Proof. pose proof mdx. rewrite uns_id by lia. unfold day. apply byte_id. lia. Qed.
Lemma weekday_x : weekday (uns (wdx x)) = wdx x.
Proof.
  pose proof (wdx_range x). rewrite uns_id by lia. unfold weekday. destruct (Z.eqb_spec (wdx x) 7); [lia|]. apply byte_id. lia.
Qed.
Lemma from_num : from_days (num x) = Ok x.
Proof. pose proof numb. rewrite from_days_ok by (unfold first_day_number, last_day_number; lia). f_equal. apply date_of_num, C. Qed.

Lemma agree_ok Y1 m1 d1 b : part (yr x) (nav FY) Y1 -> part (mo x) 0 m1 -> part (dy x) 0 d1 ->
  agree Y1 m1 d1 x b = Ok (yr x, mo x, dy x).
Proof.
  intros HY HM HD. pose proof mdx as MD. unfold agree. cbn [nav] in *.
  assert (E1 : (if Y1 =? -32768 then Ok (yr x) else if b && negb (year Y1 =? yr x) then broken else Ok Y1) = Ok (yr x)).
  { destruct HY as [-> | ->]; [reflexivity|]. destruct (Z.eqb_spec (yr x) (-32768)); [lia|]. rewrite year_x, Z.eqb_refl by lia.
    now rewrite andb_false_r. }
  rewrite E1. cbn [bind].
  assert (E2 : (if m1 =? 0 then Ok (mo x) else if negb (month (uns m1) =? mo x) then broken else Ok m1) = Ok (mo x)).
  { destruct HM as [-> | ->]; [reflexivity|]. destruct (Z.eqb_spec (mo x) 0); [lia|]. rewrite month_x, Z.eqb_refl. reflexivity. }
  rewrite E2. cbn [bind].
  assert (E3 : (if d1 =? 0 then Ok (dy x) else if negb (day (uns d1) =? dy x) then broken else Ok d1) = Ok (dy x)).
  { destruct HD as [-> | ->]; [reflexivity|]. destruct (Z.eqb_spec (dy x) 0); [lia|]. rewrite day_x, Z.eqb_refl. reflexivity. }
  rewrite E3. reflexivity.
Qed.
Lemma week_date_ok start n first : 0 <= first <= 6 -> 0 <= n <= 53 -> -1000000 <= start <= 3000000 ->
  start + 7 * (n - 1) + (wdx x - first) mod 7 = num x -> week_date start n (wdx x) first = Ok x.
Proof.
  intros F N B E. pose proof (wdx_range x) as WR. pose proof numb as NB. unfold week_date.
  pose proof (Z.mod_pos_bound (wdx x - first) 7 ltac:(lia)).
  rewrite !int_ok by lia. cbn [bind]. rewrite int_ok by lia. cbn [bind]. rewrite int_ok by lia. cbn [bind].
  rewrite weekday_x, weekday_diff_eq by lia. cbn [bind]. rewrite int_ok by lia. cbn [bind]. rewrite E. apply from_num.
Qed.

(** The first Monday of the ISO year and the first [wd] of the year *)
Lemma iso_start : (g1 <- int_ (isoy (num x) - 1) ;; t <- wlast_to_days (year g1) 12 4 ;; o <- weekday_diff 1 4 ;; int_ (t + o))
  = Ok (iso1 (isoy (num x))) /\ -1000000 <= iso1 (isoy (num x)) <= 3000000.
Proof.
  pose proof (isoy_range x C Y) as G. set (g := isoy (num x)) in *.
  assert (J : jan1 (-1) <= jan1 g <= jan1 9999).
  { split; [destruct (Z.eq_dec (-1) g) as [<-|]; [lia|]; pose proof (jan1_mono (-1) g ltac:(lia)); lia|].
    destruct (Z.eq_dec g 9999) as [->|]; [lia|]. pose proof (jan1_mono g 9999 ltac:(lia)); lia. }
  assert (J1 : jan1 (-1) = -719893) by (vm_compute; reflexivity). assert (J2 : jan1 9999 = 2932532) by (vm_compute; reflexivity).
  assert (J3 : -719893 <= jan1 g <= 2932532) by lia. clear J J1 J2. rename J3 into J.
  rewrite int_ok by lia. cbn [bind]. rewrite year_x by lia. rewrite wlast_eq by (unfold year_in_range; lia). cbn [bind].
  assert (ML : mlen (g - 1) 12 = 31) by reflexivity. rewrite ML, dec31. replace (g - 1 + 1) with g by lia.
  rewrite weekday_diff_eq by lia. cbn [bind]. change ((1 - 4) mod 7) with 4.
  unfold iso1, offset_to, weekday_of. set (a := jan1 g) in *. clearbody a g. clear - J.
  assert (E : a - 1 - ((a - 1 + 4) mod 7 - 4) mod 7 + 4 = a + (4 - (a + 4) mod 7) mod 7 - 3) by div_lia.
  rewrite int_ok by div_lia. split; [now rewrite E|div_lia].
Qed.
Lemma year_start wd : wd = 0 \/ wd = 1 ->
  ymw_to_days (YMW (year (yr x)) 1 wd 1) = Ok (jan1 (yr x) + offset_to wd (jan1 (yr x))) /\
  -1000000 <= jan1 (yr x) + offset_to wd (jan1 (yr x)) <= 3000000.
Proof.
  intros H. rewrite year_x by lia. rewrite ymw_to_days_eq by (unfold year_in_range; lia). fold (jan1 (yr x)).
  pose proof jan1b. pose proof numb. unfold offset_to. pose proof (Z.mod_pos_bound (wd - weekday_of (jan1 (yr x))) 7 ltac:(lia)).
  split; [f_equal; lia|lia].
Qed.
Lemma V_date : iso1 (isoy (num x)) + 7 * (isow (num x) - 1) + (wdx x - 1) mod 7 = num x.
Proof.
  destruct (iso_days (num x)) as [A B]. rewrite <- B. clear B.
  unfold wdx, iso1, offset_to, weekday_of in *. set (a := jan1 (isoy (num x))) in *. set (n := num x) in *. clearbody a n. div_lia.
Qed.
Lemma UW_date wd : wd = 0 \/ wd = 1 ->
  jan1 (yr x) + offset_to wd (jan1 (yr x)) + 7 * (rank wd (yr x) (num x) - 1) + (wdx x - wd) mod 7 = num x.
Proof.
  intros H. unfold rank, wdx, offset_to, weekday_of. set (a := jan1 (yr x)). set (n := num x). clearbody a n. destruct H as [-> | ->]; div_lia.
Qed.

(** Two digits of the year *)
Definition Yk : bool := kn FY || kn Fy.
Context (KY : kn Fy = true -> kn FY = true \/ kn FC = true \/ 1969 <= yr x <= 2068) (Kg : kn Fg = false).
Lemma year_two : exists c, two_digit (v Fy) (v FY) (v FC) (nav FY) (nav FC) = Ok (if Yk then yr x else nav FY, c).
Proof.
  unfold two_digit, Yk. rewrite !V. pose proof (Z.mod_pos_bound (yr x) 100 ltac:(lia)) as MB. pose proof (Z.div_mod (yr x) 100 ltac:(lia)) as DM.
  assert (DB : 0 <= yr x / 100 <= 99) by (split; [apply Z.div_pos; lia|]; assert (yr x / 100 < 100); [apply Z.div_lt_upper_bound; lia|lia]).
  cbn [fval nav].
  destruct (kn Fy) eqn:Ky.
  2:{ rewrite orb_false_r. change (100 =? 100) with true. cbv iota. eexists. reflexivity. }
  rewrite orb_true_r. destruct (Z.eqb_spec (yr x mod 100) 100); [lia|].
  destruct (Z.leb_spec 0 (yr x mod 100)); [|lia]. destruct (Z.leb_spec (yr x mod 100) 99); [|lia]. cbn [andb negb].
  set (C1 := if (if kn FC then yr x / 100 else -327) =? -327 then _ else _).
  assert (HC : C1 = Ok (yr x / 100)).
  { unfold C1. destruct (kn FC) eqn:Kc.
    - destruct (Z.eqb_spec (yr x / 100) (-327)); [lia|]. reflexivity.
    - change (-327 =? -327) with true. cbv iota. destruct (kn FY) eqn:KFY.
      + destruct (Z.eqb_spec (yr x) (-32768)); [lia|]. destruct (Z.geb_spec (yr x) 0); [|lia]. cbn [bind].
        now rewrite Z.quot_div_nonneg by lia.
      + change (-32768 =? -32768) with true. cbv iota. specialize (KY eq_refl). destruct KY as [Q|[Q|Q]]; try discriminate.
        f_equal. destruct (Z.geb_spec (yr x mod 100) 69); lia. }
  rewrite HC. cbn [bind]. destruct (Z.geb_spec (yr x / 100) 0); [|lia]. rewrite !int_ok by lia. cbn [bind]. rewrite !int_ok by lia. cbn [bind].
  replace (100 * (yr x / 100) + yr x mod 100) with (yr x) by lia.
  assert (negb ((if kn FY then yr x else -32768) =? -32768) && negb ((if kn FY then yr x else -32768) =? yr x) = false) as ->.
  { destruct (kn FY); [rewrite Z.eqb_refl; apply andb_false_r|reflexivity]. }
  eexists. reflexivity.
Qed.

Context (KD : (Yk = true /\ ((kn Fm = true /\ kn Fd = true) \/ kn Fj = true \/ ((kn FU = true \/ kn FW = true) /\ kn Fwd = true)))
           \/ (kn FG = true /\ kn FV = true /\ kn Fwd = true)).
Lemma resolve_date_ok : resolve_date v = Ok (x, wdx x, -1).
Proof.
  unfold resolve_date. destruct year_two as (c & ->). cbn [bind]. unfold two_digit. rewrite (V Fg), Kg. change (nav Fg =? 100) with true. cbn [bind].
  pose proof mdx as MD. pose proof numb as NB. pose proof jan1b as JB. pose proof (wdx_range x) as WR.
  pose proof (year_bounds x ltac:(apply C)) as YB. pose proof (jan1_succ (yr x)) as JS.
  pose proof (rank_range 0 (yr x) (num x) ltac:(lia) YB) as RU0. pose proof (rank_range 1 (yr x) (num x) ltac:(lia) YB) as RW0.
  pose proof (isow_range (num x)) as RV. pose proof (isoy_range x C Y) as RG.
  set (Y1 := if (_ <? -32767) || _ then nav FY else if Yk then yr x else nav FY).
  assert (HY1 : Y1 = if Yk then yr x else nav FY).
  { unfold Y1. destruct Yk; [|reflexivity]. destruct (Z.ltb_spec (yr x) (-32767)); [lia|]. cbn [orb].
    destruct (Z.gtb_spec (yr x) 32767); [lia|reflexivity]. }
  clearbody Y1. 
  assert (bG : negb (v FG =? nav FG) = kn FG).
  { rewrite (V FG). destruct (kn FG); [|reflexivity]. cbn [fval nav]. destruct (Z.eqb_spec (isoy (num x)) (-32768)); [lia|reflexivity]. }
  assert (bV : negb (v FV =? 100) = kn FV).
  { rewrite (V FV). destruct (kn FV); [|reflexivity]. cbn [fval nav]. destruct (Z.eqb_spec (isow (num x)) 100); [lia|reflexivity]. }
  assert (bU : negb (v FU =? 100) = kn FU).
  { rewrite (V FU). destruct (kn FU); [|reflexivity]. cbn [fval nav]. destruct (Z.eqb_spec (rank 0 (yr x) (num x)) 100); [lia|reflexivity]. }
  assert (bW : negb (v FW =? 100) = kn FW).
  { rewrite (V FW). destruct (kn FW); [|reflexivity]. cbn [fval nav]. destruct (Z.eqb_spec (rank 1 (yr x) (num x)) 100); [lia|reflexivity]. }
  assert (bwd : negb (v Fwd =? 8) = kn Fwd).
  { rewrite (V Fwd). destruct (kn Fwd); [|reflexivity]. cbn [fval nav]. destruct (Z.eqb_spec (wdx x) 8); [lia|reflexivity]. }
  assert (bj : negb (v Fj =? -1) = kn Fj).
  { rewrite (V Fj). destruct (kn Fj); [|reflexivity]. cbn [fval nav]. destruct (Z.eqb_spec (num x - jan1 (yr x) + 1) (-1)); [lia|reflexivity]. }
  rewrite bG, bV, bU, bW, bwd, bj.
  assert (PM : part (mo x) 0 (v Fm)) by (rewrite (V Fm); destruct (kn Fm); [right|left]; reflexivity).
  assert (PD : part (dy x) 0 (v Fd)) by (rewrite (V Fd); destruct (kn Fd); [right|left]; reflexivity).
  (* V *)
  set (sV := if kn FG && kn FV && kn Fwd then _ else Ok (Y1, v Fm, v Fd)).
  assert (HV : exists Y2 m2 d2, sV = Ok (Y2, m2, d2) /\ part (yr x) (nav FY) Y2 /\ part (mo x) 0 m2 /\ part (dy x) 0 d2 /\
     (kn FG && kn FV && kn Fwd = true -> Y2 = yr x /\ m2 = mo x /\ d2 = dy x) /\
     (kn FG && kn FV && kn Fwd = false -> Y2 = Y1 /\ m2 = v Fm /\ d2 = v Fd) /\ (Yk = true -> Y2 = yr x)).
  { unfold sV. clear sV.
    assert (PY : part (yr x) (nav FY) Y1) by (rewrite HY1; destruct Yk; [right|left]; reflexivity).
    assert (K1 : Yk = true -> Y1 = yr x) by (intros Q; now rewrite HY1, Q).
    destruct (kn FG) eqn:E1; cbn [andb]; [|exists Y1, (v Fm), (v Fd); repeat split; auto; discriminate].
    destruct (kn FV) eqn:E2; cbn [andb]; [|exists Y1, (v Fm), (v Fd); repeat split; auto; discriminate].
    destruct (kn Fwd) eqn:E3; cbn [andb]; [|exists Y1, (v Fm), (v Fd); repeat split; auto; discriminate].
    exists (yr x), (mo x), (dy x). split.
    - rewrite (V FG), (V FV), (V Fwd), E1, E2, E3. cbn [fval]. destruct iso_start as [IS1 IS2].
      destruct (int_ (isoy (num x) - 1)) as [g1| | |]; try discriminate IS1. cbn [bind] in *.
      destruct (wlast_to_days (year g1) 12 4) as [t1| | |]; try discriminate IS1. cbn [bind] in *.
      destruct (weekday_diff 1 4) as [o1| | |]; try discriminate IS1. cbn [bind] in *. rewrite IS1. cbn [bind].
      rewrite week_date_ok by (try lia; apply V_date). cbn [bind]. now apply agree_ok.
    - repeat split; try discriminate; try (now right); auto. }
  clearbody sV. destruct HV as (Y2 & m2 & d2 & -> & PY2 & PM2 & PD2 & T2 & F2 & K2). cbn [bind].
  (* U and W *)
  assert (ST : forall wd f (r : Z), (wd = 0 \/ wd = 1) -> r = rank wd (yr x) (num x) -> forall Y3 m3 d3 Kf vf, f = v Fwd -> vf = (if Kf : bool then r else 100) ->
     part (yr x) (nav FY) Y3 -> part (mo x) 0 m3 -> part (dy x) 0 d3 ->
     exists Y4 m4 d4, (if negb (Y3 =? nav FY) && Kf && kn Fwd then
        st <- ymw_to_days (YMW (year Y3) 1 wd 1) ;; x0 <- week_date st vf f wd ;; agree Y3 m3 d3 x0 true else Ok (Y3, m3, d3)) = Ok (Y4, m4, d4) /\
     part (yr x) (nav FY) Y4 /\ part (mo x) 0 m4 /\ part (dy x) 0 d4 /\ (Y3 = yr x -> Y4 = yr x) /\
     ((Y3 = yr x /\ m3 = mo x /\ d3 = dy x) -> (Y4 = yr x /\ m4 = mo x /\ d4 = dy x)) /\
     (m3 = mo x -> m4 = mo x) /\ (d3 = dy x -> d4 = dy x) /\ (Y3 = nav FY -> Y4 = nav FY) /\
     (Y3 = yr x -> Kf && kn Fwd = true -> Y4 = yr x /\ m4 = mo x /\ d4 = dy x)).
  { intros wd f r Hwd -> Y3 m3 d3 Kf vf -> -> P1 P2 P3.
    destruct P1 as [-> | ->].
    - rewrite Z.eqb_refl. cbn [negb andb]. exists (nav FY), m3, d3. repeat split; auto; try (now left); try tauto.
      all: cbn [nav] in *; intuition lia.
    - destruct (Z.eqb_spec (yr x) (nav FY)) as [Q|_]; [cbn [nav] in Q; lia|]. cbn [negb andb].
      destruct Kf; cbn [andb]; [|exists (yr x), m3, d3; repeat split; auto; try (now right); try tauto; discriminate].
      destruct (kn Fwd) eqn:KW; [|exists (yr x), m3, d3; repeat split; auto; try (now right); try tauto; discriminate].
      exists (yr x), (mo x), (dy x). split.
      + destruct (year_start wd Hwd) as [S1 S2]. rewrite S1. cbn [bind]. rewrite (V Fwd), KW. cbn [fval].
        rewrite week_date_ok; [cbn [bind]; apply agree_ok; auto; now right|lia|destruct Hwd as [-> | ->]; lia|exact S2|now apply UW_date].
      + repeat split; auto; try (now right). }
  destruct (ST 0 (v Fwd) (rank 0 (yr x) (num x)) ltac:(now left) eq_refl Y2 m2 d2 (kn FU) (v FU) eq_refl (V FU) PY2 PM2 PD2)
    as (Y3 & m3 & d3 & -> & PY3 & PM3 & PD3 & K3 & A3 & M3 & D3 & N3 & U3). cbn [bind].
  destruct (ST 1 (v Fwd) (rank 1 (yr x) (num x)) ltac:(now right) eq_refl Y3 m3 d3 (kn FW) (v FW) eq_refl (V FW) PY3 PM3 PD3)
    as (Y4 & m4 & d4 & -> & PY4 & PM4 & PD4 & K4 & A4 & M4 & D4 & N4 & U4). cbn [bind].
  (* the year is known *)
  assert (HY2 : Y2 = yr x).
  { destruct KD as [[Q _]|(Q1 & Q2 & Q3)]; [now apply K2|]. rewrite Q1, Q2, Q3 in T2. now destruct (T2 eq_refl). }
  assert (HY3 : Y3 = yr x) by auto. assert (HY4 : Y4 = yr x) by auto. subst Y2 Y3 Y4.
  destruct (Z.eqb_spec (yr x) (nav FY)) as [Q|_]; [cbn [nav] in Q; lia|]. cbn [negb andb]. rewrite andb_true_r.
  set (sJ := if kn Fj then _ else Ok (yr x, m4, d4)).
  assert (HJ : sJ = Ok (yr x, mo x, dy x)).
  { unfold sJ. destruct (kn Fj) eqn:EJ.
    - rewrite year_x by lia. rewrite to_days_ok by (split; [unfold year_in_range; cbn [yr]; lia|apply jan1_exists]).
      cbn [yr mo dy bind]. fold (jan1 (yr x)). rewrite (V Fj), EJ. cbn [fval]. rewrite int_ok by lia. cbn [bind].
      rewrite int_ok by lia. cbn [bind]. replace (jan1 (yr x) + (num x - jan1 (yr x) + 1 - 1)) with (num x) by lia.
      rewrite from_num. cbn [bind]. apply agree_ok; auto.
    - assert (m4 = mo x /\ d4 = dy x) as [-> ->]; [|reflexivity].
      destruct KD as [[_ [[Q1 Q2]|[Q|[Q1 Q2]]]]|(Q1 & Q2 & Q3)].
      + assert (EM : v Fm = mo x) by (rewrite (V Fm), Q1; reflexivity). assert (ED : v Fd = dy x) by (rewrite (V Fd), Q2; reflexivity).
        assert (m2 = mo x /\ d2 = dy x) as [-> ->].
        { destruct (kn FG && kn FV && kn Fwd) eqn:Q; [now destruct (T2 eq_refl)|]. destruct (F2 eq_refl) as (_ & -> & ->). auto. }
        auto.
      + discriminate Q.
      + rewrite Q2, andb_true_r in *. destruct Q1 as [Q1|Q1].
        * destruct (U3 eq_refl Q1) as (_ & -> & ->). auto.
        * destruct (U4 eq_refl Q1) as (_ & -> & ->). auto.
      + rewrite Q1, Q2, Q3 in T2. destruct (T2 eq_refl) as (_ & -> & ->). auto. }
  rewrite HJ. cbn [bind]. clear sJ HJ.
  assert (Ej : (if kn Fj then -1 else v Fj) = -1) by (rewrite (V Fj); destruct (kn Fj); reflexivity). rewrite Ej.
  rewrite year_x, month_x, day_x by lia.
  assert (Ex : YMD (yr x) (mo x) (dy x) = x) by now destruct x. rewrite Ex.
  rewrite (ymd_ok_x x C). rewrite to_days_ok by exact C. fold (num x). cbn [bind].
  rewrite weekday_from_days_eq by (unfold is_int; lia). fold (wdx x). rewrite weekday_diff_eq by lia. cbn [bind].
  rewrite Z.sub_0_r, (Z.mod_small (wdx x)) by lia.
  assert (kn Fwd && negb (v Fwd =? wdx x) = false) as ->.
  { rewrite (V Fwd). destruct (kn Fwd); [|reflexivity]. cbn [fval]. now rewrite Z.eqb_refl. }
  set (chk := if negb (_ || _ || _) then _ else Ok tt).
  assert (HC : chk = Ok tt).
  { unfold chk. clear chk. match goal with |- (if ?b then _ else _) = _ => destruct b end; [|reflexivity].
    assert (E1 : (if kn FG || kn FV then '(gt, st) <- iso_year (num x);; (if kn FG && negb (v FG =? gt) then broken
       else if kn FV then q <- int_ (num x - st);; (if negb (v FV =? q ÷ 7 + 1) then broken else Ok tt) else Ok tt) else Ok tt) = Ok tt).
    { destruct (kn FG || kn FV); [|reflexivity]. rewrite iso_year_eq by (try apply C; lia). cbn [bind].
      assert (kn FG && negb (v FG =? isoy (num x)) = false) as ->.
      { rewrite (V FG). destruct (kn FG); [|reflexivity]. cbn [fval]. now rewrite Z.eqb_refl. }
      destruct (kn FV) eqn:EV; [|reflexivity]. destruct (iso_days (num x)) as [I1 I2]. destruct iso_start as [_ IB].
      rewrite int_ok by lia. cbn [bind]. rewrite Z.quot_div_nonneg by lia. rewrite I2, (V FV), EV. cbn [fval]. now rewrite Z.eqb_refl. }
    rewrite E1. cbn [bind].
    assert (IT1 : is_ity int_t) by (unfold is_ity; cbn; lia).
    assert (EW : forall wd vf (Kf : bool), wd = 0 \/ wd = 1 -> vf = (if Kf then rank wd (yr x) (num x) else 100) ->
       (if Kf then st <- ymw_to_days (YMW (yr x) 1 wd 1) ;; q <- int_ (num x - st) ;; fl <- dur_floor int_t 7 q ;;
                   if negb (vf =? fl + 1) then broken else Ok tt else Ok tt) = Ok tt).
    { intros wd vf Kf Hwd ->. destruct Kf; [|reflexivity]. destruct (year_start wd Hwd) as [S1 S2]. rewrite year_x in S1 by lia.
      rewrite S1. cbn [bind]. rewrite int_ok by lia. cbn [bind]. rewrite (floor_eq int_t IT1 eq_refl); [|lia|].
      - cbn [bind]. unfold rank. rewrite Z.sub_add_distr, Z.eqb_refl. reflexivity.
      - unfold in_range. change (imin int_t) with (-2147483648). change (imax int_t) with 2147483647. lia. }
    rewrite (EW 0 (v FU) (kn FU) ltac:(now left) (V FU)). cbn [bind]. apply (EW 1 (v FW) (kn FW) ltac:(now right) (V FW)). }
  rewrite HC. cbn [bind].
  assert ((if v Fwd =? 8 then wdx x else v Fwd) = wdx x) as ->; [|reflexivity].
  rewrite (V Fwd). destruct (kn Fwd); [|reflexivity]. cbn [fval]. now destruct (wdx x =? 8).
Qed.
End Res.
