(** The resolved date agrees with everything that was read. *)
From Verif Require Import Base IntModel ToNumModel DateModel DateSpec DateProofs DateProofs2 FmtModel FmtSpec FmtProofs2 FmtProofs3 ParModel ParSpec ParProofs6 ParProofs7 ParProofs8 ParProofs9 ParProofs10 ParProofs11.
Local Open Scope Z_scope.
Local Open Scope outcome_scope.

Lemma two_sound yy Y C Y' C' : yy = 100 \/ small yy -> Y = -32768 \/ -9999 <= Y <= 9999 -> C = -327 \/ -100 <= C <= 99 -> two_digit yy Y C (-32768) (-327) = Ok (Y', C') ->
  (Y <> -32768 -> Y' = Y) /\ (yy <> 100 -> Z.abs Y' mod 100 = yy) /\ (Y' = -32768 \/ -10000 <= Y' <= 9999) /\ (C' = -327 \/ -100 <= C' <= 99) /\
  (yy <> 100 -> C <> -327 -> Y' / 100 = C) /\ (yy <> 100 -> Y' <> -32768) /\ (yy = 100 -> Y' = Y).
Proof.
  intros HY HYY HC. unfold two_digit, small in *. destruct (Z.eqb_spec yy 100) as [->|N].
  { intros H. injection H as <- <-. repeat split; try congruence; lia. }
  destruct ((0 <=? yy) && (yy <=? 99)) eqn:R; [|discriminate]. cbn [negb]. apply andb_prop in R. rewrite !Z.leb_le in R.
  match goal with |- bind ?o _ = _ -> _ => assert (XC : exists c, o = Ok c /\ -100 <= c <= 99 /\ (C <> -327 -> c = C)) end.
  { destruct (Z.eqb_spec C (-327)) as [->|NC]; [|exists C; repeat split; lia].
    destruct (Z.eqb_spec Y (-32768)) as [->|NY]; [eexists; split; [reflexivity|]; destruct (yy >=? 69); lia|].
    destruct (Z.geb_spec Y 0).
    - cbn [bind]. eexists. split; [reflexivity|]. pose proof (Z.quot_pos Y 100). pose proof (Z.quot_lt_upper_bound Y 100 100). lia.
    - rewrite int_ok by lia. cbn [bind]. eexists. split; [reflexivity|].
      pose proof (Z.quot_opp_l (Y - 100) 100 ltac:(lia)). pose proof (Z.quot_pos (- (Y - 100)) 100). pose proof (Z.quot_lt_upper_bound (- (Y - 100)) 100 101). lia. }
  destruct XC as (c & -> & Bc & Ec). cbn [bind].
  match goal with |- bind ?o _ = _ -> _ => assert (XT : exists y, o = Ok y /\ -10000 <= y <= 9999 /\ Z.abs y mod 100 = yy /\ y / 100 = c) end.
  { destruct (Z.geb_spec c 0).
    - rewrite int_ok by lia. cbn [bind]. rewrite int_ok by lia. eexists. split; [reflexivity|]. split; [lia|]. rewrite Z.abs_eq by lia. split; symmetry; [apply Z.mod_unique with c|apply Z.div_unique with yy]; lia.
    - rewrite int_ok by lia. cbn [bind]. rewrite int_ok by lia. cbn [bind]. destruct (Z.eqb_spec yy 0) as [->|NZ]; (rewrite int_ok by lia); eexists; (split; [reflexivity|]); (split; [lia|]); rewrite Z.abs_neq by lia; split; symmetry.
      + apply Z.mod_unique with (- c); lia.
      + apply Z.div_unique with 0; lia.
      + apply Z.mod_unique with (- (c + 1)); lia.
      + apply Z.div_unique with (100 - yy); lia. }
  destruct XT as (y & -> & By & Ay & Dy). cbn [bind].
  destruct (negb (Y =? -32768) && negb (Y =? y)) eqn:B; [discriminate|]. intros H. injection H as <- <-.
  split; [|split; [auto|split; [lia|split; [lia|split; [intros _ NC; rewrite Dy; auto|split; [lia|congruence]]]]]].
  intros NY. apply Z.eqb_neq in NY. rewrite NY in B. cbn [negb andb] in B. apply negb_false_iff, Z.eqb_eq in B. auto.
Qed.
Lemma month_small m : 0 <= m <= 255 -> month (uns m) = m.
Proof. intros H. unfold month. rewrite uns_id by lia. apply byte_id. lia. Qed.
Lemma day_small m : 0 <= m <= 255 -> day (uns m) = m.
Proof. intros H. unfold day. rewrite uns_id by lia. apply byte_id. lia. Qed.
(** Negative months and days do not exist *)
Lemma byte_neg m : -99 <= m < 0 -> 157 <= month (uns m) /\ 157 <= day (uns m).
Proof.
  intros H. unfold month, day. rewrite uns_eq. change (2 ^ 32) with 4294967296.
  assert (E : m mod 4294967296 = 4294967296 + m) by (symmetry; apply Z.mod_unique with (-1); lia). rewrite E.
  unfold conv. cbn [sgn wid andb]. change (2 ^ 8) with 256. assert (E2 : (4294967296 + m) mod 256 = 256 + m) by (symmetry; apply Z.mod_unique with 16777215; lia). rewrite E2. lia.
Qed.
Definition chosen (x : ymd) (m d : Z) : Prop := month (uns m) = mo x /\ day (uns d) = dy x /\ m <> 0 /\ d <> 0.
Definition later_md (m d m' d' : Z) : Prop := (m <> 0 -> m' = m) /\ (d <> 0 -> d' = d) /\ small m' /\ small d'.
Lemma later_md_refl m d : small m -> small d -> later_md m d m d. Proof. intros A B. split; [auto|]. split; [auto|]. split; assumption. Qed.
Lemma later_md_trans m d m1 d1 m2 d2 : later_md m d m1 d1 -> later_md m1 d1 m2 d2 -> later_md m d m2 d2.
Proof. intros (A & B & C & D) (A' & B' & C' & D'). repeat split; try apply C'; try apply D'; intros H; [rewrite A'; rewrite A; auto|rewrite B'; rewrite B; auto]. Qed.
Lemma chosen_later x m d m' d' : chosen x m d -> later_md m d m' d' -> chosen x m' d'.
Proof. intros (A & B & C & D) (E & F & _ & _). rewrite (E C), (F D). repeat split; auto. Qed.
Lemma agree_inv Y m d x b Y' m' d' : Y <> -32768 -> small m -> small d -> exists_date x -> agree Y m d x b = Ok (Y', m', d') ->
  Y' = Y /\ (b = true -> year Y = yr x) /\ later_md m d m' d' /\ chosen x m' d'.
Proof.
  intros NY HM HD EX H. pose proof (exists_md x EX) as [Mx Dx]. unfold agree in H. change (nav FY) with (-32768) in H. destruct (Z.eqb_spec Y (-32768)); [congruence|].
  destruct (b && negb (year Y =? yr x)) eqn:B; [discriminate|]. cbn [bind] in H.
  assert (EB : b = true -> year Y = yr x) by (intros ->; cbn [andb] in B; apply negb_false_iff, Z.eqb_eq in B; exact B).
  assert (XM : exists m1, (if m =? 0 then Ok (mo x) else if negb (month (uns m) =? mo x) then broken else Ok m) = Ok m1 /\ (m <> 0 -> m1 = m) /\ small m1 /\ month (uns m1) = mo x /\ m1 <> 0).
  { destruct (Z.eqb_spec m 0) as [->|N]; [exists (mo x); unfold small; rewrite month_small by lia; repeat split; try lia|].
    destruct (Z.eqb_spec (month (uns m)) (mo x)); [|discriminate H]. exists m. auto. }
  destruct XM as (m1 & EM & M1 & M2 & M3 & M4). rewrite EM in H. cbn [bind] in H.
  assert (XD : exists d1, (if d =? 0 then Ok (dy x) else if negb (day (uns d) =? dy x) then broken else Ok d) = Ok d1 /\ (d <> 0 -> d1 = d) /\ small d1 /\ day (uns d1) = dy x /\ d1 <> 0).
  { destruct (Z.eqb_spec d 0) as [->|N]; [exists (dy x); unfold small; rewrite day_small by lia; repeat split; try lia|].
    destruct (Z.eqb_spec (day (uns d)) (dy x)); [|discriminate H]. exists d. auto. }
  destruct XD as (d1 & ED & D1 & D2 & D3 & D4). rewrite ED in H. cbn [bind] in H. injection H as <- <- <-.
  split; [reflexivity|]. split; [exact EB|]. split; [repeat split; auto; apply M2 || apply D2|repeat split; auto].
Qed.
Lemma agree_nav m d x b : year (yr x) = yr x -> yr x <> -32768 -> agree (-32768) m d x b = agree (yr x) m d x b.
Proof. intros E N. unfold agree. change (nav FY) with (-32768). change (-32768 =? -32768) with true. apply Z.eqb_neq in N. rewrite N, E, Z.eqb_refl, andb_false_r. reflexivity. Qed.
(** The date of weekday [wd] in week [n], counted from the first [first] of year Y *)
Definition week_day (Y n wd first : Z) : Z := jan1 Y + offset_to first (jan1 Y) + 7 * (n - 1) + (wd - first) mod 7.
Lemma week_date_num st n wd first : near (st - 7) -> near (st + 700) -> 0 <= n <= 99 -> 0 <= wd <= 6 -> 0 <= first <= 6 ->
  week_date st n wd first = Ok (date_of (st + 7 * (n - 1) + (wd - first) mod 7)).
Proof.
  unfold near. intros N1 N2 HN HW HF. unfold week_date. rewrite int_ok by lia. cbn [bind]. rewrite int_ok by lia. cbn [bind]. rewrite int_ok by lia. cbn [bind].
  assert (EW : weekday (uns wd) = wd).
  { unfold weekday. rewrite uns_id by lia. destruct (Z.eqb_spec wd 7); [lia|]. now rewrite byte_id by lia. }
  rewrite EW, weekday_diff_eq by lia. cbn [bind]. pose proof (Z.mod_pos_bound (wd - first) 7 ltac:(lia)). rewrite int_ok by lia. cbn [bind].
  destruct (from_near (st + 7 * (n - 1) + (wd - first) mod 7) ltac:(unfold near; lia)) as [-> _]. reflexivity.
Qed.
Lemma uw_inv Y m d n wd first Y' m' d' : yopt Y -> small m -> small d -> n = 100 \/ 0 <= n <= 99 -> wd = 8 \/ 0 <= wd <= 6 -> first = 0 \/ first = 1 ->
  (if negb (Y =? -32768) && negb (n =? 100) && negb (wd =? 8) then
     st <- ymw_to_days (YMW (year Y) 1 first 1) ;; x <- week_date st n wd first ;; agree Y m d x true else Ok (Y, m, d)) = Ok (Y', m', d') ->
  Y' = Y /\ later_md m d m' d' /\ (Y <> -32768 -> n <> 100 -> wd <> 8 -> let q := date_of (week_day Y n wd first) in chosen q m' d' /\ yr q = Y).
Proof.
  intros HY HM HD HN HW HF H. destruct (_ && _) eqn:EV.
  2:{ injection H as <- <- <-. split; [reflexivity|]. split; [now apply later_md_refl|]. intros A B C. apply Z.eqb_neq in A, B, C. rewrite A, B, C in EV. discriminate. }
  rewrite !andb_true_iff, !negb_true_iff, !Z.eqb_neq in EV. destruct EV as [[E1 E2] E3]. destruct HY as [HY|HY]; [congruence|]. pose proof (jan1_near Y HY) as J. unfold yrange in HY.
  rewrite year_id in H by lia. rewrite ymw_to_days_eq in H by (unfold year_in_range; lia). cbn [bind] in H. fold (jan1 Y) in H. replace ((1 - 1) * 7) with 0 in H by lia. rewrite Z.add_0_r in H. fold (offset_to first (jan1 Y)) in H.
  assert (OB : 0 <= offset_to first (jan1 Y) < 7) by (apply Z.mod_pos_bound; lia).
  rewrite week_date_num in H by (unfold near in *; lia). cbn [bind] in H. fold (week_day Y n wd first) in H.
  assert (NQ : near (week_day Y n wd first)) by (unfold near, week_day; pose proof (Z.mod_pos_bound (wd - first) 7); lia).
  destruct (from_near _ NQ) as (_ & EX & _). apply agree_inv in H; auto. destruct H as (-> & YY & LM & CH). split; [reflexivity|]. split; [exact LM|]. intros _ _ _. cbv zeta. split; [exact CH|]. rewrite <- YY by reflexivity. apply year_id. lia.
Qed.
(** The date of weekday [wd] in ISO week [n] of year G *)
Definition iso_day (G n wd : Z) : Z := iso1 G + 7 * (n - 1) + (wd - 1) mod 7.
Lemma iso_inv Y m d G n wd Y' m' d' : yopt Y -> small m -> small d -> G = -32768 \/ -10000 <= G <= 9999 -> n = 100 \/ 0 <= n <= 99 -> wd = 8 \/ 0 <= wd <= 6 ->
  (if negb (G =? -32768) && negb (n =? 100) && negb (wd =? 8) then
     g1 <- int_ (G - 1) ;; t <- wlast_to_days (year g1) 12 4 ;; o <- weekday_diff 1 4 ;; st <- int_ (t + o) ;; x <- week_date st n wd 1 ;; agree Y m d x true else Ok (Y, m, d)) = Ok (Y', m', d') ->
  (Y <> -32768 -> Y' = Y) /\ yopt Y' /\ later_md m d m' d' /\ (G <> -32768 -> n <> 100 -> wd <> 8 -> let q := date_of (iso_day G n wd) in chosen q m' d' /\ yr q = Y').
Proof.
  intros HY HM HD HG HN HW H. destruct (_ && _) eqn:EV.
  2:{ injection H as <- <- <-. split; [reflexivity|]. split; [exact HY|]. split; [now apply later_md_refl|]. intros A B C. apply Z.eqb_neq in A, B, C. rewrite A, B, C in EV. discriminate. }
  rewrite !andb_true_iff, !negb_true_iff, !Z.eqb_neq in EV. destruct EV as [[E1 E2] E3].
  rewrite int_ok in H by lia. cbn [bind] in H. rewrite year_id in H by lia. rewrite wlast_eq in H by (unfold year_in_range; lia). cbn [bind] in H.
  change (mlen (G - 1) 12) with 31 in H. rewrite dec31 in H. replace (G - 1 + 1) with G in H by lia. rewrite weekday_diff_eq in H by lia. cbn [bind] in H. change ((1 - 4) mod 7) with 4 in H.
  pose proof (jan1_near G ltac:(unfold yrange; lia)) as J.
  assert (ES : jan1 G - 1 - (weekday_of (jan1 G - 1) - 4) mod 7 + 4 = iso1 G).
  { unfold iso1, offset_to, weekday_of. set (a := jan1 G) in *. clearbody a. clear. div_lia. }
  rewrite ES in H.
  assert (HS : jan1 G - 3 <= iso1 G <= jan1 G + 3) by (unfold iso1, offset_to; pose proof (Z.mod_pos_bound (4 - weekday_of (jan1 G)) 7 ltac:(lia)); lia).
  rewrite int_ok in H by lia. cbn [bind] in H. rewrite week_date_num in H by (unfold near; lia). cbn [bind] in H. fold (iso_day G n wd) in H.
  assert (QB : iso1 G - 7 <= iso_day G n wd < iso1 G + 693) by (unfold iso_day; pose proof (Z.mod_pos_bound (wd - 1) 7); lia).
  destruct (from_near (iso_day G n wd) ltac:(unfold near; lia)) as (_ & EX & _). set (q := date_of (iso_day G n wd)) in *.
  assert (YQ : yrange (yr q)).
  { pose proof (year_of_day (iso_day G n wd) (G - 1) (G + 2)) as K. fold q in K. unfold yrange.
    pose proof (jan1_mono (G - 1) G ltac:(lia)). pose proof (jan1_mono G (G + 1) ltac:(lia)). pose proof (jan1_mono (G + 1) (G + 2) ltac:(lia)). pose proof (jan1_mono (G + 2) (G + 2 + 1) ltac:(lia)). lia. }
  assert (IQ : year (yr q) = yr q) by (apply year_id; unfold yrange in YQ; lia).
  destruct (Z.eq_dec Y (-32768)) as [->|NY].
  - rewrite agree_nav in H by (auto; unfold yrange in YQ; lia). apply agree_inv in H; auto; [|unfold yrange in YQ; lia]. destruct H as (-> & _ & LM & CH).
    split; [congruence|]. split; [now right|]. split; [exact LM|]. intros _ _ _. cbv zeta. auto.
  - apply agree_inv in H; auto. destruct H as (-> & YY & LM & CH). split; [auto|]. split; [exact HY|]. split; [exact LM|]. intros _ _ _. cbv zeta. split; [exact CH|]. rewrite <- YY by reflexivity. apply year_id. destruct HY as [HY|HY]; [congruence|unfold yrange in HY; lia].
Qed.
Lemma check_inv n first x k : exists_date x -> yrange (yr x) -> near n -> first = 0 \/ first = 1 ->
  (if negb (k =? 100) then
     st <- ymw_to_days (YMW (yr x) 1 first 1) ;; q <- int_ (n - st) ;; fl <- dur_floor int_t 7 q ;; if negb (k =? fl + 1) then broken else Ok tt else Ok tt) = Ok tt ->
  k <> 100 -> k = rank first (yr x) n.
Proof.
  intros E HY HN HF H NK. apply Z.eqb_neq in NK. rewrite NK in H. cbn [negb] in H. pose proof (jan1_near _ HY) as J. unfold yrange in HY.
  rewrite ymw_to_days_eq in H by (unfold year_in_range; lia). fold (jan1 (yr x)) in H. replace ((1 - 1) * 7) with 0 in H by lia. rewrite Z.add_0_r in H. fold (offset_to first (jan1 (yr x))) in H. cbn [bind] in H.
  assert (OB : 0 <= offset_to first (jan1 (yr x)) < 7) by (apply Z.mod_pos_bound; lia). unfold near in HN. rewrite int_ok in H by lia. cbn [bind] in H.
  rewrite floor_eq in H; [cbn [bind] in H|..]; try first [reflexivity | lia | (unfold in_range, imin, imax; cbn [sgn wid int_t]; change (2 ^ (32 - 1)) with 2147483648; lia)]; [|unfold is_ity; cbn; auto].
  destruct (Z.eqb_spec k ((n - (jan1 (yr x) + offset_to first (jan1 (yr x)))) / 7 + 1)) as [->|]; [|discriminate]. unfold rank. f_equal. f_equal. lia.
Qed.
Lemma iso_close n : 0 <= n - iso1 (isoy n) < 371 /\ (n - iso1 (isoy n)) / 7 + 1 = isow n.
Proof.
  pose proof (iso_days n) as [A B]. pose proof (isow_range n) as C. split; [|exact B]. set (i := n - iso1 (isoy n)) in *. set (k := isow n) in *. clearbody i k. div_lia.
Qed.
Lemma iso_check x G V : exists_date x -> yrange (yr x) ->
  (if negb (G =? -32768) || negb (V =? 100) then
     '(gt, st) <- iso_year (num x) ;;
     if negb (G =? -32768) && negb (G =? gt) then broken
     else if negb (V =? 100) then q <- int_ (num x - st) ;; if negb (V =? q ÷ 7 + 1) then broken else Ok tt
     else Ok tt
   else Ok tt) = Ok tt ->
  (G <> -32768 -> G = isoy (num x)) /\ (V <> 100 -> V = isow (num x)).
Proof.
  intros E HY H. rewrite (iso_year_eq x E) in H by (unfold yrange in HY; lia). cbn [bind] in H. destruct (iso_close (num x)) as [B D].
  rewrite int_ok in H by lia. cbn [bind] in H. rewrite Z.quot_div_nonneg, D in H by lia.
  set (g := isoy (num x)) in *. set (k := isow (num x)) in *. clearbody g k.
  destruct (Z.eqb_spec G (-32768)) as [EG|EG]; destruct (Z.eqb_spec V 100) as [EV|EV]; cbn [negb orb andb] in H; [split; congruence|..].
  - destruct (Z.eqb_spec V k); [split; congruence|discriminate H].
  - destruct (Z.eqb_spec G g); [split; congruence|discriminate H].
  - destruct (Z.eqb_spec G g); [|discriminate H]. cbn [negb] in H. destruct (Z.eqb_spec V k); [split; congruence|discriminate H].
Qed.
Lemma rank_week x k wd first : 0 <= first <= 6 -> num x = week_day (yr x) k wd first -> k = rank first (yr x) (num x).
Proof.
  intros F E. unfold rank. rewrite E. unfold week_day. pose proof (Z.mod_pos_bound (wd - first) 7 ltac:(lia)) as B.
  replace (jan1 (yr x) + offset_to first (jan1 (yr x)) + 7 * (k - 1) + (wd - first) mod 7 - jan1 (yr x) - offset_to first (jan1 (yr x))) with ((wd - first) mod 7 + (k - 1) * 7) by lia.
  rewrite Z.div_add by lia. rewrite Z.div_small by lia. lia.
Qed.
Record agrees (v : vals) (x : ymd) (g : Z) : Prop := Agrees {
  a_in : in_calendar x;
  a_Y : v FY <> -32768 -> yr x = v FY;
  a_y : v Fy <> 100 -> Z.abs (yr x) mod 100 = v Fy;
  a_m : v Fm <> 0 -> mo x = v Fm;
  a_d : v Fd <> 0 -> dy x = v Fd;
  a_wd : v Fwd <> 8 -> v Fwd = weekday_of (num x);
  a_j : v Fj <> -1 -> exists y, exists_date y /\ num y = jan1 (yr x) + v Fj - 1 /\ mo y = mo x /\ dy y = dy x;
  a_U : v FU <> 100 -> v FU = rank 0 (yr x) (num x);
  a_W : v FW <> 100 -> v FW = rank 1 (yr x) (num x);
  a_C : v FC <> -327 -> yr x / 100 = v FC;
  a_G : v FG <> -32768 -> g = v FG;
  a_g : v Fg <> 100 -> Z.abs g mod 100 = v Fg;
  a_V : v FV <> 100 -> iso1 g + 7 * (v FV - 1) <= num x < iso1 g + 7 * v FV;
  a_iso : g = isoy (num x) \/ ((v FG <> -32768 \/ v Fg <> 100) /\ v FV <> 100 /\ v Fwd <> 8) }.
Lemma byte_range z : 0 <= month z <= 255 /\ 0 <= day z <= 255.
Proof. unfold month, day, conv. cbn [sgn wid andb]. change (2 ^ 8) with 256. pose proof (Z.mod_pos_bound z 256). lia. Qed.
(** Keeps lia from looking at a hypothesis *)
Definition Hide (P : Prop) : Prop := P.
Lemma resolve_sound v x wd j : vok v -> (v FC <> -327 -> v Fy <> 100) ->
  (v FG <> -32768 \/ v Fg <> 100 \/ v FV <> 100 -> v FU <> 100 \/ v FW <> 100 -> v Fwd <> 8 -> (v FG <> -32768 \/ v Fg <> 100) /\ v FV <> 100) ->
  resolve_date v = Ok (x, wd, j) -> ymd_ok x = true -> exists g, agrees v x g.
Proof.
  intros V QC QI H OK. change (Hide (v FC <> -327 -> v Fy <> 100)) in QC. match type of QI with ?T => change (Hide T) in QI end. destruct (vget v V) as (BY & BG & By & Bg & BC & Bm & Bd & Bj & Bw & BU & BV & BW). clear V.
  unfold resolve_date in H. cbn [nav] in *.
  destruct (two_digit (v Fy) (v FY) (v FC) (-32768) (-327)) as [[Y C]| | |] eqn:TD; try discriminate. destruct (two_sound _ _ _ _ _ By BY BC TD) as (TY & Ty & HY & HC & TC & Tn & _). clear TD. cbn [bind] in H.
  match type of TC with ?T => change (Hide T) in TC end. match type of Tn with ?T => change (Hide T) in Tn end. match type of Ty with ?T => change (Hide T) in Ty end. match type of TY with ?T => change (Hide T) in TY end.
  destruct (two_digit (v Fg) (v FG) C (-32768) (-327)) as [[G C']| | |] eqn:TD; try discriminate. destruct (two_sound _ _ _ _ _ Bg BG HC TD) as (TG & Tg & HG & _ & _ & Tgn & TgG). clear TD. cbn [bind] in H.
  match type of TG with ?T => change (Hide T) in TG end. match type of Tg with ?T => change (Hide T) in Tg end. match type of Tgn with ?T => change (Hide T) in Tgn end. match type of TgG with ?T => change (Hide T) in TgG end.
  assert (Y0 : (if (Y <? -32767) || (Y >? 32767) then -32768 else Y) = Y).
  { clear - HY. destruct HY as [->|HY]; [reflexivity|]. destruct (Z.ltb_spec Y (-32767)); [lia|]. destruct (Z.gtb_spec Y 32767); [lia|]. reflexivity. }
  rewrite Y0 in H. clear Y0. assert (YO : yopt Y) by (clear - HY; unfold yopt, yrange; lia). cbv zeta in H. cbn [bind] in H.
  match type of H with bind ?o _ = _ => destruct o as [[[Y1 m1] d1]| | |] eqn:SV; try discriminate end.
  apply iso_inv in SV; auto. destruct SV as (EY1 & YO1 & L0 & CV). cbn [bind] in H.
  match type of H with bind ?o _ = _ => destruct o as [[[Y2 m2] d2]| | |] eqn:SU; try discriminate end.
  apply uw_inv in SU; auto; try apply L0. destruct SU as (-> & L1 & CU). cbn [bind] in H.
  match type of H with bind ?o _ = _ => destruct o as [[[Y3 m3] d3]| | |] eqn:SW; try discriminate end.
  apply uw_inv in SW; auto; try apply L1. destruct SW as (-> & L2 & CW). cbn [bind] in H.
  match type of H with bind ?o _ = _ => destruct o as [[[Y4 m4] d4]| | |] eqn:SJ; try discriminate end.
  assert (XJ : Y4 = Y1 /\ later_md m3 d3 m4 d4 /\ (Y1 <> -32768 -> v Fj <> -1 -> chosen (date_of (jan1 Y1 + (v Fj - 1))) m4 d4)).
  { destruct (negb (v Fj =? -1) && negb (Y1 =? -32768)) eqn:EJ.
    2:{ injection SJ as <- <- <-. split; [reflexivity|]. split; [apply later_md_refl; apply L2|]. intros A B. apply Z.eqb_neq in A, B. rewrite A, B in EJ. discriminate. }
    rewrite !andb_true_iff, !negb_true_iff, !Z.eqb_neq in EJ. destruct EJ as [E1 E2]. destruct YO1 as [HY'|HY']; [congruence|]. pose proof (jan1_near _ HY') as J. unfold yrange in HY'.
    rewrite year_id in SJ by lia. rewrite to_days_ok in SJ by (split; [unfold year_in_range; cbn [yr]; lia|apply jan1_exists]). cbn [bind yr mo dy] in SJ. fold (jan1 Y1) in SJ.
    rewrite int_ok in SJ by lia. cbn [bind] in SJ. rewrite int_ok in SJ by lia. cbn [bind] in SJ. destruct (from_near (jan1 Y1 + (v Fj - 1)) ltac:(unfold near; lia)) as (FN & EX & _). rewrite FN in SJ. cbn [bind] in SJ.
    apply agree_inv in SJ; auto; try apply L2. destruct SJ as (-> & _ & LM & CH). auto. }
  clear SJ. destruct XJ as (-> & L3 & CJ). cbn [bind] in H.
  assert (EY : year Y1 = Y1) by (apply year_id; unfold yopt, yrange in YO1; lia). rewrite EY in H.
  set (x0 := YMD Y1 (month (uns m4)) (day (uns d4))) in H. pose proof (byte_range (uns m4)) as [Bm4 _]. pose proof (byte_range (uns d4)) as [_ Bd4].
  match type of H with (?e = _) => assert (Xx : x0 = x) by (match e with bind ?o _ => destruct o as [w0| | |]; cbn [bind] in H; [injection H as E1 E2 E3; exact E1|discriminate..] end) end.
  rewrite <- Xx in OK. rewrite OK in H. rewrite <- Xx in *. clear Xx.
  assert (IC : in_calendar x0) by (apply ymd_ok_spec; [unfold x0; cbn [yr]; unfold yopt, yrange in YO1; lia|unfold x0; cbn [mo]; lia|unfold x0; cbn [dy]; lia|exact OK]).
  pose proof IC as [OY EX].
  assert (NY : Y1 <> -32768) by (unfold year_in_range in OY; unfold x0 in OY; cbn [yr] in OY; lia).
  assert (HX : yrange Y1) by (destruct YO1; [congruence|assumption]).
  rewrite to_days_ok in H by exact IC. cbn [bind] in H. fold (num x0) in H.
  pose proof (year_bounds x0 EX) as YB. pose proof (jan1_near _ HX) as J. pose proof (jan1_succ (yr x0)) as JS. change (yr x0) with Y1 in YB, JS. assert (NX : near (num x0)) by (unfold near; lia).
  rewrite weekday_from_days_eq in H by (unfold is_int; unfold near in NX; lia). pose proof (weekday_range (num x0)) as WR. rewrite weekday_diff_eq in H by lia. cbn [bind] in H.
  rewrite Z.sub_0_r, (Z.mod_small (weekday_of (num x0))) in H by lia.
  destruct (negb (v Fwd =? 8) && negb (v Fwd =? weekday_of (num x0))) eqn:EW; [discriminate|].
  assert (AW : v Fwd <> 8 -> v Fwd = weekday_of (num x0)).
  { intros A. apply Z.eqb_neq in A. rewrite A in EW. cbn [negb andb] in EW. now apply negb_false_iff, Z.eqb_eq in EW. }
  assert (L14 : later_md m1 d1 m4 d4) by (eapply later_md_trans; [exact L1|]; eapply later_md_trans; [exact L2|exact L3]).
  assert (L13 : later_md (v Fm) (v Fd) m4 d4) by (eapply later_md_trans; [exact L0|exact L14]).
  assert (SAME : forall q, chosen q m4 d4 -> yr q = Y1 -> q = x0).
  { intros [a b c] (A & B & _) <-. cbn [yr mo dy] in *. unfold x0. now rewrite <- A, <- B. }
  assert (L23 : later_md m2 d2 m4 d4) by (eapply later_md_trans; [exact L2|exact L3]).
  (* the checks *)
  match type of H with context [if negb (?a || ?b || ?c) then _ else _] => assert (CK : (a || b || c) = false ->
    (G <> -32768 -> G = isoy (num x0)) /\ (v FV <> 100 -> v FV = isow (num x0)) /\ (v FU <> 100 -> v FU = rank 0 (yr x0) (num x0)) /\ (v FW <> 100 -> v FW = rank 1 (yr x0) (num x0))) end.
  { intros E. rewrite E in H. cbn [negb] in H.
    match type of H with context [if negb (G =? -32768) || negb (v FV =? 100) then ?a else ?b] => destruct (if negb (G =? -32768) || negb (v FV =? 100) then a else b) as [[]| | |] eqn:CV' in H; try discriminate end. cbn [bind] in H.
    match type of H with context [if negb (v FU =? 100) then ?a else ?b] => destruct (if negb (v FU =? 100) then a else b) as [[]| | |] eqn:CU' in H; try discriminate end. cbn [bind] in H.
    match type of H with context [if negb (v FW =? 100) then ?a else ?b] => destruct (if negb (v FW =? 100) then a else b) as [[]| | |] eqn:CW' in H; try discriminate end.
    assert (CI : (G <> -32768 -> G = isoy (num x0)) /\ (v FV <> 100 -> v FV = isow (num x0))).
    { apply (iso_check x0 G (v FV)); [exact EX|exact HX|exact CV']. }
    destruct CI as [CI1 CI2]. split; [exact CI1|]. split; [exact CI2|].
    split; [apply (check_inv (num x0) 0 x0); auto|apply (check_inv (num x0) 1 x0); auto]. }
  clear H. unfold Hide in *.
  assert (GV : G <> -32768 -> v FG <> -32768 \/ v Fg <> 100).
  { intros NG. destruct (Z.eq_dec (v Fg) 100) as [E|E]; [|now right]. left. rewrite <- (TgG E). exact NG. }
  assert (GN : v FG <> -32768 \/ v Fg <> 100 -> G <> -32768).
  { intros [A|A]; [rewrite TG by exact A; exact A|auto]. }
  set (full := negb (G =? -32768) && negb (v FV =? 100) && negb (v Fwd =? 8)) in *.
  exists (if full then G else if negb (G =? -32768) then G else isoy (num x0)).
  assert (FULL : full = true -> (G <> -32768 /\ v FV <> 100 /\ v Fwd <> 8) /\ num x0 = iso_day G (v FV) (v Fwd)).
  { unfold full. rewrite !andb_true_iff, !negb_true_iff, !Z.eqb_neq. intros [[A B] D]. split; [auto|]. destruct (CV A B D) as [CH YQ].
    rewrite <- (SAME _ (chosen_later _ _ _ _ _ CH L14) YQ). apply num_date_of. }
  assert (NOT : full = false -> G <> -32768 \/ v FV <> 100 -> (G <> -32768 -> G = isoy (num x0)) /\ (v FV <> 100 -> v FV = isow (num x0))).
  { intros NF A. assert (QI' : v FU <> 100 \/ v FW <> 100 -> v Fwd <> 8 -> full = true).
    { intros B D. destruct QI as [Q1 Q2]; [destruct A as [A|A]; [destruct (GV A); auto|auto]|exact B|exact D|]. unfold full. rewrite !andb_true_iff, !negb_true_iff, !Z.eqb_neq. auto. }
    destruct CK as (C1 & C2 & _); [|auto]. rewrite NF. cbn [orb].
    destruct (Z.eqb_spec (v Fwd) 8) as [E8|E8]; [cbn [negb]; now rewrite !andb_false_r|].
    destruct (Z.eqb_spec (v FU) 100) as [EU|EU]; [|rewrite QI' in NF by auto; discriminate]. destruct (Z.eqb_spec (v FW) 100) as [EWk|EWk]; [|rewrite QI' in NF by auto; discriminate]. cbn [negb]. now rewrite !andb_false_r. }
  assert (GG : forall P : Prop, (G <> -32768 -> (if full then G else if negb (G =? -32768) then G else isoy (num x0)) = G -> P) -> (G <> -32768 -> P)).
  { intros P HP NG. apply HP; [exact NG|]. apply Z.eqb_neq in NG. rewrite NG. cbn [negb]. now destruct full. }
  constructor.
  - exact IC.
  - intros A. unfold x0. cbn [yr]. rewrite <- (TY A). apply EY1. rewrite (TY A). exact A.
  - intros A. unfold x0. cbn [yr]. rewrite EY1 by auto. auto.
  - intros A. destruct L13 as (LM & _ & SM & _). specialize (LM A). unfold x0. cbn [mo]. rewrite LM. clear - LM Bm EX x0.
    destruct (Z_lt_le_dec (v Fm) 0); [|apply month_small; unfold small in *; lia]. pose proof (byte_neg (v Fm) ltac:(unfold small in *; lia)). apply exists_md in EX. unfold x0 in EX. cbn [mo dy] in EX. rewrite LM in EX. lia.
  - intros A. destruct L13 as (_ & LD & _ & SD). specialize (LD A). unfold x0. cbn [dy]. rewrite LD. clear - LD Bd EX x0.
    destruct (Z_lt_le_dec (v Fd) 0); [|apply day_small; unfold small in *; lia]. pose proof (byte_neg (v Fd) ltac:(unfold small in *; lia)). apply exists_md in EX. unfold x0 in EX. cbn [mo dy] in EX. rewrite LD in EX. lia.
  - exact AW.
  - intros A. specialize (CJ NY A). set (y := date_of (jan1 Y1 + (v Fj - 1))) in *. exists y.
    split; [apply date_of_props|]. split; [unfold y; rewrite num_date_of; unfold x0; cbn [yr]; clear; lia|]. destruct CJ as (A1 & A2 & _). unfold x0. cbn [mo dy]. auto.
  - intros A. destruct (Z.eq_dec (v Fwd) 8) as [E8|E8].
    + apply CK; [|exact A]. unfold full. rewrite E8. change (8 =? 8) with true. cbn [negb]. now rewrite !andb_false_r.
    + destruct (CU NY A E8) as [CH YQ]. apply (rank_week x0 (v FU) (v Fwd) 0); [lia|].
      rewrite <- (SAME _ (chosen_later _ _ _ _ _ CH L23) YQ) at 1. rewrite num_date_of. reflexivity.
  - intros A. destruct (Z.eq_dec (v Fwd) 8) as [E8|E8].
    + apply CK; [|exact A]. unfold full. rewrite E8. change (8 =? 8) with true. cbn [negb]. now rewrite !andb_false_r.
    + destruct (CW NY A E8) as [CH YQ]. apply (rank_week x0 (v FW) (v Fwd) 1); [lia|].
      rewrite <- (SAME _ (chosen_later _ _ _ _ _ CH L3) YQ) at 1. rewrite num_date_of. reflexivity.
  - intros A. unfold x0. cbn [yr]. rewrite EY1 by auto. auto.
  - intros A. apply GG; [|auto]. intros _ ->. auto.
  - intros A. apply GG; [|auto]. intros _ ->. auto.
  - intros A. destruct full eqn:FU.
    + destruct (FULL eq_refl) as [_ ->]. unfold iso_day. clear. pose proof (Z.mod_pos_bound (v Fwd - 1) 7). lia.
    + destruct (NOT eq_refl) as [N1 N2]; [now right|]. specialize (N2 A).
      assert (EG : (if negb (G =? -32768) then G else isoy (num x0)) = isoy (num x0)) by (destruct (Z.eqb_spec G (-32768)) as [E|E]; cbn [negb]; auto).
      rewrite EG, N2. pose proof (iso_days (num x0)) as [ID1 ID2]. clear - ID1 ID2. set (i := iso1 _) in *. set (w := isow _) in *. clearbody i w. div_lia.
  - destruct full eqn:FU.
    + right. destruct (FULL eq_refl) as [(A & B & D) _]. auto.
    + left. destruct (Z.eqb_spec G (-32768)) as [E|E]; cbn [negb]; [reflexivity|]. apply (NOT eq_refl); auto.
Qed.
