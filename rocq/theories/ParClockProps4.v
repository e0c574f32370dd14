(** C79: which texts are accepted as a time point, for the format "%F %T". *)
From Verif Require Import Base IntModel ToNumModel DateModel DateSpec DateProofs DateProofs2 FmtModel FmtSpec FmtProofs FmtProofs2 FmtProofs3 FmtProofs4 ParModel ParSpec ParClockSpec ParProofs1 ParProofs2 ParProofs6 ParProofs7 ParProofs8 ParProofs9 ParProofs10 ParProofs11 ParProofs12 ParProps2 ParProps3 ParTimeProofs1 ParTimeProofs2 ParTimeProps ParClockProps ParClockProps2 ParClockProps3 ParClockProofs ParSysProps.
Local Open Scope Z_scope.
Local Open Scope outcome_scope.
Local Open Scope char_scope.

Definition six (z a b h m t : Z) : vals := upd (five z a b h m) Fs t.
Lemma resolve_six z a b h m t : -9999 <= z <= 9999 -> 0 <= a <= 99 -> 0 <= b <= 99 -> exists wd, resolve_date (six z a b h m t) = Ok (YMD z a b, wd, -1).
Proof. intros Z A B. destruct (resolve_three z a b Z A B) as [wd E]. exists wd. rewrite <- E. reflexivity. Qed.

Lemma read_T_inv s l s' : okst s -> read hms_args s = Ok (l, s') -> failb s' = false ->
  exists m d a b, l = [a; b] /\ rest s = m ++ ":" :: d ++ ":" :: rest s' /\ digits_up_to 2 a m /\ digits_up_to 2 b d /\ okst s'.
Proof.
  intros O R FB. unfold hms_args in R. cbn [read] in R. change (read_unsigned 1 2 ?q) with (read_unsigned 1 (Z.of_nat 2) q) in R.
  destruct (read_u_inv 2 s ltac:(lia) O) as (a & s2 & R2 & Ba & H2). rewrite R2 in R.
  destruct (failb s2) eqn:F2; [cbn [bind] in R; injection R as <- <-; congruence|]. destruct H2 as [H2|(O2 & m & E2 & Dm & _)]; [discriminate|].
  destruct (read_c_inv ":" s2 ltac:(discriminate) O2) as [C2|(r2 & C2 & RC2)]; [rewrite C2 in R; cbn [bind] in R; injection R as <- <-; congruence|].
  rewrite RC2 in R. cbn [failb str_is] in R. fold (str_is r2) in R.
  change (read_unsigned 1 2 ?q) with (read_unsigned 1 (Z.of_nat 2) q) in R.
  destruct (read_u_inv 2 (str_is r2) ltac:(lia) (okst_str r2)) as (b & s3 & R3 & Bb & H3). rewrite R3 in R.
  destruct (failb s3) eqn:F3; [cbn [bind] in R; injection R as <- <-; congruence|]. destruct H3 as [H3|(O3 & d & E3 & Dd & _)]; [discriminate|].
  destruct (read_c_inv ":" s3 ltac:(discriminate) O3) as [C3|(r3 & C3 & RC3)]; [rewrite C3 in R; cbn [bind] in R; injection R as <- <-; congruence|].
  rewrite RC3 in R. cbn [failb str_is] in R. fold (str_is r3) in R.
  cbn [read bind] in R. change (10 ^ Z.of_nat 2) with 100 in Ba, Bb. rewrite !conv_int in R by lia. injection R as <- <-.
  exists m, d, a, b. cbn [rest str_is] in E2, E3 |- *. split; [reflexivity|]. split; [rewrite E2, C2, E3, C3; reflexivity|]. split; [exact Dm|]. split; [exact Dd|]. apply okst_str.
Qed.
(** The whole loop *)
Lemma loop_FT w s z a b s1 l s2 x s3 t : read iso_args (str_is s) = Ok ([z; a; b], s1) -> failb s1 = false ->
  read hms_args (blank s1) = Ok (l, s2) -> failb (blank s1) = false ->
  (if failb s2 then (ld_zero, s2) else read_long_double 1 (sec_chars w) s2) = (x, s3) -> round_sec w x = Ok t ->
  loop w (!"%F %T") (P (stream s) init_vals [] false NUL (-1) false) =
    Ok (P s3 (if failb s3 then three z a b else six z a b (vof l 0) (vof l 1) t) [] false NUL (-1) false).
Proof.
  intros R F R2 F2 RL RS. change (!"%F %T") with ["%"; "F"; " "; "%"; "T"].
  rewrite loop_cons by reflexivity. change (step w "%" (P (stream s) init_vals [] false NUL (-1) false)) with (Ok (P (stream s) init_vals [] true NUL (-1) false)). cbn [bind].
  rewrite loop_cons by reflexivity. change (step w "F" ?q) with (in_directive w "F" q). cbn [in_directive p_md p_is]. change (Ascii.eqb NUL NUL) with true. cbv iota. change (wd_or _ 4) with 4. fold iso_args. change (stream s) with (str_is s). rewrite R. cbn [bind with_is p_is p_v p_zone p_cmd p_md p_w p_inw vof nth].
  assert (Q : checked_set Fd b (checked_set Fm a (checked_set FY z (P s1 init_vals [] true NUL (-1) false))) = P s1 (three z a b) [] true NUL (-1) false).
  { change (checked_set FY z (P s1 init_vals [] true NUL (-1) false)) with (if failb s1 then P s1 init_vals [] true NUL (-1) false else P s1 (upd init_vals FY z) [] true NUL (-1) false). rewrite F.
    change (checked_set Fm a (P s1 (upd init_vals FY z) [] true NUL (-1) false)) with (if failb s1 then P s1 (upd init_vals FY z) [] true NUL (-1) false else P s1 (upd (upd init_vals FY z) Fm a) [] true NUL (-1) false). rewrite F.
    change (checked_set Fd b (P s1 (upd (upd init_vals FY z) Fm a) [] true NUL (-1) false)) with (if failb s1 then P s1 (upd (upd init_vals FY z) Fm a) [] true NUL (-1) false else P s1 (three z a b) [] true NUL (-1) false). rewrite F. reflexivity. }
  change (with_is (P (str_is s) init_vals [] true NUL (-1) false) s1) with (P s1 init_vals [] true NUL (-1) false). rewrite Q. unfold reset at 1. cbn [p_is p_v p_zone]. rewrite loop_cons by exact F.
  assert (Q2 : step w " " (P s1 (three z a b) [] false NUL (-1) false) = Ok (P (blank s1) (three z a b) [] false NUL (-1) false)).
  { change (step w " " (P s1 (three z a b) [] false NUL (-1) false)) with (Ok (if good s1 then P (ws s1) (three z a b) [] false NUL (-1) false else P s1 (three z a b) [] false NUL (-1) false)).
    unfold blank. now destruct (good s1). }
  rewrite Q2. cbn [bind]. rewrite loop_cons by exact F2.
  change (step w "%" (P ?u ?v [] false NUL (-1) false)) with (Ok (P u v [] true NUL (-1) false)). cbn [bind]. rewrite loop_cons by exact F2.
  change (step w "T" ?q) with (in_directive w "T" q). cbn [in_directive p_md]. change (Ascii.eqb NUL NUL) with true. cbv iota. unfold clock. cbn [p_is]. fold hms_args. rewrite R2. cbn [bind]. rewrite RL, RS. cbn [bind loop].
  change (with_is (P ?q ?v [] true NUL (-1) false) s3) with (P s3 v [] true NUL (-1) false).
  f_equal. destruct (failb s3) eqn:F3.
  - assert (Q3 : forall f y, checked_set f y (P s3 (three z a b) [] true NUL (-1) false) = P s3 (three z a b) [] true NUL (-1) false) by (intros f y; unfold checked_set; cbn [p_is]; now rewrite F3).
    rewrite !Q3. reflexivity.
  - change (checked_set FH ?u (P s3 (three z a b) [] true NUL (-1) false)) with (if failb s3 then P s3 (three z a b) [] true NUL (-1) false else P s3 (upd (three z a b) FH u) [] true NUL (-1) false). rewrite F3.
    change (checked_set FM ?v (P s3 (upd (three z a b) FH ?u) [] true NUL (-1) false)) with (if failb s3 then P s3 (upd (three z a b) FH u) [] true NUL (-1) false else P s3 (five z a b u v) [] true NUL (-1) false). rewrite F3.
    change (checked_set Fs t (P s3 (five z a b ?u ?v) [] true NUL (-1) false)) with (if failb s3 then P s3 (five z a b u v) [] true NUL (-1) false else P s3 (six z a b u v t) [] true NUL (-1) false). rewrite F3. reflexivity.
Qed.
Lemma parse_FT_fail w s l s1 : read iso_args (str_is s) = Ok (l, s1) -> failb s1 = true -> parse_local w (!"%F %T") s = Throw RuntimeError.
Proof.
  intros R F. unfold parse_local, from_stream. change (good (stream s)) with true. cbn [negb]. change (c_str (!"%F %T")) with ["%"; "F"; " "; "%"; "T"].
  rewrite loop_cons by reflexivity. change (step w "%" (P (stream s) init_vals [] false NUL (-1) false)) with (Ok (P (stream s) init_vals [] true NUL (-1) false)). cbn [bind].
  rewrite loop_cons by reflexivity. change (step w "F" ?q) with (in_directive w "F" q). cbn [in_directive p_md p_is]. change (Ascii.eqb NUL NUL) with true. cbv iota. change (wd_or _ 4) with 4. fold iso_args. change (stream s) with (str_is s). rewrite R. cbn [bind].
  change (with_is (P (str_is s) init_vals [] true NUL (-1) false) s1) with (P s1 init_vals [] true NUL (-1) false).
  assert (Q : forall f x, checked_set f x (P s1 init_vals [] true NUL (-1) false) = P s1 init_vals [] true NUL (-1) false).
  { intros f x. unfold checked_set. cbn [p_is]. now rewrite F. }
  rewrite !Q. unfold reset at 1. cbn [p_is p_v p_zone loop]. rewrite F. cbn [bind p_is p_cmd]. rewrite andb_false_r. cbn [bind]. rewrite F. reflexivity.
Qed.
Lemma tod_six w z a b h m q : (w <= 7)%nat -> 0 <= h <= 99 -> 0 <= m <= 99 -> 0 <= q <= 1000000000000000000 ->
  resolve_tod w (six z a b h m q) h (-1) no_tod true = Ok (HMS h m (q / ticks w) (q mod ticks w) false, true).
Proof.
  intros W A B Q. 
  assert (V : vok (hms3 h m q)) by (intros g; destruct g; try (left; reflexivity); right; cbn; lia).
  assert (E : resolve_tod w (six z a b h m q) h (-1) no_tod true = resolve_tod w (hms3 h m q) h (-1) no_tod true) by reflexivity. rewrite E.
  destruct (resolve_tod_safe w W (hms3 h m q) h (-1) true V ltac:(right; lia) ltac:(now left)) as [S|([t has] & S & _)].
  - exfalso. unfold resolve_tod in S. cbv zeta in S. change (hms3 h m q FM) with m in S. change (hms3 h m q Fs) with q in S. pose proof (k_range w W) as K.
    destruct (Z.eqb_spec h (nav FH)) as [X|_]; [cbn in X; lia|]. destruct (Z.eqb_spec m (nav FM)) as [X|_]; [cbn in X; lia|]. destruct (Z.eqb_spec q (nav Fs)) as [X|_]; [cbn in X; lia|]. cbn [negb] in S.
    rewrite ll_ok in S by nia. cbn [bind] in S. rewrite (proj1 (hms_of_eq w (h * (3600 * ticks w)) ltac:(lia) ltac:(nia))) in S. cbn [bind] in S.
    destruct (arith llong_t (q ÷ ticks w * ticks w)) as [n2|e| |] eqn:A2; cbn [bind] in S; try discriminate. 2: exact (arith_nothrow _ _ _ A2).
    destruct (arith llong_t (q - n2)) as [n3|e| |] eqn:A3; cbn [bind] in S; try discriminate. exact (arith_nothrow _ _ _ A3).
  - rewrite S. apply tod_sound in S; [|exact W|right; lia|right; change (hms3 h m q FM) with m; lia|right; change (hms3 h m q Fs) with q; lia].
    change (hms3 h m q FM) with m in S. change (hms3 h m q Fs) with q in S. unfold or0 in S. destruct S as [-> ->].
    destruct (Z.eqb_spec h (nav FH)) as [X|_]; [cbn in X; lia|]. destruct (Z.eqb_spec m (nav FM)) as [X|_]; [cbn in X; lia|]. destruct (Z.eqb_spec q (nav Fs)) as [X|_]; [cbn in X; lia|]. reflexivity.
Qed.
Lemma conv_hmq w h m q : (w <= 7)%nat -> 0 <= h -> 0 <= m -> 0 <= q -> conventional w (HMS h m (q / ticks w) (q mod ticks w) false) = true <-> h <= 23 /\ m <= 59 /\ q < 60 * ticks w.
Proof.
  intros W H M Q. pose proof (k_range w W) as K. unfold conventional. cbn [neg_ h_ m_ s_ sub_ negb andb]. rewrite !andb_true_iff, !Z.ltb_lt.
  pose proof (Z.mod_pos_bound q (ticks w) ltac:(lia)) as MB. pose proof (Z.div_mod q (ticks w) ltac:(lia)) as DM. split.
  - intros [[[H1 H2] _] H3]. split; [lia|]. split; [lia|]. nia.
  - intros (H1 & H2 & H3). repeat split; try lia. apply Z.div_lt_upper_bound; lia.
Qed.
Lemma split_point a p b a' p' b' : Forall is_dig a -> Forall is_dig a' -> (p = !"." \/ (p = [] /\ b = [])) -> (p' = !"." \/ (p' = [] /\ b' = [])) ->
  a ++ p ++ b = a' ++ p' ++ b' -> a = a'.
Proof.
  intros D D' P P'. revert a' D'. induction D as [|c a C D IH]; intros a' D' E; inversion D' as [|c' l C' DL]; subst; [reflexivity| | |].
  - exfalso. cbn [app] in E. destruct P as [->|[-> ->]]; [|discriminate E]. cbn [app] in E. injection E as <- _. unfold is_dig in C'. cbn in C'. lia.
  - exfalso. cbn [app] in E. destruct P' as [->|[-> ->]]; [|discriminate E]. cbn [app] in E. injection E as -> _. unfold is_dig in C. cbn in C. lia.
  - cbn [app] in E. injection E as -> E. f_equal. now apply IH.
Qed.
Lemma no_more_app d u v : u <> [] -> no_more 2 d (u ++ v) <-> no_more 2 d u.
Proof. intros N. destruct u as [|c u]; [congruence|]. reflexivity. Qed.
Lemma seconds_whole w q t r : seconds_text w q t -> stops w t r -> (w <= 7)%nat ->
  exists v, whole_seconds w v t r /\ 0 <= q /\ (q < 60 * 10 ^ Z.of_nat w <-> v <= 59).
Proof.
  intros (a & p & b & -> & D & PB & L & N) ST W. exists (value a). fold (seconds_width w) in L. split.
  - split; [exists a, p, b; auto|]. split; [exact L|exact ST].
  - apply (sixty w a b q W D); [|exact N]. rewrite !app_length in L. rewrite app_length. clear N ST D. destruct PB as [->|[-> ->]]; [change (length (!".")) with 1%nat in L; destruct b|]; cbn [length] in L |- *; lia.
Qed.
Lemma whole_unique w v v' t r r' : whole_seconds w v t r -> whole_seconds w v' t r' -> v = v'.
Proof.
  intros [(a & p & b & E & D & PB & <-) _] [(a' & p' & b' & E' & D' & PB' & <-) _]. rewrite E in E'.
  apply Forall_app in D. apply Forall_app in D'. f_equal. apply (split_point a p b a' p' b'); tauto.
Qed.
Lemma parse_FT w s z a b s1 h m s2 x s3 q : (w <= 7)%nat -> read iso_args (str_is s) = Ok ([z; a; b], s1) -> failb s1 = false ->
  read hms_args (blank s1) = Ok ([h; m], s2) -> failb (blank s1) = false -> failb s2 = false ->
  read_long_double 1 (sec_chars w) s2 = (x, s3) -> failb s3 = false -> round_sec w x = Ok q ->
  -9999 <= z <= 9999 -> 0 <= a <= 99 -> 0 <= b <= 99 -> 0 <= h <= 99 -> 0 <= m <= 99 -> 0 <= q <= 1000000000000000000 ->
  parse_local w (!"%F %T") s = if ymd_ok (YMD z a b) && ((h <=? 23)%Z && (m <=? 59)%Z && (q <? 60 * ticks w)%Z) then Ok (((num (YMD z a b) * 24 + h) * 60 + m) * 60 * ticks w + q) else Throw RuntimeError.
Proof.
  intros W R F1 R2 FB F2 RL F3 RS Z A B H M Q. pose proof (k_range w W) as K. unfold parse_local, from_stream. change (good (stream s)) with true. cbn [negb]. change (c_str (!"%F %T")) with (!"%F %T").
  rewrite (loop_FT w s z a b s1 [h; m] s2 x s3 q R F1 R2 FB) by (rewrite ?F2; assumption). cbn [bind p_is p_cmd]. rewrite andb_false_r. cbn [bind]. rewrite F3. cbn [p_v p_zone vof nth].
  destruct (resolve_six z a b h m q Z A B) as [wd ->]. cbn [bind].
  change (resolve_hour (six z a b h m q)) with (Ok h). cbn [bind f_tod f_has tod_fields]. rewrite tod_six by assumption. cbn [bind r_fields f_ymd f_tod].
  assert (C : conventional w (HMS h m (q / ticks w) (q mod ticks w) false) = ((h <=? 23)%Z && (m <=? 59)%Z && (q <? 60 * ticks w)%Z)).
  { apply eq_true_iff_eq. rewrite conv_hmq by lia. rewrite !andb_true_iff, !Z.leb_le, Z.ltb_lt. tauto. }
  destruct (ymd_ok (YMD z a b)) eqn:OK; [|reflexivity]. cbn [andb].
  destruct (conventional w (HMS h m (q / ticks w) (q mod ticks w) false)) eqn:CV; rewrite <- C; [|reflexivity]. cbn [require bind].
  destruct (tod_day w h m q W ltac:(lia) ltac:(lia) ltac:(lia) CV) as (TD & DR & _). rewrite TD.
  apply ymd_ok_spec in OK; [|cbn; lia..]. rewrite to_days_ok by exact OK. fold (num (YMD z a b)). cbn [bind].
  assert (HX : yrange (yr (YMD z a b))) by (unfold yrange; cbn; lia). pose proof (year_bounds _ (proj2 OK)) as NB. pose proof (jan1_near _ HX) as J. pose proof (jan1_succ (yr (YMD z a b))) as JS. cbn [yr] in *.
  assert (-20000000 <= num (YMD z a b) <= 20000000) by lia. set (n := num (YMD z a b)) in *. clearbody n. set (k := ticks w) in *. clearbody k.
  rewrite ll_ok by nia. cbn [bind]. rewrite ll_ok by nia. f_equal. ring.
Qed.
(** "%F %T" accepts a text only if it names an existing date and a time of day; the result is that time
    point, the seconds rounded to the nearest tick *)
Theorem C79_date_clock w s tp : (w <= 7)%nat -> parse_local w (!"%F %T") s = Ok tp ->
  exists x n h m v t q, date_clock w s x h m v t /\ day_number x n /\ seconds_text w q t /\ tp = ((n * 24 + h) * 60 + m) * 60 * 10 ^ Z.of_nat w + q.
Proof.
  intros W H. fold (ticks w).
  assert (YB : forall z y, number_up_to 4 z y -> -9999 <= z <= 9999).
  { intros z y (sg & ds & n & _ & D & SG). pose proof (nm_range 4 ds n D) as B. change (10 ^ Z.of_nat 4) with 10000 in B. destruct SG as [[_ ->]|[[_ ->]|[_ ->]]]; lia. }
  assert (DB : forall z y, digits_up_to 2 z y -> 0 <= z <= 99) by (intros z y D; pose proof (nm_range 2 y z D) as B; change (10 ^ Z.of_nat 2) with 100 in B; lia).
  destruct (read_sok iso_args ltac:(unfold iso_args; aok) (str_is s) (sok_str s)) as (l & s1 & R & _).
  destruct (failb s1) eqn:F1; [rewrite (parse_FT_fail w s l s1 R F1) in H; discriminate|].
  destruct (read_F_inv s l s1 R F1) as (O1 & y & mm & d & z & a & b & -> & E & Ny & Nm & Nd & NM).
  destruct (blank_ok s1 O1) as (O2 & bl & EB & WB). assert (SO : sok (blank s1)) by (right; exact O2).
  destruct (read_sok hms_args ltac:(unfold hms_args; aok) (blank s1) SO) as (l & s2 & R2 & SO2 & _).
  assert (X : exists x s3 q, (if failb s2 then (ld_zero, s2) else read_long_double 1 (sec_chars w) s2) = (x, s3) /\ round_sec w x = Ok q /\ -1 <= q <= 1000000000000000000 /\ (failb s3 = false -> failb s2 = false)).
  { destruct (failb s2) eqn:F2.
    - destruct (round_sec_zero w W) as (t & RZ & T). exists ld_zero, s2, t. split; [reflexivity|]. split; [exact RZ|]. split; [exact T|]. congruence.
    - destruct (read_ld_sok w s2 W SO2) as (x & s3 & t & RL & _ & Rt & T). exists x, s3, t. auto. }
  destruct X as (x & s3 & q & RL & RS & BQ & FF).
  destruct (failb s3) eqn:F3.
  { exfalso. unfold parse_local, from_stream in H. change (good (stream s)) with true in H. cbn [negb] in H. change (c_str (!"%F %T")) with (!"%F %T") in H.
    rewrite (loop_FT w s z a b s1 l s2 x s3 q R F1 R2 (proj1 O2) RL RS) in H. cbn [bind p_is p_cmd] in H. rewrite andb_false_r in H. cbn [bind] in H. rewrite F3 in H. discriminate. }
  pose proof (FF eq_refl) as F2. rewrite F2 in RL.
  destruct (read_T_inv _ l s2 O2 R2 F2) as (ht & mt & h & m & -> & E2 & Dh & Dm & O3).
  destruct (seconds_inv2 w s2 x s3 W O3 RL F3) as (t & q' & E3 & RS' & ST & SP). rewrite RS in RS'. injection RS' as <-.
  destruct (seconds_whole w q t _ ST SP W) as (v & WS & Q0 & Q60).
  pose proof (YB _ _ Ny) as B1. pose proof (DB _ _ Nm) as B2. pose proof (DB _ _ Nd) as B3. pose proof (DB _ _ Dh) as B4. pose proof (DB _ _ Dm) as B5.
  rewrite (parse_FT w s z a b s1 h m s2 x s3 q W R F1 R2 (proj1 O2) F2 RL F3 RS B1 B2 B3 B4 B5 ltac:(lia)) in H.
  destruct (ymd_ok (YMD z a b)) eqn:OK; [|discriminate]. cbn [andb] in H. destruct ((h <=? 23)%Z && (m <=? 59)%Z && (q <? 60 * ticks w)%Z) eqn:CV; [|discriminate]. injection H as <-.
  rewrite !andb_true_iff, !Z.leb_le, Z.ltb_lt in CV. destruct CV as [[L1 L2] L3]. apply ymd_ok_spec in OK; [|cbn; lia..].
  exists (YMD z a b), (num (YMD z a b)), h, m, v, t, q. split; [|split; [apply num_day_number, OK|split; [exact ST|reflexivity]]].
  exists y, mm, d, bl, ht, mt, (rest s3). split; [rewrite E, EB, E2, E3; reflexivity|]. split; [exact Ny|]. split; [exact Nm|]. split; [exact Nd|]. split.
  { rewrite EB, E2, app_assoc in NM. apply no_more_app in NM; [exact NM|]. destruct bl; [|discriminate]. destruct ht; [|discriminate]. destruct Dh as [L _]. cbn in L. lia. }
  split; [exact OK|]. split; [exact WB|]. split; [exact Dh|]. split; [exact Dm|]. split; [exact WS|]. split; [exact L1|]. split; [exact L2|]. apply Q60. exact L3.
Qed.
(** ... and accepts all of these texts *)
Theorem C79_date_clock_accepts w s x h m v t : (w <= 7)%nat -> date_clock w s x h m v t -> exists tp, parse_local w (!"%F %T") s = Ok tp.
Proof.
  intros W (y & mm & d & bl & ht & mt & r & -> & Ny & Nm & Nd & NM & IC & WB & Dh & Dm & WS & L1 & L2 & L3).
  assert (YB : forall z y, number_up_to 4 z y -> -9999 <= z <= 9999).
  { intros z y0 (sg & ds & n & _ & D & SG). pose proof (nm_range 4 ds n D) as B. change (10 ^ Z.of_nat 4) with 10000 in B. destruct SG as [[_ ->]|[[_ ->]|[_ ->]]]; lia. }
  assert (DB : forall z y, digits_up_to 2 z y -> 0 <= z <= 99) by (intros z y0 D; pose proof (nm_range 2 y0 z D) as B; change (10 ^ Z.of_nat 2) with 100 in B; lia).
  pose proof (YB _ _ Ny) as B1. pose proof (DB _ _ Nm) as B2. pose proof (DB _ _ Nd) as B3. pose proof (DB _ _ Dh) as B4. pose proof (DB _ _ Dm) as B5.
  assert (NM' : no_more 2 d (bl ++ ht ++ ":" :: mt ++ ":" :: t ++ r)).
  { rewrite app_assoc. apply no_more_app; [|exact NM]. destruct bl; [|discriminate]. destruct ht; [|discriminate]. destruct Dh as [L _]. cbn in L. lia. }
  destruct (read_F_fwd2 y mm d (bl ++ ht ++ ":" :: mt ++ ":" :: t ++ r) _ _ _ Ny Nm Nd NM') as (s1 & R & O1 & E1).
  assert (BL : blank s1 = str_is (ht ++ ":" :: mt ++ ":" :: t ++ r)).
  { destruct ht as [|c ht]; [destruct Dh as [L _]; cbn in L; lia|]. destruct Dh as (_ & FD & _). inversion FD as [|? ? Dc _]; subst. clear FD.
    assert (~ white c) as NW by (unfold white; unfold is_dig in Dc; lia).
    destruct (okst_cases s1 O1) as [Q|[Q _]]; [|rewrite E1 in Q; destruct bl; discriminate Q]. rewrite Q, E1. unfold blank, ws. change (good (str_is ?q)) with true. cbv iota. cbn [rest str_is app].
    rewrite white_skip by assumption. reflexivity. }
  pose proof (read_T_fwd ht mt (t ++ r) h m Dh Dm) as R2. rewrite <- BL in R2.
  assert (FB : failb (blank s1) = false) by (rewrite BL; reflexivity).
  pose proof WS as [(a & p & b & ET & D & PB & EV) [LT ST]].
  assert (HD : exists c u, t ++ r = c :: u /\ (is_dig c \/ c = ".")).
  { rewrite ET. destruct a as [|c a]; cbn [app] in *.
    - destruct PB as [->|[-> ->]]; [|subst t; cbn in LT; lia]. eexists _, _. split; [reflexivity|]. now right.
    - eexists _, _. split; [reflexivity|]. left. now inversion D. }
  destruct HD as (c & u & EC & HC). destruct (point_or_digit w c u W HC) as (x3 & s3 & q & RL & F3 & RS & BQ). rewrite <- EC in RL.
  destruct (seconds_inv2 w _ x3 s3 W (okst_str _) RL F3) as (t' & q' & E3 & RS' & STX & SP). rewrite RS in RS'. injection RS' as <-. cbn [rest str_is] in E3.
  destruct (seconds_whole w q t' _ STX SP W) as (v' & WS' & Q0 & Q60).
  assert (PS : point_shape t) by (exists a, p, b; auto). assert (PS' : point_shape t') by (destruct WS' as [(a' & p' & b' & X1 & X2 & X3 & _) _]; exists a', p', b'; auto).
  destruct (shape_unique w t r t' (rest s3) E3 PS PS' (proj2 LT) (proj2 (proj1 (proj2 WS'))) ST SP) as [<- _].
  rewrite <- (whole_unique w v v' t _ _ WS WS') in Q60.
  destruct x as [z a1 b1]. cbn [yr mo dy] in *.
  rewrite (parse_FT w _ z a1 b1 s1 h m _ x3 s3 q W R (proj1 O1) R2 FB eq_refl RL F3 RS B1 B2 B3 B4 B5 ltac:(lia)).
  assert (OK : ymd_ok (YMD z a1 b1) = true) by (apply ymd_ok_spec; [cbn; lia..|exact IC]). rewrite OK.
  assert (L4 : q < 60 * ticks w) by (apply Q60; exact L3).
  rewrite (proj2 (Z.leb_le h 23) L1), (proj2 (Z.leb_le m 59) L2), (proj2 (Z.ltb_lt _ _) L4). cbn [andb]. eauto.
Qed.
(** Every other text is rejected, and a sys_time is parsed in the same way. *)
Theorem C79_date_clock_rejects w s : (w <= 7)%nat -> (forall x h m v t, ~ date_clock w s x h m v t) ->
  parse_local w (!"%F %T") s = Throw RuntimeError /\ parse_sys w (!"%F %T") s = Throw RuntimeError.
Proof.
  intros W H. rewrite (C80_sys_local w (!"%F %T") s W) by reflexivity.
  enough (parse_local w (!"%F %T") s = Throw RuntimeError) by auto.
  destruct (C80_local_time w (!"%F %T") s W eq_refl) as [(tp & E & _)|E]; [|exact E]. exfalso.
  destruct (C79_date_clock w s tp W E) as (x & n & h & m & v & t & q & D & _). exact (H x h m v t D).
Qed.
Example C79_date_clock_example :
  (exists x h m v t, date_clock 3 (!"2024-2-29  7:05:9.1239 and more") x h m v t) /\
  parse_local 3 (!"%F %T") (!"2024-2-29  7:05:9.1239 and more") = Ok (((19782 * 24 + 7) * 60 + 5) * 60 * 1000 + 9124) /\
  (forall x h m v t, ~ date_clock 0 (!"2024-02-29 12:30:60") x h m v t).
Proof.
  assert (E : parse_local 3 (!"%F %T") (!"2024-2-29  7:05:9.1239 and more") = Ok (((19782 * 24 + 7) * 60 + 5) * 60 * 1000 + 9124)) by (vm_compute; reflexivity).
  split; [|split; [exact E|]].
  - apply C79_date_clock in E; [|lia]. destruct E as (x & n & h & m & v & t & q & D & _). now exists x, h, m, v, t.
  - intros x h m v t D. destruct (C79_date_clock_accepts 0 _ x h m v t ltac:(lia) D) as [tp F]. vm_compute in F. discriminate.
Qed.
Print Assumptions C79_date_clock.
