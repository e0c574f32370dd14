(** C79: which texts are accepted as a time point, for the format "%F %R". *)
From Verif Require Import Base IntModel ToNumModel DateModel DateSpec DateProofs DateProofs2 FmtModel FmtSpec FmtProofs2 FmtProofs3 FmtProofs4 ParModel ParSpec ParClockSpec ParProofs1 ParProofs2 ParProofs6 ParProofs7 ParProofs8 ParProofs9 ParProofs10 ParProofs11 ParProofs12 ParProps2 ParProps3 ParClockProps.
Local Open Scope Z_scope.
Local Open Scope outcome_scope.
Local Open Scope char_scope.

Definition five (z a b h m : Z) : vals := upd (upd (three z a b) FH h) FM m.
Lemma resolve_five z a b h m : -9999 <= z <= 9999 -> 0 <= a <= 99 -> 0 <= b <= 99 -> exists wd, resolve_date (five z a b h m) = Ok (YMD z a b, wd, -1).
Proof.
  intros Z A B. destruct (resolve_three z a b Z A B) as [wd E]. exists wd. rewrite <- E. reflexivity.
Qed.
Lemma tod_five w z a b h m : (w <= 12)%nat -> 0 <= h <= 99 -> 0 <= m <= 99 -> 
  resolve_tod w (five z a b h m) h (-1) no_tod true = Ok (HMS h m 0 0 false, true).
Proof.
  intros W A B. destruct (tod_two w h m W A B) as [T _].
  unfold resolve_tod in *. cbv zeta in *. change (two h m FM) with m in T. change (two h m Fs) with (nav Fs) in T.
  change (five z a b h m FM) with m. change (five z a b h m Fs) with (nav Fs).
  destruct (Z.eqb_spec h (nav FH)) as [E|_]; [cbn in E; lia|]. exact T.
Qed.
Definition blank (s : ist) : ist := if good s then ws s else s.
Lemma blank_ok s : okst s -> okst (blank s) /\ exists t, rest s = t ++ rest (blank s) /\ Forall white t.
Proof.
  intros O. unfold blank. destruct (good s); [now apply ws_ok|]. split; [exact O|]. exists []. split; [reflexivity|constructor].
Qed.
Lemma loop_cons w c f s v z cmd md n : failb s = false ->
  loop w (c :: f) (P s v z cmd md n false) = (p <- step w c (P s v z cmd md n false) ;; loop w f p).
Proof. intros F. cbn [loop p_is p_inw andb p_v p_zone p_cmd p_md p_w]. now rewrite F. Qed.
Lemma loop_FR w s z a b s1 l s2 : read iso_args (str_is s) = Ok ([z; a; b], s1) -> failb s1 = false ->
  read hm_args (blank s1) = Ok (l, s2) -> failb (blank s1) = false ->
  loop w (!"%F %R") (P (stream s) init_vals [] false NUL (-1) false) =
    Ok (P s2 (if failb s2 then three z a b else five z a b (vof l 0) (vof l 1)) [] false NUL (-1) false).
Proof.
  intros R F R2 F2. change (!"%F %R") with ["%"; "F"; " "; "%"; "R"].
  rewrite loop_cons by reflexivity. change (step w "%" (P (stream s) init_vals [] false NUL (-1) false)) with (Ok (P (stream s) init_vals [] true NUL (-1) false)). cbn [bind].
  rewrite loop_cons by reflexivity. change (step w "F" ?q) with (in_directive w "F" q). cbn [in_directive p_md p_is]. change (Ascii.eqb NUL NUL) with true. cbv iota. change (wd_or _ 4) with 4. fold iso_args. change (stream s) with (str_is s). rewrite R. cbn [bind with_is p_is p_v p_zone p_cmd p_md p_w p_inw vof nth].
  assert (Q : checked_set Fd b (checked_set Fm a (checked_set FY z (P s1 init_vals [] true NUL (-1) false))) = P s1 (three z a b) [] true NUL (-1) false).
  { change (checked_set FY z (P s1 init_vals [] true NUL (-1) false)) with (if failb s1 then P s1 init_vals [] true NUL (-1) false else P s1 (upd init_vals FY z) [] true NUL (-1) false). rewrite F.
    change (checked_set Fm a (P s1 (upd init_vals FY z) [] true NUL (-1) false)) with (if failb s1 then P s1 (upd init_vals FY z) [] true NUL (-1) false else P s1 (upd (upd init_vals FY z) Fm a) [] true NUL (-1) false). rewrite F.
    change (checked_set Fd b (P s1 (upd (upd init_vals FY z) Fm a) [] true NUL (-1) false)) with (if failb s1 then P s1 (upd (upd init_vals FY z) Fm a) [] true NUL (-1) false else P s1 (three z a b) [] true NUL (-1) false). rewrite F. reflexivity. }
  change (with_is (P (str_is s) init_vals [] true NUL (-1) false) s1) with (P s1 init_vals [] true NUL (-1) false). rewrite Q. unfold reset at 1. cbn [p_is p_v p_zone]. rewrite loop_cons by exact F.
  assert (Q2 : step w " " (P s1 (three z a b) [] false NUL (-1) false) = Ok (P (blank s1) (three z a b) [] false NUL (-1) false)).
  { change (step w " " (P s1 (three z a b) [] false NUL (-1) false)) with (Ok (if good s1 then P (ws s1) (three z a b) [] false NUL (-1) false else P s1 (three z a b) [] false NUL (-1) false)).
    unfold blank. now destruct (good s1). }
  rewrite Q2. cbn [bind]. rewrite loop_cons by exact F2.
  change (step w "%" (P ?u ?v [] false NUL (-1) false)) with (Ok (P u v [] true NUL (-1) false)). cbn [bind]. rewrite loop_cons by exact F2.
  change (step w "R" ?q) with (in_directive w "R" q). cbn [in_directive p_md p_is]. change (Ascii.eqb NUL NUL) with true. cbv iota. fold hm_args. rewrite R2. cbn [bind with_is p_is p_v p_zone p_cmd p_md p_w p_inw loop].
  change (with_is (P ?q ?v [] true NUL (-1) false) s2) with (P s2 v [] true NUL (-1) false).
  f_equal. destruct (failb s2) eqn:F3.
  - unfold checked_set. cbn [p_is]. rewrite F3. cbn [p_is]. rewrite F3. reflexivity.
  - change (checked_set FH ?u (P s2 (three z a b) [] true NUL (-1) false)) with (if failb s2 then P s2 (three z a b) [] true NUL (-1) false else P s2 (upd (three z a b) FH u) [] true NUL (-1) false). rewrite F3.
    change (checked_set FM ?v (P s2 (upd (three z a b) FH ?u) [] true NUL (-1) false)) with (if failb s2 then P s2 (upd (three z a b) FH u) [] true NUL (-1) false else P s2 (five z a b u v) [] true NUL (-1) false). rewrite F3. reflexivity.
Qed.

Lemma parse_FR_fail w s l s1 : read iso_args (str_is s) = Ok (l, s1) -> failb s1 = true -> parse_local w (!"%F %R") s = Throw RuntimeError.
Proof.
  intros R F. unfold parse_local, from_stream. change (good (stream s)) with true. cbn [negb]. change (c_str (!"%F %R")) with ["%"; "F"; " "; "%"; "R"].
  rewrite loop_cons by reflexivity. change (step w "%" (P (stream s) init_vals [] false NUL (-1) false)) with (Ok (P (stream s) init_vals [] true NUL (-1) false)). cbn [bind].
  rewrite loop_cons by reflexivity. change (step w "F" ?q) with (in_directive w "F" q). cbn [in_directive p_md p_is]. change (Ascii.eqb NUL NUL) with true. cbv iota. change (wd_or _ 4) with 4. fold iso_args. change (stream s) with (str_is s). rewrite R. cbn [bind].
  change (with_is (P (str_is s) init_vals [] true NUL (-1) false) s1) with (P s1 init_vals [] true NUL (-1) false).
  assert (Q : forall f x, checked_set f x (P s1 init_vals [] true NUL (-1) false) = P s1 init_vals [] true NUL (-1) false).
  { intros f x. unfold checked_set. cbn [p_is]. now rewrite F. }
  rewrite !Q. unfold reset at 1. cbn [p_is p_v p_zone loop]. rewrite F. cbn [bind p_is p_cmd]. rewrite andb_false_r. cbn [bind]. rewrite F. reflexivity.
Qed.
Lemma parse_FR w s z a b s1 l s2 : read iso_args (str_is s) = Ok ([z; a; b], s1) -> failb s1 = false ->
  read hm_args (blank s1) = Ok (l, s2) -> failb (blank s1) = false -> -9999 <= z <= 9999 -> 0 <= a <= 99 -> 0 <= b <= 99 ->
  parse_local w (!"%F %R") s = if failb s2 then Throw RuntimeError else
    ('(t, has) <- resolve_tod w (five z a b (vof l 0) (vof l 1)) (vof l 0) (-1) no_tod true ;;
     _ <- require (ymd_ok (YMD z a b) && conventional w t) ;;
     n <- to_days (YMD z a b) ;; t <- hms_to_duration (ticks w) t ;; b <- arith llong_t (n * (86400 * ticks w)) ;; arith llong_t (b + t)).
Proof.
  intros R F R2 F2 Z A B. unfold parse_local, from_stream. change (good (stream s)) with true. cbn [negb]. change (c_str (!"%F %R")) with (!"%F %R").
  rewrite (loop_FR w s z a b s1 l s2 R F R2 F2). cbn [bind p_is p_cmd]. rewrite andb_false_r. cbn [bind]. destruct (failb s2); [reflexivity|]. cbn [p_v p_zone].
  destruct (resolve_five z a b (vof l 0) (vof l 1) Z A B) as [wd ->]. cbn [bind].
  change (resolve_hour (five z a b (vof l 0) (vof l 1))) with (Ok (vof l 0)). cbn [bind f_tod f_has tod_fields].
  destruct (resolve_tod w (five z a b (vof l 0) (vof l 1)) (vof l 0) (-1) no_tod true) as [[t has]| | |]; reflexivity.
Qed.
Lemma read_R_inv' s l s' : okst s -> read hm_args s = Ok (l, s') -> failb s' = false ->
  exists m d a b, l = [a; b] /\ rest s = m ++ ":" :: d ++ rest s' /\ digits_up_to 2 a m /\ digits_up_to 2 b d /\ no_more 2 d (rest s').
Proof.
  intros O R F. destruct (okst_cases s O) as [E|[E1 E2]].
  - rewrite E in R. exact (read_R_inv (rest s) l s' R F).
  - exfalso. unfold hm_args in R. cbn [read] in R. change (read_unsigned 1 2 ?q) with (read_unsigned 1 (Z.of_nat 2) q) in R.
    destruct (read_u_inv 2 s ltac:(lia) O) as (a & s2 & R2 & Ba & H2). rewrite R2 in R. destruct (failb s2) eqn:F2.
    + cbn [bind] in R. injection R as <- <-. congruence.
    + destruct H2 as [H2|(_ & m & Em & (Lm & _) & _)]; [discriminate|]. rewrite E1 in Em. symmetry in Em. apply app_eq_nil in Em. destruct Em as [-> _]. cbn in Lm. lia.
Qed.
Lemma white_skip t c r : Forall white t -> ~ white c -> skip_ws (t ++ c :: r) = (c :: r, false).
Proof.
  intros W N. induction W as [|d t Wc Wt IH]; cbn [app skip_ws].
  - destruct (is_space c) eqn:S; [|reflexivity]. apply space_white in S. contradiction.
  - apply space_white in Wc. now rewrite Wc.
Qed.
Lemma read_F_fwd2 y m d r z a b : number_up_to 4 z y -> digits_up_to 2 a m -> digits_up_to 2 b d -> no_more 2 d r ->
  exists s', read iso_args (str_is (y ++ "-" :: m ++ "-" :: d ++ r)) = Ok ([z; a; b], s') /\ okst s' /\ rest s' = r.
Proof.
  intros (sg & ds & n & -> & Dy & SG) Dm Dd NM.
  pose proof (nm_range 2 m a Dm) as Ba. pose proof (nm_range 2 d b Dd) as Bb. change (10 ^ Z.of_nat 2) with 100 in Ba, Bb.
  destruct (read_s_fwd 4 sg ds n z ("-" :: m ++ "-" :: d ++ r) ltac:(lia) SG Dy ltac:(intros _; cbn; unfold is_dig; intros [A B]; apply A; reflexivity)) as (s1 & R1 & O1 & E1).
  destruct (read_u_fwd 2 m a ("-" :: d ++ r) ltac:(lia) Dm ltac:(intros _; cbn; unfold is_dig; intros [A B]; apply A; reflexivity)) as (s2 & R2 & O2 & E2).
  destruct (read_u_fwd 2 d b r ltac:(lia) Dd NM) as (s3 & R3 & O3 & E3).
  exists s3. split; [|split; [exact O3|exact E3]]. rewrite <- app_assoc. unfold iso_args. cbn [read]. change (read_signed 1 4 ?q) with (read_signed 1 (Z.of_nat 4) q). rewrite R1. cbn [bind]. rewrite (proj1 O1).
  rewrite (after_str s1 _ _ O1 E1), read_c_ok by discriminate. cbn [failb str_is]. fold (str_is (m ++ "-" :: d ++ r)).
  change (read_unsigned 1 2 ?q) with (read_unsigned 1 (Z.of_nat 2) q). rewrite R2, (proj1 O2). rewrite (after_str s2 _ _ O2 E2), read_c_ok by discriminate. cbn [failb str_is]. fold (str_is (d ++ r)).
  change (read_unsigned 1 2 ?q) with (read_unsigned 1 (Z.of_nat 2) q). rewrite R3, (proj1 O3). cbn [read bind]. rewrite !conv_int by lia. reflexivity.
Qed.
Lemma conv_hm w h m : 0 <= h -> 0 <= m -> conventional w (HMS h m 0 0 false) = true <-> h <= 23 /\ m <= 59.
Proof.
  intros H M. pose proof (ticks_pos w). unfold conventional. cbn [neg_ h_ m_ s_ sub_ negb andb]. rewrite !andb_true_iff, !Z.ltb_lt. lia.
Qed.
(** "%F %R" accepts a text if and only if it names an existing date and a time of day, and yields that
    time point *)
Theorem C79_date_minutes w s tp : (w <= 7)%nat ->
  (parse_local w (!"%F %R") s = Ok tp <->
   exists x n h m, date_minutes s x h m /\ day_number x n /\ tp = ((n * 24 + h) * 60 + m) * 60 * 10 ^ Z.of_nat w).
Proof.
  intros W. pose proof (ticks_pos w) as K1. pose proof (ticks_le w 7 W) as K2. change (ticks 7) with 10000000 in K2. fold (ticks w).
  assert (YB : forall z y, number_up_to 4 z y -> -9999 <= z <= 9999).
  { intros z y (sg & ds & n & _ & D & SG). pose proof (nm_range 4 ds n D) as B. change (10 ^ Z.of_nat 4) with 10000 in B. destruct SG as [[_ ->]|[[_ ->]|[_ ->]]]; lia. }
  assert (DB : forall z y, digits_up_to 2 z y -> 0 <= z <= 99) by (intros z y D; pose proof (nm_range 2 y z D) as B; change (10 ^ Z.of_nat 2) with 100 in B; lia).
  assert (FIN : forall x h m, in_calendar x -> -9999 <= yr x <= 9999 -> 0 <= h <= 23 -> 0 <= m <= 59 ->
    (n <- to_days x ;; t <- hms_to_duration (ticks w) (HMS h m 0 0 false) ;; b <- arith llong_t (n * (86400 * ticks w)) ;; arith llong_t (b + t)) =
    Ok (((num x * 24 + h) * 60 + m) * 60 * ticks w)).
  { intros x h m IC Y H M. rewrite to_days_ok by exact IC. fold (num x). cbn [bind]. destruct (tod_two w h m ltac:(lia) ltac:(lia) ltac:(lia)) as [_ ->]. cbn [bind].
    assert (HX : yrange (yr x)) by (unfold yrange; lia). pose proof (year_bounds x (proj2 IC)) as NB. pose proof (jan1_near _ HX) as J. pose proof (jan1_succ (yr x)) as JS.
    assert (-20000000 <= num x <= 20000000) by lia.
    rewrite ll_ok by nia. cbn [bind]. rewrite ll_ok by nia. f_equal. ring. }
  split.
  - intros H. destruct (read_sok iso_args ltac:(unfold iso_args; aok) (str_is s) (sok_str s)) as (l & s1 & R & _).
    destruct (failb s1) eqn:F1; [rewrite (parse_FR_fail w s l s1 R F1) in H; discriminate|].
    destruct (read_F_inv s l s1 R F1) as (O1 & y & mm & d & z & a & b & -> & E & Ny & Nm & Nd & NM).
    destruct (blank_ok s1 O1) as (O2 & bl & EB & WB).
    assert (SO : sok (blank s1)) by (right; exact O2).
    destruct (read_sok hm_args ltac:(unfold hm_args; aok) (blank s1) SO) as (l & s2 & R2 & _).
    pose proof (YB _ _ Ny) as B1. pose proof (DB _ _ Nm) as B2. pose proof (DB _ _ Nd) as B3.
    rewrite (parse_FR w s z a b s1 l s2 R F1 R2 (proj1 O2) B1 B2 B3) in H. destruct (failb s2) eqn:F2; [discriminate|].
    destruct (read_R_inv' _ l s2 O2 R2 F2) as (ht & mt & h & m & -> & E2 & Dh & Dm & NM2). pose proof (DB _ _ Dh) as B4. pose proof (DB _ _ Dm) as B5.
    cbn [vof nth] in H. rewrite tod_five in H by lia. cbn [bind] in H. destruct (ymd_ok (YMD z a b)) eqn:OK; [|discriminate].
    destruct (conventional w (HMS h m 0 0 false)) eqn:CV; [|discriminate]. cbn [andb require bind] in H. apply conv_hm in CV; [|lia..].
    apply ymd_ok_spec in OK; [|cbn; lia..]. rewrite FIN in H by (try exact OK; cbn; lia). injection H as <-.
    exists (YMD z a b), (num (YMD z a b)), h, m. split; [|split; [apply num_day_number, OK|reflexivity]].
    exists y, mm, d, bl, (rest (blank s1)). rewrite <- EB. repeat (split; [assumption|]). split; [|lia].
    exists ht, mt, (rest s2). auto.
  - intros (x & n & h & m & (y & mm & d & bl & t & -> & Ny & Nm & Nd & NM & IC & WB & (ht & mt & r & -> & Dh & Dm & NM2) & LH & LM) & DN & ->).
    pose proof (YB _ _ Ny) as B1. pose proof (DB _ _ Nm) as B2. pose proof (DB _ _ Nd) as B3. pose proof (DB _ _ Dh) as B4. pose proof (DB _ _ Dm) as B5.
    destruct (read_F_fwd2 y mm d (bl ++ ht ++ ":" :: mt ++ r) _ _ _ Ny Nm Nd NM) as (s1 & R & O1 & E1).
    assert (BL : blank s1 = str_is (ht ++ ":" :: mt ++ r)).
    { destruct ht as [|c ht]; [destruct Dh as [L _]; cbn in L; lia|]. destruct Dh as (_ & FD & _). inversion FD as [|? ? Dc _]; subst. clear FD.
      assert (~ white c) as NW by (unfold white; unfold is_dig in Dc; lia).
      destruct (okst_cases s1 O1) as [Q|[Q _]]; [|rewrite E1 in Q; destruct bl; discriminate Q]. rewrite Q, E1. unfold blank, ws. change (good (str_is ?q)) with true. cbv iota. cbn [rest str_is app].
      rewrite white_skip by assumption. reflexivity. }
    destruct (read_R_fwd ht mt r h m Dh Dm NM2) as (s2 & R2 & O2). rewrite <- BL in R2.
    assert (FB : failb (blank s1) = false) by (rewrite BL; reflexivity).
    rewrite (parse_FR w _ _ _ _ s1 _ s2 R (proj1 O1) R2 FB B1 B2 B3), (proj1 O2). cbn [vof nth]. rewrite tod_five by lia. cbn [bind].
    destruct x as [z a b]. cbn [yr mo dy] in *. assert (OK : ymd_ok (YMD z a b) = true) by (apply ymd_ok_spec; [cbn; lia..|exact IC]). rewrite OK.
    rewrite (proj2 (conv_hm w h m ltac:(lia) ltac:(lia))) by lia. cbn [andb require bind]. rewrite FIN by (try exact IC; cbn; lia).
    apply day_number_num in DN. now rewrite DN.
Qed.
(** ... and fails on every other text *)
Theorem C79_date_minutes_rejects w s : (w <= 7)%nat -> (forall x h m, ~ date_minutes s x h m) -> parse_local w (!"%F %R") s = Throw RuntimeError.
Proof.
  intros W H. assert (P : plain (!"%F %R")) by reflexivity.
  destruct (C80_local_time w (!"%F %R") s W P) as [(tp & E & _)|E]; [|exact E]. exfalso.
  apply C79_date_minutes in E; [|exact W]. destruct E as (x & n & h & m & D & _). exact (H x h m D).
Qed.
(** No separator is needed *)
Theorem C79_no_space_finding : parse_local 0 (!"%F %R") (!"2024-02-2912:30") = Ok (19782 * 86400 + 45000).
Proof. vm_compute. reflexivity. Qed.
Example C79_date_minutes_example :
  (exists x h m, date_minutes (!"2024-2-29  7:05 and more") x h m) /\
  parse_local 3 (!"%F %R") (!"2024-2-29  7:05 and more") = Ok (((19782 * 24 + 7) * 60 + 5) * 60 * 1000) /\
  (forall x h m, ~ date_minutes (!"2023-02-29 12:30") x h m).
Proof.
  assert (E : parse_local 3 (!"%F %R") (!"2024-2-29  7:05 and more") = Ok (((19782 * 24 + 7) * 60 + 5) * 60 * 1000)) by (vm_compute; reflexivity).
  split; [|split; [exact E|]].
  - apply C79_date_minutes in E; [|lia]. destruct E as (x & n & h & m & D & _). now exists x, h, m.
  - intros x h m D. assert (F : parse_local 0 (!"%F %R") (!"2023-02-29 12:30") = Throw RuntimeError) by (vm_compute; reflexivity).
    assert (IC : in_calendar x) by (destruct D as (? & ? & ? & ? & ? & _ & _ & _ & _ & _ & IC & _); exact IC).
    pose proof (num_day_number x (proj2 IC)) as DN.
    rewrite (proj2 (C79_date_minutes 0 _ _ ltac:(lia)) (ex_intro _ x (ex_intro _ (num x) (ex_intro _ h (ex_intro _ m (conj D (conj DN eq_refl))))))) in F. discriminate.
Qed.
Print Assumptions C79_date_minutes.
