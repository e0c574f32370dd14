(** C79: which texts are accepted as a duration in hours and minutes. *)
From Verif Require Import Base IntModel ToNumModel DateModel DateSpec DateProofs DateProofs2 FmtModel FmtSpec FmtProofs2 FmtProofs3 FmtProofs4 ParModel ParSpec ParClockSpec ParProofs1 ParProofs2 ParProofs6 ParProofs7 ParProofs8 ParProofs9 ParProofs10 ParProofs11 ParProofs12 ParProps2 ParProps3.
Local Open Scope Z_scope.
Local Open Scope outcome_scope.
Local Open Scope char_scope.

Definition hm_args : list rarg := [RU 1 2; RC NUL; RC ":"; RC NUL; RU 1 2; RC NUL].
Lemma nul_read s : read_c NUL s = s. Proof. reflexivity. Qed.
Lemma read_R_fwd m d r a b : digits_up_to 2 a m -> digits_up_to 2 b d -> no_more 2 d r ->
  exists s', read hm_args (str_is (m ++ ":" :: d ++ r)) = Ok ([a; b], s') /\ okst s'.
Proof.
  intros Dm Dd NM.
  pose proof (nm_range 2 m a Dm) as Ba. pose proof (nm_range 2 d b Dd) as Bb. change (10 ^ Z.of_nat 2) with 100 in Ba, Bb.
  destruct (read_u_fwd 2 m a (":" :: d ++ r) ltac:(lia) Dm ltac:(intros _; cbn; unfold is_dig; intros [A B]; apply B; reflexivity)) as (s2 & R2 & O2 & E2).
  destruct (read_u_fwd 2 d b r ltac:(lia) Dd NM) as (s3 & R3 & O3 & E3).
  exists s3. split; [|exact O3]. unfold hm_args. cbn [read].
  change (read_unsigned 1 2 ?q) with (read_unsigned 1 (Z.of_nat 2) q). rewrite R2, nul_read, (proj1 O2).
  rewrite (after_str s2 _ _ O2 E2), read_c_ok by discriminate. cbn [failb str_is]. fold (str_is (d ++ r)). rewrite nul_read. cbn [failb str_is]. fold (str_is (d ++ r)).
  change (read_unsigned 1 2 ?q) with (read_unsigned 1 (Z.of_nat 2) q). rewrite R3, nul_read, (proj1 O3). cbn [read bind]. rewrite !conv_int by lia. reflexivity.
Qed.
Lemma read_R_inv s l s' : read hm_args (str_is s) = Ok (l, s') -> failb s' = false ->
  exists m d a b, l = [a; b] /\ s = m ++ ":" :: d ++ rest s' /\ digits_up_to 2 a m /\ digits_up_to 2 b d /\ no_more 2 d (rest s').
Proof.
  intros R FB. unfold hm_args in R. cbn [read] in R. change (read_unsigned 1 2 ?q) with (read_unsigned 1 (Z.of_nat 2) q) in R.
  destruct (read_u_inv 2 (str_is s) ltac:(lia) (okst_str s)) as (a & s2 & R2 & Ba & H2). rewrite R2 in R.
  destruct (failb s2) eqn:F2; [cbn [bind] in R; injection R as <- <-; congruence|]. destruct H2 as [H2|(O2 & m & E2 & Dm & _)]; [discriminate|].
  rewrite nul_read, F2 in R.
  destruct (read_c_inv ":" s2 ltac:(discriminate) O2) as [C2|(r2 & C2 & RC2)]; [rewrite C2 in R; cbn [bind] in R; injection R as <- <-; congruence|].
  rewrite RC2 in R. cbn [failb str_is] in R. fold (str_is r2) in R. rewrite nul_read in R. cbn [failb str_is] in R. fold (str_is r2) in R.
  change (read_unsigned 1 2 ?q) with (read_unsigned 1 (Z.of_nat 2) q) in R.
  destruct (read_u_inv 2 (str_is r2) ltac:(lia) (okst_str r2)) as (b & s3 & R3 & Bb & H3). rewrite R3 in R.
  destruct (failb s3) eqn:F3; [cbn [bind] in R; injection R as <- <-; congruence|]. destruct H3 as [H3|(O3 & d & E3 & Dd & NM)]; [discriminate|].
  rewrite nul_read, F3 in R. cbn [read bind] in R. change (10 ^ Z.of_nat 2) with 100 in Ba, Bb. rewrite !conv_int in R by lia. injection R as <- <-.
  exists m, d, a, b. cbn [rest str_is] in E2, E3. split; [reflexivity|]. split; [rewrite E2, C2, E3; reflexivity|]. auto.
Qed.
Definition two (a b : Z) : vals := upd (upd init_vals FH a) FM b.
Lemma parse_R w s l s' : read hm_args (str_is s) = Ok (l, s') ->
  parse_duration w (!"%R") s = if failb s' then Throw RuntimeError else
    ('(t, has) <- resolve_tod w (two (vof l 0) (vof l 1)) (vof l 0) (-1) no_tod false ;;
     _ <- require has ;; hms_to_duration (ticks w) t).
Proof.
  intros R. unfold parse_duration, from_stream. change (good (stream s)) with true. cbn [negb]. change (c_str (!"%R")) with (!"%R").
  assert (L : loop w (!"%R") (P (stream s) init_vals [] false NUL (-1) false) =
    Ok (reset (checked_set FM (vof l 1) (checked_set FH (vof l 0) (P s' init_vals [] true NUL (-1) false))))).
  { change (!"%R") with ["%"; "R"]. cbn [loop p_is stream failb p_inw andb p_v p_zone p_cmd p_md p_w]. change (step w "%" ?q) with (Ok (P (stream s) init_vals [] true NUL (-1) false)). cbn [bind loop p_is stream failb p_inw andb p_v p_zone p_cmd p_md p_w].
    change (step w "R" ?q) with (in_directive w "R" q). cbn [in_directive p_md p_is]. change (Ascii.eqb NUL NUL) with true. cbv iota. fold hm_args. change (stream s) with (str_is s). rewrite R. reflexivity. }
  rewrite L. cbn [bind]. destruct (failb s') eqn:F.
  - assert (Q : checked_set FM (vof l 1) (checked_set FH (vof l 0) (P s' init_vals [] true NUL (-1) false)) = P s' init_vals [] true NUL (-1) false).
    { unfold checked_set. cbn [p_is]. rewrite F. cbn [p_is]. now rewrite F. }
    rewrite Q. cbn [reset p_is p_cmd p_v p_zone]. rewrite andb_false_r. cbn [bind]. rewrite F. reflexivity.
  - assert (Q : checked_set FM (vof l 1) (checked_set FH (vof l 0) (P s' init_vals [] true NUL (-1) false)) = P s' (two (vof l 0) (vof l 1)) [] true NUL (-1) false).
    { change (checked_set FH ?z (P s' init_vals [] true NUL (-1) false)) with (if failb s' then P s' init_vals [] true NUL (-1) false else P s' (upd init_vals FH z) [] true NUL (-1) false). rewrite F.
      change (checked_set FM ?y (P s' (upd init_vals FH ?z) [] true NUL (-1) false)) with (if failb s' then P s' (upd init_vals FH z) [] true NUL (-1) false else P s' (two z y) [] true NUL (-1) false). rewrite F. reflexivity. }
    rewrite Q. cbn [reset p_is p_cmd p_v p_zone]. rewrite andb_false_r. cbn [bind]. rewrite F.
    change (resolve_date (two (vof l 0) (vof l 1))) with (Ok (YMD (-32768) 0 0, 8, -1)). cbn [bind].
    change (resolve_hour (two (vof l 0) (vof l 1))) with (Ok (vof l 0)). cbn [bind f_tod f_has no_fields].
    destruct (resolve_tod w (two (vof l 0) (vof l 1)) (vof l 0) (-1) no_tod false) as [[t has]| | |]; reflexivity.
Qed.
Lemma ll_fits z : -9223372036854775808 <= z <= 9223372036854775807 -> arith llong_t z = Ok z.
Proof. intros H. apply ll_ok; lia. Qed.
Lemma tod_two w a b : (w <= 12)%nat -> 0 <= a <= 99 -> 0 <= b <= 99 ->
  resolve_tod w (two a b) a (-1) no_tod false = Ok (HMS a b 0 0 false, true) /\
  hms_to_duration (ticks w) (HMS a b 0 0 false) = Ok ((a * 3600 + b * 60) * ticks w).
Proof.
  intros W A B. pose proof (ticks_pos w) as K1. pose proof (ticks_le w 12 W) as K2. change (ticks 12) with 1000000000000 in K2.
  split.
  - unfold resolve_tod. cbv zeta. set (k := ticks w) in *. change (two a b FM) with b. change (two a b Fs) with (nav Fs).
    destruct (Z.eqb_spec a (nav FH)) as [E|_]; [cbn in E; lia|]. cbn [negb].
    destruct (Z.eqb_spec b (nav FM)) as [E|_]; [cbn in E; lia|]. rewrite Z.eqb_refl. cbn [negb].
    rewrite ll_fits by nia. cbn [bind]. unfold k at 1. rewrite (proj1 (hms_of_eq w (a * (3600 * k)) W ltac:(nia))). cbn [bind h_ m_ s_ sub_ neg_].
    unfold hours_of, minutes_of, seconds_of. fold (ticks w). fold k.
    rewrite Z.div_mul by lia. replace (a * (3600 * k)) with (a * 3600 * k) by ring. rewrite Z.div_mul by lia.
    replace (a * 3600) with (a * 60 * 60) by ring. rewrite !Z_mod_mult. reflexivity.
  - unfold hms_to_duration. cbn [h_ m_ s_ sub_ neg_]. set (k := ticks w) in *.
    rewrite !Z.mul_0_l. rewrite ll_fits by lia. cbn [bind]. rewrite ll_fits by lia. cbn [bind]. rewrite ll_fits by nia. cbn [bind].
    rewrite ll_fits by nia. cbn [bind]. rewrite ll_fits by nia. cbn [bind]. rewrite ll_fits by nia. cbn [bind]. rewrite ll_fits by nia. f_equal. ring.
Qed.
(** %R accepts a text as a duration of 10^-w seconds if and only if it gives hours and minutes *)
Theorem C79_hours_minutes w s d : (w <= 12)%nat ->
  (parse_duration w (!"%R") s = Ok d <-> exists h m, hours_minutes s h m /\ d = (h * 60 + m) * 60 * 10 ^ Z.of_nat w).
Proof.
  intros W.
  assert (DB : forall z y, digits_up_to 2 z y -> 0 <= z <= 99) by (intros z y D; pose proof (nm_range 2 y z D) as B; change (10 ^ Z.of_nat 2) with 100 in B; lia).
  split.
  - intros H. destruct (read_sok hm_args ltac:(unfold hm_args; aok) (str_is s) (sok_str s)) as (l & s' & R & _).
    rewrite (parse_R w s l s' R) in H. destruct (failb s') eqn:F; [discriminate|].
    destruct (read_R_inv s l s' R F) as (t & u & a & b & -> & E & Da & Db & NM). cbn [vof nth] in H.
    destruct (tod_two w a b W (DB _ _ Da) (DB _ _ Db)) as [T1 T2]. rewrite T1 in H. cbn [bind require] in H. rewrite T2 in H. injection H as <-.
    exists a, b. split; [exists t, u, (rest s'); auto|]. unfold ticks. ring.
  - intros (h & m & (a & b & r & -> & Da & Db & NM) & ->). destruct (read_R_fwd a b r h m Da Db NM) as (s' & R & O).
    rewrite (parse_R w _ _ s' R), (proj1 O). cbn [vof nth]. destruct (tod_two w h m W (DB _ _ Da) (DB _ _ Db)) as [T1 T2].
    rewrite T1. cbn [bind require]. rewrite T2. f_equal. unfold ticks. ring.
Qed.
(** ... and fails on every other text *)
Theorem C79_hours_minutes_rejects w s : (w <= 12)%nat -> (forall h m, ~ hours_minutes s h m) -> parse_duration w (!"%R") s = Throw RuntimeError.
Proof.
  intros W H. destruct (read_sok hm_args ltac:(unfold hm_args; aok) (str_is s) (sok_str s)) as (l & s' & R & _).
  rewrite (parse_R w s l s' R). destruct (failb s') eqn:F; [reflexivity|]. exfalso.
  destruct (read_R_inv s l s' R F) as (t & u & a & b & -> & E & Da & Db & NM). apply (H a b). exists t, u, (rest s'). auto.
Qed.
(** Minutes are not limited to 59, nor hours to 23. *)
Theorem C79_minutes_finding : parse_duration 0 (!"%R") (!"12:99") = Ok ((12 * 60 + 99) * 60).
Proof. vm_compute. reflexivity. Qed.
Example C79_hours_minutes_example : hours_minutes (!"7:305") 7 30 /\ parse_duration 3 (!"%R") (!"7:305") = Ok 27000000
  /\ (forall h m, ~ hours_minutes (!"7-30") h m).
Proof.
  split; [|split; [vm_compute; reflexivity|]].
  - exists (!"7"), (!"30"), (!"5"). split; [reflexivity|]. split; [|split].
    + split; [cbn; lia|]. split; [repeat constructor; discriminate|reflexivity].
    + split; [cbn; lia|]. split; [repeat constructor; discriminate|reflexivity].
    + intros Q. cbn in Q. lia.
  - intros h m H. assert (E : parse_duration 0 (!"%R") (!"7-30") = Ok ((h * 60 + m) * 60 * 10 ^ Z.of_nat 0)) by (apply C79_hours_minutes; [lia|]; now exists h, m).
    vm_compute in E. discriminate.
Qed.
Print Assumptions C79_hours_minutes.
