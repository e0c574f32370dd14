(** C79: which texts %T accepts as a duration. *)
From Verif Require Import Base IntModel ToNumModel DateModel DateSpec DateProofs DateProofs2 FmtModel FmtSpec FmtProofs2 FmtProofs3 FmtProofs4 ParModel ParSpec ParClockSpec ParProofs1 ParProofs2 ParProofs6 ParProofs7 ParProofs8 ParProofs9 ParProofs10 ParProofs11 ParProofs12 ParProps2 ParProps3 ParTimeProofs1 ParTimeProofs2 ParTimeProps ParClockProps ParClockProps2.
Local Open Scope Z_scope.
Local Open Scope outcome_scope.
Local Open Scope char_scope.

Definition hms_args : list rarg := [RU 1 2; RC ":"; RU 1 2; RC ":"].
Lemma colon_no_more a r : no_more 2 a (":" :: r).
Proof. intros _. cbn. unfold is_dig. intros [A B]. apply B. reflexivity. Qed.
Lemma read_T_fwd m d r a b : digits_up_to 2 a m -> digits_up_to 2 b d ->
  read hms_args (str_is (m ++ ":" :: d ++ ":" :: r)) = Ok ([a; b], str_is r).
Proof.
  intros Dm Dd. pose proof (nm_range 2 m a Dm) as Ba. pose proof (nm_range 2 d b Dd) as Bb. change (10 ^ Z.of_nat 2) with 100 in Ba, Bb.
  destruct (read_u_fwd 2 m a (":" :: d ++ ":" :: r) ltac:(lia) Dm (colon_no_more m (d ++ ":" :: r))) as (s2 & R2 & O2 & E2).
  destruct (read_u_fwd 2 d b (":" :: r) ltac:(lia) Dd (colon_no_more d r)) as (s3 & R3 & O3 & E3).
  unfold hms_args. cbn [read].
  change (read_unsigned 1 2 ?q) with (read_unsigned 1 (Z.of_nat 2) q). rewrite R2, (proj1 O2).
  rewrite (after_str s2 _ _ O2 E2), read_c_ok by discriminate. cbn [failb str_is]. fold (str_is (d ++ ":" :: r)).
  change (read_unsigned 1 2 ?q) with (read_unsigned 1 (Z.of_nat 2) q). rewrite R3, (proj1 O3).
  rewrite (after_str s3 _ _ O3 E3), read_c_ok by discriminate. cbn [failb str_is read bind]. rewrite !conv_int by lia. reflexivity.
Qed.
Lemma ld_count M : M <= 10 -> forall r pt fr k fc i f k' fc' i' f' r' e, 0 <= k < M -> ld_loop M r pt fr k fc i f = (k', fc', i', f', r', e) -> k <= k'.
Proof.
  intros HM. induction r as [|c r IH]; intros pt fr k fc i f k' fc' i' f' r' e K; cbn [ld_loop].
  - intros H. injection H as <- _ _ _ _ _. lia.
  - rewrite uns_id by lia. destruct (pt && Ascii.eqb c ".").
    + destruct (Z.eqb_spec (k + 1) M); [intros H; injection H as <- _ _ _ _ _; lia|]. intros H. apply IH in H; lia.
    + destruct (is_digit c); [|intros H; injection H as <- _ _ _ _ _; lia].
      destruct (Z.eqb_spec (k + 1) M); [intros H; injection H as <- _ _ _ _ _; lia|]. intros H. apply IH in H; lia.
Qed.
Lemma point_or_digit w c r : (w <= 7)%nat -> is_dig c \/ c = "." ->
  exists x s' t, read_long_double 1 (sec_chars w) (str_is (c :: r)) = (x, s') /\ failb s' = false /\ round_sec w x = Ok t /\ -1 <= t <= 1000000000000000000.
Proof.
  intros W C. destruct (read_ld_sok w (str_is (c :: r)) W (sok_str _)) as (x & s' & t & R & _ & RS & B). exists x, s', t. split; [exact R|]. split; [|auto].
  unfold read_long_double in R. change (good (str_is (c :: r))) with true in R. cbv iota in R. cbn [rest str_is] in R.
  assert (HM : 2 <= sec_chars w <= 10) by (unfold sec_chars; destruct (Nat.eqb_spec w 0); lia).
  destruct (ld_loop (sec_chars w) (c :: r) true false 0 0 0 0) as [[[[[k fc] i] f] r'] e] eqn:L.
  assert (NZ : 1 <= k).
  { cbn [ld_loop andb] in L. change (uns (0 + 1)) with 1 in L. destruct (Ascii.eqb c ".") eqn:P.
    - destruct (Z.eqb_spec 1 (sec_chars w)); [lia|]. apply ld_count in L; lia.
    - destruct C as [C| ->]; [|discriminate P]. rewrite (proj1 (dig_is_digit c C)) in L.
      destruct (Z.eqb_spec 1 (sec_chars w)); [lia|]. apply ld_count in L; lia. }
  destruct (Z.ltb_spec k 1); [lia|]. injection R as <- <-. reflexivity.
Qed.
Definition hms3 (a b t : Z) : vals := upd (upd (upd init_vals FH a) FM b) Fs t.
Lemma loop_T w s a b s1 x s2 t : read hms_args (str_is s) = Ok ([a; b], s1) -> failb s1 = false ->
  read_long_double 1 (sec_chars w) s1 = (x, s2) -> failb s2 = false -> round_sec w x = Ok t ->
  loop w (!"%T") (P (stream s) init_vals [] false NUL (-1) false) = Ok (P s2 (hms3 a b t) [] false NUL (-1) false).
Proof.
  intros R F1 RL F2 RS. change (!"%T") with ["%"; "T"].
  rewrite loop_cons by reflexivity. change (step w "%" (P (stream s) init_vals [] false NUL (-1) false)) with (Ok (P (stream s) init_vals [] true NUL (-1) false)). cbn [bind].
  rewrite loop_cons by reflexivity. change (step w "T" ?q) with (in_directive w "T" q). cbn [in_directive p_md]. change (Ascii.eqb NUL NUL) with true. cbv iota.
  unfold clock. cbn [p_is]. fold hms_args. change (stream s) with (str_is s). rewrite R. cbn [bind]. rewrite F1, RL, RS. cbn [bind vof nth].
  change (with_is (P (str_is s) init_vals [] true NUL (-1) false) s2) with (P s2 init_vals [] true NUL (-1) false).
  change (checked_set FH a (P s2 init_vals [] true NUL (-1) false)) with (if failb s2 then P s2 init_vals [] true NUL (-1) false else P s2 (upd init_vals FH a) [] true NUL (-1) false). rewrite F2.
  change (checked_set FM b (P s2 (upd init_vals FH a) [] true NUL (-1) false)) with (if failb s2 then P s2 (upd init_vals FH a) [] true NUL (-1) false else P s2 (upd (upd init_vals FH a) FM b) [] true NUL (-1) false). rewrite F2.
  change (checked_set Fs t (P s2 (upd (upd init_vals FH a) FM b) [] true NUL (-1) false)) with (if failb s2 then P s2 (upd (upd init_vals FH a) FM b) [] true NUL (-1) false else P s2 (hms3 a b t) [] true NUL (-1) false). rewrite F2.
  reflexivity.
Qed.
Lemma arith_nothrow t z e : arith t z <> Throw e.
Proof. unfold arith. repeat (match goal with |- context [if ?b then _ else _] => destruct b end); discriminate. Qed.
(** %T accepts a text as a duration of 10^-w seconds if and only if it has that shape.  The value is
    described by [C89_duration]. *)
Theorem C79_clock w s : (w <= 7)%nat -> ((exists d, parse_duration w (!"%T") s = Ok d) <-> clock_text s).
Proof.
  intros W. split.
  - intros (d & H). destruct (C89_duration w [Dir "T"] s d W ltac:(repeat constructor) H) as (h & m & q & ts & r & _ & _ & _ & _ & E & F & _).
    inversion F as [|? ts0 ? l0 P1 F1]; subst. inversion F1; subst. clear F F1. cbn [span_piece] in P1. inversion P1 as [| | | | |c a b t _ Da Db ST EC]; subst.
    destruct ST as (u & p & v & -> & D & PB & L & _). cbn [concat app]. rewrite app_nil_r.
    destruct (u ++ p ++ v) as [|c l] eqn:Q; [cbn in L; lia|]. exists h, m, a, b, c, (l ++ r).
    split; [rewrite <- app_assoc; cbn [app]; rewrite <- app_assoc; reflexivity|]. split; [exact Da|]. split; [exact Db|].
    destruct u as [|y u]; cbn [app] in Q, D.
    + destruct PB as [->|[-> ->]]; [|discriminate Q]. right. injection Q as <- _. reflexivity.
    + left. injection Q as <- _. now inversion D.
  - intros (h & m & a & b & c & r & -> & Da & Db & C).
    pose proof (nm_range 2 a h Da) as Bh. pose proof (nm_range 2 b m Db) as Bm. change (10 ^ Z.of_nat 2) with 100 in Bh, Bm.
    pose proof (read_T_fwd a b (c :: r) h m Da Db) as R. destruct (point_or_digit w c r W C) as (x & s2 & t & RL & F2 & RS & BT).
    destruct (C80_duration w (!"%T") (a ++ ":" :: b ++ ":" :: c :: r) W eq_refl) as [(d & E & _)|E]; [now exists d|]. exfalso.
    unfold parse_duration, from_stream in E. change (good (stream _)) with true in E. cbn [negb] in E. change (c_str (!"%T")) with (!"%T") in E.
    rewrite (loop_T w _ h m _ x s2 t R eq_refl RL F2 RS) in E. cbn [bind p_is p_cmd] in E. rewrite andb_false_r in E. cbn [bind] in E. rewrite F2 in E. cbn [p_v p_zone] in E.
    change (resolve_date (hms3 h m t)) with (Ok (YMD (-32768) 0 0, 8, -1)) in E. cbn [bind] in E.
    change (resolve_hour (hms3 h m t)) with (Ok h) in E. cbn [bind f_tod f_has no_fields] in E.
    assert (V : vok (hms3 h m t)).
    { intros g. destruct g; try (left; reflexivity); right; cbn; lia. }
    pose proof (resolve_tod_safe w W (hms3 h m t) h (-1) false V ltac:(right; lia) ltac:(now left)) as S.
    assert (NT : resolve_tod w (hms3 h m t) h (-1) no_tod false <> Throw RuntimeError /\ forall z, resolve_tod w (hms3 h m t) h (-1) no_tod false = Ok z -> snd z = true).
    { pose proof (k_range w W) as K. unfold resolve_tod. cbv zeta. change (hms3 h m t FM) with m. change (hms3 h m t Fs) with t.
      destruct (Z.eqb_spec h (nav FH)) as [Q|_]; [cbn in Q; lia|]. destruct (Z.eqb_spec m (nav FM)) as [Q|_]; [cbn in Q; lia|]. destruct (Z.eqb_spec t (nav Fs)) as [Q|_]; [cbn in Q; lia|]. cbn [negb].
      rewrite ll_ok by nia. cbn [bind]. rewrite (proj1 (hms_of_eq w (h * (3600 * ticks w)) ltac:(lia) ltac:(nia))). cbn [bind].
      destruct (arith llong_t (t ÷ ticks w * ticks w)) as [n2|e| |] eqn:A2; cbn [bind]; try (split; discriminate). 2: exfalso; exact (arith_nothrow _ _ _ A2).
      destruct (arith llong_t (t - n2)) as [n3|e| |] eqn:A3; cbn [bind]; try (split; discriminate). 2: exfalso; exact (arith_nothrow _ _ _ A3).
      split; [discriminate|]. intros z X. injection X as <-. reflexivity. }
    destruct NT as [NT HAS]. destruct S as [S|([u has] & S & TS)]; [contradiction|]. pose proof (HAS _ S) as HT. cbn [snd] in HT. subst has. rewrite S in E. cbn [bind r_fields f_has f_tod require] in E.
    destruct (to_duration_safe w W u TS) as (d & TD & _). rewrite TD in E. discriminate.
Qed.
(** ... and fails on every other text *)
Theorem C79_clock_rejects w s : (w <= 7)%nat -> ~ clock_text s -> parse_duration w (!"%T") s = Throw RuntimeError.
Proof.
  intros W H. destruct (C80_duration w (!"%T") s W eq_refl) as [(d & E & _)|E]; [|exact E]. exfalso. apply H. apply (C79_clock w s W). now exists d.
Qed.
Example C79_clock_example : clock_text (!"7:5:.5xyz") /\ parse_duration 1 (!"%T") (!"7:5:.5xyz") = Ok ((7 * 3600 + 5 * 60) * 10 + 5)
  /\ ~ clock_text (!"7:5") /\ ~ clock_text (!"7:5: 30").
Proof.
  split; [|split; [vm_compute; reflexivity|]].
  - apply (C79_clock 1 _ ltac:(lia)). eexists. vm_compute. reflexivity.
  - split; intros H; apply (C79_clock 0 _ ltac:(lia)) in H; destruct H as [d H]; vm_compute in H; discriminate.
Qed.
Print Assumptions C79_clock.
