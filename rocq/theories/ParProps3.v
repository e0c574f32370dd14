(** C79: which texts are accepted.  Parsing a date from a stream that holds the whole text; a failed
    parse is Throw RuntimeError in the model (failbit is set). *)
From Verif Require Import Base IntModel ToNumModel DateModel DateSpec DateProofs DateProofs2 FmtModel FmtSpec FmtProofs2 FmtProofs3 ParModel ParSpec ParProofs1 ParProofs2 ParProofs6 ParProofs7 ParProofs8 ParProofs9 ParProofs10 ParProofs11 ParProofs12 ParProps2.
Local Open Scope Z_scope.
Local Open Scope outcome_scope.
Local Open Scope char_scope.

(** * %F *)
Definition three (z a b : Z) : vals := upd (upd (upd init_vals FY z) Fm a) Fd b.
Lemma resolve_three z a b : -9999 <= z <= 9999 -> 0 <= a <= 99 -> 0 <= b <= 99 -> exists wd, resolve_date (three z a b) = Ok (YMD z a b, wd, -1).
Proof.
  intros Z A B. set (v := three z a b).
  assert (VY : v FY = z) by reflexivity. assert (Vm : v Fm = a) by reflexivity. assert (Vd : v Fd = b) by reflexivity.
  assert (Vy : v Fy = 100) by reflexivity. assert (Vg : v Fg = 100) by reflexivity. assert (VG : v FG = -32768) by reflexivity. assert (VC : v FC = -327) by reflexivity.
  assert (Vj : v Fj = -1) by reflexivity. assert (Vw : v Fwd = 8) by reflexivity. assert (VU : v FU = 100) by reflexivity. assert (VV : v FV = 100) by reflexivity. assert (VW : v FW = 100) by reflexivity.
  clearbody v. unfold resolve_date. rewrite VY, Vm, Vd, Vy, Vg, VG, VC, Vj, Vw, VU, VV, VW. unfold two_digit. cbn [nav]. change (100 =? 100)%Z with true. cbn [bind]. change (-32768 =? -32768)%Z with true. change (8 =? 8)%Z with true. change (-1 =? -1)%Z with true.
  assert (Y0 : (if (z <? -32767)%Z || (z >? 32767)%Z then -32768 else z) = z).
  { destruct (Z.ltb_spec z (-32767)); [lia|]. destruct (Z.gtb_spec z 32767); [lia|]. reflexivity. }
  rewrite Y0. cbn [negb andb orb bind]. do 3 (rewrite ?andb_false_r; cbn [bind andb orb negb]). rewrite year_id, month_small, day_small by lia.
  set (x := YMD z a b). destruct (ymd_ok x) eqn:OK; [|eexists; reflexivity].
  apply ymd_ok_spec in OK; [|cbn; lia..]. rewrite to_days_ok by exact OK. cbn [bind]. destruct OK as [OY EX]. fold (num x).
  assert (HX : yrange (yr x)) by (unfold yrange; cbn; lia). pose proof (year_bounds x EX) as YB. pose proof (jan1_near _ HX) as J. pose proof (jan1_succ (yr x)) as JS.
  rewrite weekday_from_days_eq by (unfold is_int; lia). pose proof (weekday_range (num x)). rewrite weekday_diff_eq by lia. cbn [bind]. eexists; reflexivity.
Qed.
Definition iso_args : list rarg := [RS 1 4; RC "-"; RU 1 2; RC "-"; RU 1 2].
Lemma after_str s c r : okst s -> rest s = c :: r -> s = str_is (c :: r).
Proof. intros O E. destruct (okst_cases s O) as [Q|[Q _]]; [now rewrite <- E|congruence]. Qed.
Lemma read_F_fwd y m d r z a b : number_up_to 4 z y -> digits_up_to 2 a m -> digits_up_to 2 b d -> no_more 2 d r ->
  exists s', read iso_args (str_is (y ++ "-" :: m ++ "-" :: d ++ r)) = Ok ([z; a; b], s') /\ okst s'.
Proof.
  intros (sg & ds & n & -> & Dy & SG) Dm Dd NM.
  pose proof (nm_range 2 m a Dm) as Ba. pose proof (nm_range 2 d b Dd) as Bb. change (10 ^ Z.of_nat 2) with 100 in Ba, Bb.
  destruct (read_s_fwd 4 sg ds n z ("-" :: m ++ "-" :: d ++ r) ltac:(lia) SG Dy ltac:(intros _; cbn; unfold is_dig; intros [A B]; apply A; reflexivity)) as (s1 & R1 & O1 & E1).
  destruct (read_u_fwd 2 m a ("-" :: d ++ r) ltac:(lia) Dm ltac:(intros _; cbn; unfold is_dig; intros [A B]; apply A; reflexivity)) as (s2 & R2 & O2 & E2).
  destruct (read_u_fwd 2 d b r ltac:(lia) Dd NM) as (s3 & R3 & O3 & E3).
  exists s3. split; [|exact O3]. rewrite <- app_assoc. unfold iso_args. cbn [read]. change (read_signed 1 4 ?q) with (read_signed 1 (Z.of_nat 4) q). rewrite R1. cbn [bind]. rewrite (proj1 O1).
  rewrite (after_str s1 _ _ O1 E1), read_c_ok by discriminate. cbn [failb str_is]. fold (str_is (m ++ "-" :: d ++ r)).
  change (read_unsigned 1 2 ?q) with (read_unsigned 1 (Z.of_nat 2) q). rewrite R2, (proj1 O2). rewrite (after_str s2 _ _ O2 E2), read_c_ok by discriminate. cbn [failb str_is]. fold (str_is (d ++ r)).
  change (read_unsigned 1 2 ?q) with (read_unsigned 1 (Z.of_nat 2) q). rewrite R3, (proj1 O3). cbn [read bind]. rewrite !conv_int by lia. reflexivity.
Qed.
Lemma read_F_inv s l s' : read iso_args (str_is s) = Ok (l, s') -> failb s' = false ->
  okst s' /\ exists y m d z a b, l = [z; a; b] /\ s = y ++ "-" :: m ++ "-" :: d ++ rest s' /\ number_up_to 4 z y /\ digits_up_to 2 a m /\ digits_up_to 2 b d /\ no_more 2 d (rest s').
Proof.
  intros R FB. unfold iso_args in R. cbn [read] in R. change (read_signed 1 4 ?q) with (read_signed 1 (Z.of_nat 4) q) in R.
  destruct (read_s_inv 4 (str_is s) ltac:(lia) (okst_str s)) as (z & s1 & R1 & _ & H1). rewrite R1 in R. cbn [bind] in R.
  destruct (failb s1) eqn:F1; [injection R as <- <-; congruence|]. destruct H1 as [H1|(O1 & sg & ds & n & E1 & SG & Dy & _)]; [discriminate|].
  destruct (read_c_inv "-" s1 ltac:(discriminate) O1) as [C1|(r1 & C1 & RC1)]; [rewrite C1 in R; cbn [bind] in R; injection R as <- <-; congruence|].
  rewrite RC1 in R. cbn [failb str_is] in R. fold (str_is r1) in R. change (read_unsigned 1 2 ?q) with (read_unsigned 1 (Z.of_nat 2) q) in R.
  destruct (read_u_inv 2 (str_is r1) ltac:(lia) (okst_str r1)) as (a & s2 & R2 & Ba & H2). rewrite R2 in R.
  destruct (failb s2) eqn:F2; [cbn [bind] in R; injection R as <- <-; congruence|]. destruct H2 as [H2|(O2 & m & E2 & Dm & _)]; [discriminate|].
  destruct (read_c_inv "-" s2 ltac:(discriminate) O2) as [C2|(r2 & C2 & RC2)]; [rewrite C2 in R; cbn [bind] in R; injection R as <- <-; congruence|].
  rewrite RC2 in R. cbn [failb str_is] in R. fold (str_is r2) in R. change (read_unsigned 1 2 ?q) with (read_unsigned 1 (Z.of_nat 2) q) in R.
  destruct (read_u_inv 2 (str_is r2) ltac:(lia) (okst_str r2)) as (b & s3 & R3 & Bb & H3). rewrite R3 in R.
  destruct (failb s3) eqn:F3; [cbn [bind] in R; injection R as <- <-; congruence|]. destruct H3 as [H3|(O3 & d & E3 & Dd & NM)]; [discriminate|].
  cbn [read bind] in R. change (10 ^ Z.of_nat 2) with 100 in Ba, Bb. rewrite !conv_int in R by lia. injection R as <- <-. split; [exact O3|].
  exists (sg ++ ds), m, d, z, a, b. split; [reflexivity|]. cbn [rest str_is] in E1, E2, E3. split; [rewrite E1, C1, E2, C2, E3, <- app_assoc; reflexivity|].
  split; [exists sg, ds, n; auto|]. auto.
Qed.
Lemma parse_F s l s' : read iso_args (str_is s) = Ok (l, s') ->
  parse_ymd (!"%F") s = if failb s' then Throw RuntimeError else
    (f <- (p <- Ok (checked_set Fd (vof l 2) (checked_set Fm (vof l 1) (checked_set FY (vof l 0) (P s' init_vals [] true NUL (-1) false)))) ;;
     if failb (p_is p) then broken else '(x, wd, j) <- resolve_date (p_v p) ;; H <- resolve_hour (p_v p) ;; '(t, has) <- resolve_tod 0 (p_v p) H j no_tod false ;;
       Ok (Fields x (if (wd =? 8)%Z then no_wd else weekday (uns wd)) t has)) ;; _ <- require (ymd_ok (f_ymd f)) ;; Ok (f_ymd f)).
Proof.
  intros R. unfold parse_ymd, parse_fields, from_stream. change (good (stream s)) with true. cbn [negb]. change (c_str (!"%F")) with (!"%F").
  assert (L : loop 0 (!"%F") (P (stream s) init_vals [] false NUL (-1) false) =
    Ok (reset (checked_set Fd (vof l 2) (checked_set Fm (vof l 1) (checked_set FY (vof l 0) (P s' init_vals [] true NUL (-1) false)))))).
  { change (!"%F") with ["%"; "F"]. cbn [loop p_is stream failb p_inw andb p_v p_zone p_cmd p_md p_w]. change (step 0 "%" ?q) with (Ok (P (stream s) init_vals [] true NUL (-1) false)). cbn [bind loop p_is stream failb p_inw andb p_v p_zone p_cmd p_md p_w].
    change (step 0 "F" ?q) with (in_directive 0 "F" q). cbn [in_directive p_md p_is]. change (Ascii.eqb NUL NUL) with true. cbv iota. change (wd_or _ 4) with 4. fold iso_args. change (stream s) with (str_is s). rewrite R. reflexivity. }
  rewrite L. cbn [bind]. set (q := checked_set Fd _ _). cbn [reset p_is p_cmd p_v p_zone]. rewrite andb_false_r. cbn [bind].
  assert (FQ : failb s' = true -> q = P s' init_vals [] true NUL (-1) false).
  { intros F. unfold q, checked_set. cbn [p_is]. rewrite F. cbn [p_is]. rewrite F. cbn [p_is]. rewrite F. reflexivity. }
  destruct (failb s') eqn:F; [rewrite FQ by reflexivity; cbn [p_is]; rewrite F; reflexivity|].
  destruct (failb (p_is q)); [reflexivity|].
  destruct (resolve_date (p_v q)) as [[[x wd] j]| | |]; try reflexivity. cbn [bind].
  destruct (resolve_hour (p_v q)) as [h| | |]; try reflexivity. cbn [bind f_tod f_has no_fields].
  destruct (resolve_tod 0 (p_v q) h j no_tod false) as [[t has]| | |]; try reflexivity.
Qed.
Lemma parse_F_ok s z a b s' : read iso_args (str_is s) = Ok ([z; a; b], s') -> failb s' = false -> -9999 <= z <= 9999 -> 0 <= a <= 99 -> 0 <= b <= 99 ->
  parse_ymd (!"%F") s = (_ <- require (ymd_ok (YMD z a b)) ;; Ok (YMD z a b)).
Proof.
  intros R F Z A B. rewrite (parse_F s _ s' R), F. cbn [vof nth].
  change (checked_set FY z (P s' init_vals [] true NUL (-1) false)) with (if failb s' then P s' init_vals [] true NUL (-1) false else P s' (upd init_vals FY z) [] true NUL (-1) false). rewrite F.
  change (checked_set Fm a (P s' (upd init_vals FY z) [] true NUL (-1) false)) with (if failb s' then P s' (upd init_vals FY z) [] true NUL (-1) false else P s' (upd (upd init_vals FY z) Fm a) [] true NUL (-1) false). rewrite F.
  change (checked_set Fd b (P s' (upd (upd init_vals FY z) Fm a) [] true NUL (-1) false)) with (if failb s' then P s' (upd (upd init_vals FY z) Fm a) [] true NUL (-1) false else P s' (three z a b) [] true NUL (-1) false). rewrite F.
  cbn [bind p_is p_v]. rewrite F. destruct (resolve_three z a b Z A B) as [wd ->]. cbn [bind]. change (resolve_hour (three z a b)) with (Ok (nav FH)). cbn [bind].
  change (resolve_tod 0 (three z a b) (nav FH) (-1) no_tod false) with (Ok (no_tod, false)). cbn [bind f_ymd]. reflexivity.
Qed.
(** %F accepts a text if and only if it names an existing date, and yields that date *)
Theorem C79_iso s x : parse_ymd (!"%F") s = Ok x <-> iso_date s x.
Proof.
  assert (YB : forall z y, number_up_to 4 z y -> -9999 <= z <= 9999).
  { intros z y (sg & ds & n & _ & D & SG). pose proof (nm_range 4 ds n D) as B. change (10 ^ Z.of_nat 4) with 10000 in B. destruct SG as [[_ ->]|[[_ ->]|[_ ->]]]; lia. }
  assert (DB : forall z y, digits_up_to 2 z y -> 0 <= z <= 99) by (intros z y D; pose proof (nm_range 2 y z D) as B; change (10 ^ Z.of_nat 2) with 100 in B; lia).
  split.
  - intros H. destruct (read_sok iso_args ltac:(unfold iso_args; aok) (str_is s) (sok_str s)) as (l & s' & R & _). destruct (failb s') eqn:F; [rewrite (parse_F s l s' R), F in H; discriminate|].
    destruct (read_F_inv s l s' R F) as (O & y & m & d & z & a & b & -> & E & Ny & Nm & Nd & NM).
    rewrite (parse_F_ok s z a b s' R F) in H by eauto. destruct (ymd_ok (YMD z a b)) eqn:OK; [|discriminate]. cbn [require bind] in H. injection H as <-.
    exists y, m, d, (rest s'). cbn [yr mo dy]. repeat (split; [assumption|]). pose proof (YB _ _ Ny). pose proof (DB _ _ Nm). pose proof (DB _ _ Nd). apply ymd_ok_spec; [cbn; lia..|exact OK].
  - intros (y & m & d & r & -> & Ny & Nm & Nd & NM & IC). destruct (read_F_fwd y m d r _ _ _ Ny Nm Nd NM) as (s' & R & O).
    pose proof (YB _ _ Ny) as B1. pose proof (DB _ _ Nm) as B2. pose proof (DB _ _ Nd) as B3.
    rewrite (parse_F_ok _ _ _ _ s' R (proj1 O)) by assumption. destruct x as [z a b]. cbn [yr mo dy] in *. assert (OK : ymd_ok (YMD z a b) = true) by (apply ymd_ok_spec; [cbn; lia..|exact IC]). rewrite OK. reflexivity.
Qed.
(** ... and fails on every other text *)
Theorem C79_iso_rejects s : (forall x, ~ iso_date s x) -> parse_ymd (!"%F") s = Throw RuntimeError.
Proof.
  intros H. destruct (C80_date (!"%F") s) as [(x & E & _)|E]; [reflexivity| |exact E]. exfalso. now apply (H x), C79_iso.
Qed.

(** * Formats in general *)
Lemma month_name i k : 0 <= i -> nth_error month_names (Z.to_nat i) = Some k ->
  k = nth (Z.to_nat (i mod 12 + 1 - 1)) months [] \/ k = short (nth (Z.to_nat (i mod 12 + 1 - 1)) months []).
Proof.
  intros P H. assert (L : (Z.to_nat i < 24)%nat) by (apply (nth_error_Some month_names); congruence).
  rewrite <- (Z2Nat.id i) by exact P. set (n := Z.to_nat i) in *. clearbody n. clear P i.
  do 24 (destruct n as [|n]; [injection H as <-; vm_compute; auto|]). lia.
Qed.
Lemma weekday_name i k : 0 <= i -> nth_error weekday_names (Z.to_nat i) = Some k ->
  k = nth (Z.to_nat (i mod 7)) day_names [] \/ k = short (nth (Z.to_nat (i mod 7)) day_names []).
Proof.
  intros P H. assert (L : (Z.to_nat i < 14)%nat) by (apply (nth_error_Some weekday_names); congruence).
  rewrite <- (Z2Nat.id i) by exact P. set (n := Z.to_nat i) in *. clearbody n. clear P i.
  do 14 (destruct n as [|n]; [injection H as <-; vm_compute; auto|]). lia.
Qed.
Lemma said_one v f n L : said v ((f, n) :: L) -> (n <> nav f -> v f = n) /\ said v L.
Proof. intros H. apply Forall_cons_iff in H. destruct H as [[A|A] H]; cbn [fst snd] in A; (split; [congruence|exact H]). Qed.
(** Week [n], counted from the Monday before 4 January *)
Lemma in_week_num x g n : exists_date x -> iso1 g + 7 * (n - 1) <= num x < iso1 g + 7 * n -> in_week x g n.
Proof.
  intros E B. assert (E4 : exists_date (YMD g 1 4)) by (split; [cbn; lia|]; exists 31; split; [apply ml_31; cbn; auto|cbn; lia]). exists (num x), (num (YMD g 1 4)), (iso1 g).
  split; [now apply num_day_number|]. split; [now apply num_day_number|].
  assert (J : num (YMD g 1 4) = jan1 g + 3) by (unfold num, jan1, days_of; cbn [yr mo dy]; lia). rewrite J.
  assert (weekday_of (iso1 g) = 1 /\ iso1 g <= jan1 g + 3 < iso1 g + 7) by (unfold iso1, offset_to, weekday_of; set (a := jan1 g); clearbody a; clear; div_lia). tauto.
Qed.
Definition whole w v x g (c : ascii) (t : str) : Prop := c = "c" /\
  exists ta b1 tb b2 td b3 tc b4 ty Lc, t = ta ++ b1 ++ tb ++ b2 ++ td ++ b3 ++ tc ++ b4 ++ ty /\ Forall white (b1 ++ b2 ++ b3 ++ b4) /\
    given x g "a" ta /\ given x g "b" tb /\ given x g "d" td /\ (tfacts w "T" tc Lc /\ said v Lc) /\ given x g "Y" ty.
Lemma tfacts_clock w c t L : tfacts w c t L -> memb c clock_in = true /\ memb c sound_in = false.
Proof. destruct 1; try (split; reflexivity). destruct H as [->| ->]; split; reflexivity. Qed.
Lemma facts_given w v x g c t L : agrees v x g -> facts w c t L -> said v L ->
  given x g c t \/ tfacts w c t L \/ (c = "z" /\ exists o, L = [(Foff, o)] /\ offset_text o t) \/ whole w v x g c t.
Proof.
  intros [IC AY Ay AM AD AW AJ AU AWk AC AG Ag AV _] F S. pose proof IC as [OY EX].
  assert (ZM : forall z, (z <> 0 -> v Fm = z) -> or_zero z (mo x)).
  { intros z H. destruct (Z.eq_dec z 0) as [->|N]; [now right|]. left. symmetry. specialize (H N). rewrite AM; congruence. }
  assert (ZD : forall z, (z <> 0 -> v Fd = z) -> or_zero z (dy x)).
  { intros z H. destruct (Z.eq_dec z 0) as [->|N]; [now right|]. left. symmetry. specialize (H N). rewrite AD; congruence. }
  induction F as [t z H|t n H|t z H|c t z H H0|y m d z a b H H0 H1|c y m d z a b H H0 H1 H2|c t k i H H0 H1 H2|c t k i H H0 H1 H2|t n H H0|t n H H0|t n H|t n H|t n H| |t z H|t z H|t n H|t n H|c t L H|t o H|
    ta b1 tb b2 td b3 tc b4 ty La Lb Ld Lc Ly BW FA IA FB IB FD ID FC FY IY]; [left..|right; now left|right; right; left; split; [reflexivity|now exists o]|].
  19:{ apply Forall_app in S. destruct S as [SA S]. apply Forall_app in S. destruct S as [SB S]. apply Forall_app in S. destruct S as [SD S]. apply Forall_app in S. destruct S as [SC SY].
    assert (X : forall e u M, memb e sound_in = true -> given x g e u \/ tfacts w e u M \/ (e = "z" /\ exists o, M = [(Foff, o)] /\ offset_text o u) \/ whole w v x g e u -> given x g e u).
    { intros e u M ME [G|[G|[[-> _]|[-> _]]]]; [exact G| |discriminate ME|discriminate ME]. apply tfacts_clock in G. destruct G. congruence. }
    right. right. right. split; [reflexivity|]. exists ta, b1, tb, b2, td, b3, tc, b4, ty, Lc. split; [reflexivity|]. split; [exact BW|].
    split; [now apply (X "a" ta La eq_refl), IA|]. split; [now apply (X "b" tb Lb eq_refl), IB|]. split; [now apply (X "d" td Ld eq_refl), ID|]. split; [split; assumption|now apply (X "Y" ty Ly eq_refl), IY]. }
  all: repeat match goal with H : said _ (_ :: _) |- _ => apply said_one in H; let A := fresh "A" in destruct H as [A H]; cbn [nav] in A end.
  - pose proof (num_4 _ _ H). specialize (A ltac:(lia)). apply g_Y. rewrite AY by lia. now rewrite A.
  - pose proof (dig_2 _ _ H). specialize (A ltac:(lia)). apply g_y. rewrite Ay by lia. now rewrite A.
  - apply (g_m x g t z H). auto.
  - apply (g_d x g c t z H H0). auto.
  - pose proof (num_4 _ _ H). specialize (A ltac:(lia)). apply g_F with a b; auto. rewrite AY by lia. now rewrite A.
  - pose proof (num_2 _ _ H0). specialize (A ltac:(lia)). apply g_D with a b; auto. rewrite Ay by lia. now rewrite A.
  - assert (MB := Z.mod_pos_bound i 12 ltac:(lia)). specialize (A ltac:(lia)). apply (g_B x g c t H). rewrite AM by lia. rewrite A. destruct (month_name i k H0 H1) as [<- | <-]; auto.
  - assert (MB := Z.mod_pos_bound i 7 ltac:(lia)). specialize (A ltac:(lia)). apply (g_A x g c t (i mod 7) H).
    + rewrite <- A, AW by lia. apply (wdx_is x IC).
    + destruct (weekday_name i k H0 H1) as [<- | <-]; auto.
  - assert (MB := Z.mod_pos_bound n 7 ltac:(lia)). specialize (A ltac:(lia)). apply (g_u x g t n H0 H). rewrite <- A, AW by lia. apply (wdx_is x IC).
  - specialize (A ltac:(lia)). apply (g_w x g t n H). rewrite <- A, AW by lia. apply (wdx_is x IC).
  - pose proof (dig_3 _ _ H). specialize (A ltac:(lia)). destruct (AJ ltac:(lia)) as (y & EY & NY & My & Dy).
    apply (g_j x g t n (jan1 (yr x)) y H); auto; [apply (num_day_number _ (jan1_exists (yr x)))|]. rewrite <- A, <- NY. now apply num_day_number.
  - pose proof (dig_2 _ _ H). specialize (A ltac:(lia)). apply (g_U x g t n H). apply seen_rank; [lia|exact EX|]. rewrite <- A. apply AU. lia.
  - pose proof (dig_2 _ _ H). specialize (A ltac:(lia)). apply (g_W x g t n H). apply seen_rank; [lia|exact EX|]. rewrite <- A. apply AWk. lia.
  - apply g_percent.
  - pose proof (num_2 _ _ H). specialize (A ltac:(lia)). apply g_C. rewrite AC by lia. now rewrite A.
  - pose proof (num_4 _ _ H). specialize (A ltac:(lia)). apply g_G. rewrite AG by lia. now rewrite A.
  - pose proof (dig_2 _ _ H). specialize (A ltac:(lia)). apply g_g. rewrite Ag by lia. now rewrite A.
  - pose proof (dig_2 _ _ H). specialize (A ltac:(lia)). apply (g_V x g t n H). apply in_week_num; [exact EX|]. rewrite <- A. apply AV. lia.
Qed.
(** A directive that is used sets its variable *)
Lemma uses_set w v l ts cs f : Forall2 (told w v) l ts -> (forall c t L, memb c cs = true -> facts w c t L -> exists n, In (f, n) L /\ n <> nav f) -> uses l cs = true -> v f <> nav f.
Proof.
  intros F H. induction F as [|i t l ts T F IH]; cbn [uses existsb]; [discriminate|]. rewrite orb_true_iff. intros [U|U]; [|now apply IH].
  destruct i as [c|c]; [discriminate|]. destruct T as (L & FA & SA). destruct (H c t L U FA) as (n & I & N). unfold said in SA. rewrite Forall_forall in SA. destruct (SA _ I) as [E|E]; cbn [fst snd] in E; congruence.
Qed.
Lemma set_uses l v f cs : untouched l init_vals v -> cs = setters f -> v f <> nav f -> uses l cs = true.
Proof. intros U -> N. destruct (uses l (setters f)) eqn:E; [reflexivity|]. exfalso. apply N. now rewrite (U f E). Qed.
Ltac onevar := match goal with |- forall _ _ _, _ -> facts ?w _ _ _ -> _ => clear - w | _ => clear end; intros c t L M F; memb_cases M; inversion F; subst; try discriminate;
  try match goal with H : _ = _ \/ _ = _ |- _ => destruct H; discriminate end;
  try match goal with H : tfacts _ _ _ _ |- _ => inversion H; subst; try match goal with H : _ = _ \/ _ = _ |- _ => destruct H; discriminate end; fail end;
  eexists; (split; [now left|]); cbn [nav];
  repeat match goal with H : digits_up_to 2 _ _ |- _ => apply dig_2 in H | H : number_up_to 4 _ _ |- _ => apply num_4 in H | H : number_up_to 2 _ _ |- _ => apply num_2 in H end; lia.
Lemma uses_or l a b : uses l (a ++ b) = uses l a || uses l b.
Proof.
  unfold uses. induction l as [|[c|c] l IH]; [reflexivity|exact IH|]. cbn [existsb]. rewrite IH. assert (M : memb c (a ++ b) = memb c a || memb c b) by (unfold memb; apply existsb_app). rewrite M.
  destruct (memb c a), (memb c b); cbn; try reflexivity; now rewrite ?orb_true_r.
Qed.
(** The date that follows from the variables *)
Lemma date_core w l ts v x wd j : compared l -> nums v -> untouched l init_vals v -> Forall2 (told w v) l ts -> resolve_date v = Ok (x, wd, j) -> ymd_ok x = true ->
  exists g, agrees v x g /\ (iso_given l = true \/ exists k, iso_week x g k).
Proof.
  intros [P1 P2] NV Q F RD OK. assert (V := nums_vok v NV). assert (RE : resolve_date (no_off v) = Ok (x, wd, j)) by exact RD. clear RD.
  assert (Uy : uses l (!"yDx") = true -> v Fy <> 100) by (apply (uses_set w v l ts _ Fy F); onevar).
  assert (UV : uses l (!"V") = true -> v FV <> 100) by (apply (uses_set w v l ts _ FV F); onevar).
  assert (UG : uses l (!"G") = true -> v FG <> -32768) by (apply (uses_set w v l ts _ FG F); onevar).
  assert (Ug : uses l (!"g") = true -> v Fg <> 100) by (apply (uses_set w v l ts _ Fg F); onevar).
  assert (GU : v FG <> -32768 \/ v Fg <> 100 -> uses l (!"Gg") = true).
  { change (!"Gg") with (!"G" ++ !"g"). rewrite uses_or, orb_true_iff. intros [A|A]; [left; now apply (set_uses l v FG)|right; now apply (set_uses l v Fg)]. }
  assert (VU : v FV <> 100 -> uses l (!"V") = true) by (now apply (set_uses l v FV)).
  assert (WU : v Fwd <> 8 -> uses l (!"aAuwc") = true) by (now apply (set_uses l v Fwd)).
  assert (X := fun A B => resolve_sound (no_off v) _ wd j V A B RE OK). destruct X as [g A].
  - intros A. apply Uy, P1. now apply (set_uses l v FC).
  - intros A B D. assert (IG : iso_given l = true).
    { apply P2; [|change (!"UW") with (!"U" ++ !"W"); rewrite uses_or, orb_true_iff; destruct B as [B|B]; [left; now apply (set_uses l v FU)|right; now apply (set_uses l v FW)]|auto].
      change (!"GgV") with (!"Gg" ++ !"V"). rewrite uses_or, orb_true_iff. tauto. }
    unfold iso_given in IG. rewrite !andb_true_iff in IG. destruct IG as [[I1 I2] _]. split; [|auto]. change (!"Gg") with (!"G" ++ !"g") in I1. rewrite uses_or, orb_true_iff in I1. tauto.
  - assert (AV : agrees v x g) by (destruct A; constructor; assumption). clear A. rename AV into A. exists g. split; [exact A|]. destruct (a_iso _ _ _ A) as [->|(B1 & B2 & B3)].
    + right. eexists. apply iso_week_eq; [apply (a_in _ _ _ A)|]. split; reflexivity.
    + left. unfold iso_given. rewrite GU, VU, WU by assumption. reflexivity.
Qed.
Lemma covered_all Q (R R' : item -> str -> Prop) l ts : covered Q l -> (forall i t, (forall c, i = Dir c -> Q c) -> R i t -> R' i t) -> Forall2 R l ts -> Forall2 R' l ts.
Proof.
  intros C H F. induction F as [|i t l ts A F IH]; [constructor|]. apply Forall_cons_iff in C. destruct C as [CI C]. constructor; [|now apply IH]. apply H; [|exact A]. intros c ->. exact CI.
Qed.
Lemma covered_mono (Q Q' : ascii -> Prop) l : (forall c, Q c -> Q' c) -> covered Q l -> covered Q' l.
Proof. intros H. apply Forall_impl. intros [c|c]; [auto|apply H]. Qed.
Lemma sound_moment l : covered (fun c => memb c sound_in = true) l -> covered (fun c => memb c moment_in = true) l.
Proof. apply covered_mono. intros c M. unfold moment_in. assert (E : forall b, memb c (sound_in ++ b) = memb c sound_in || memb c b) by (intros b; unfold memb; apply existsb_app). now rewrite E, M. Qed.
Lemma sound_z l : covered (fun c => memb c sound_in = true) l -> uses l (!"z") = false.
Proof.
  induction 1 as [|i l HI HL IH]; [reflexivity|]. cbn [uses existsb]. fold (uses l (!"z")). rewrite IH, orb_false_r. destruct i as [c|c]; [reflexivity|]. unfold memb. cbn [existsb lit list_ascii_of_string]. rewrite orb_false_r.
  apply Ascii.eqb_neq. intros ->. discriminate HI.
Qed.
(** If a date is parsed, then the beginning of the text consists of one piece for each part of the
    format, and every piece says the truth about that date.  Hence contradicting pieces are
    rejected, with the exceptions in [given] and [compared].  The year [g] of the ISO week is that
    of the date unless the date is given by ISO year, week and weekday: then week 53 of a year
    with 52 weeks is accepted. *)
Theorem C79_sound l s x : covered (fun c => memb c sound_in = true) l -> compared l -> parse_ymd (fmt_of l) s = Ok x ->
  in_calendar x /\ exists g ts r, (iso_given l = true \/ exists k, iso_week x g k) /\ s = concat ts ++ r /\ Forall2 (piece x g) l ts.
Proof.
  intros C P H. unfold parse_ymd, parse_fields in H. destruct (from_stream 0 (fmt_of l) no_fields (stream s)) as [r| | |] eqn:FS; try discriminate. cbn [bind] in H.
  destruct (ymd_ok (f_ymd (r_fields r))) eqn:OK; [|discriminate]. cbn [require bind] in H. injection H as <-.
  destruct (stream_reads 0 ltac:(lia) l no_fields s r (sound_moment l C) FS) as (v & ts & V & Q & E & F & wd & j & RD & _).
  destruct (date_core 0 l ts v _ wd j P V Q F RD OK) as (g & A & G). split; [apply A|]. exists g, ts, (rest (r_is r)). split; [exact G|]. split; [exact E|].
  apply (covered_all _ (told 0 v) _ l ts C); [|exact F]. intros [c|c] t M T; [exact T|]. destruct T as (L & FA & SA). specialize (M c eq_refl). destruct (facts_given 0 v _ _ c t L A FA SA) as [GV|[TF|[[-> _]|[-> _]]]]; [exact GV| |discriminate M|discriminate M].
  apply tfacts_clock in TF. rewrite M in TF. destruct TF. discriminate.
Qed.
(** A text that is true of no date is rejected *)
Theorem C79_contradiction l s : covered (fun c => memb c sound_in = true) l -> compared l ->
  (forall x g ts r, in_calendar x -> iso_given l = true \/ (exists k, iso_week x g k) -> s = concat ts ++ r -> ~ Forall2 (piece x g) l ts) -> parse_ymd (fmt_of l) s = Throw RuntimeError.
Proof.
  intros C P H. destruct (C80_date (fmt_of l) s (plain_sound l (sound_moment l C) (sound_z l C))) as [(x & E & _)|E]; [|exact E].
  exfalso. destruct (C79_sound l s x C P E) as (IC & g & ts & r & G & S & F). exact (H x g ts r IC G S F).
Qed.
Definition C79_fmt : list item :=
  [Dir "a"; Lit ","; Lit " "; Dir "d"; Lit " "; Dir "b"; Lit " "; Dir "Y"; Lit " "; Dir "j"; Lit " "; Dir "U"; Dir "%"].
Definition C79_weeks : list item := [Dir "G"; Lit "-"; Dir "V"; Lit "-"; Dir "u"; Lit " "; Dir "C"; Lit " "; Dir "y"].
Definition C79_redundant : list item := [Dir "F"; Lit " "; Dir "g"; Lit " "; Dir "V"].
Example C79_example :
  covered (fun c => memb c sound_in = true) C79_fmt /\ compared C79_fmt /\
  parse_ymd (fmt_of C79_fmt) (!"THU,  29 february 2024 060 8%") = Ok (YMD 2024 2 29) /\
  parse_ymd (fmt_of C79_fmt) (!"Fri, 29 Feb 2024 060 8%") = Throw RuntimeError /\
  parse_ymd (fmt_of C79_fmt) (!"Thu, 29 Feb 2024 061 8%") = Throw RuntimeError /\
  parse_ymd (fmt_of C79_fmt) (!"Thu, 29 Feb 2024 060 9%") = Throw RuntimeError /\
  (covered (fun c => memb c sound_in = true) C79_weeks /\ compared C79_weeks /\ iso_given C79_weeks = true /\
   parse_ymd (fmt_of C79_weeks) (!"2020-53-5 20 21") = Ok (YMD 2021 1 1) /\ parse_ymd (fmt_of C79_weeks) (!"2020-53-5 20 20") = Throw RuntimeError) /\
  (covered (fun c => memb c sound_in = true) C79_redundant /\ compared C79_redundant /\ iso_given C79_redundant = false /\
   parse_ymd (fmt_of C79_redundant) (!"2021-01-01 20 53") = Ok (YMD 2021 1 1) /\ parse_ymd (fmt_of C79_redundant) (!"2021-01-01 21 53") = Throw RuntimeError /\
   parse_ymd (fmt_of C79_redundant) (!"2021-01-01 20 52") = Throw RuntimeError) /\
  iso_date (!"+2024-2-29T12") (YMD 2024 2 29) /\ parse_ymd (!"%F") (!"2023-2-29") = Throw RuntimeError.
Proof.
  split; [repeat constructor; discriminate|]. split; [split; vm_compute; congruence|]. do 4 (split; [vm_compute; reflexivity|]).
  split; [split; [repeat constructor; discriminate|]; split; [split; vm_compute; congruence|]; repeat split; vm_compute; reflexivity|].
  split; [split; [repeat constructor; discriminate|]; split; [split; vm_compute; congruence|]; repeat split; vm_compute; reflexivity|].
  split; [|vm_compute; reflexivity].
  apply C79_iso. vm_compute. reflexivity.
Qed.
(** Contradicting input that is accepted: the century is not compared with the year *)
Theorem C79_contradiction_refuted : parse_ymd (!"%C %F") (!"19 2024-05-06") = Ok (YMD 2024 5 6).
Proof. vm_compute. reflexivity. Qed.
(** The day of the year may lie outside of the year: 2023 has no day 366 or 0 *)
Theorem C79_day_of_year_finding :
  parse_ymd (!"%Y %j") (!"2023 366") = Ok (YMD 2023 1 1) /\ parse_ymd (!"%Y %j") (!"2023 000") = Ok (YMD 2023 12 31).
Proof. split; vm_compute; reflexivity. Qed.
(** The ISO week may lie outside of the year: 2021 has no week 53 or 99 *)
Theorem C79_iso_week_finding :
  parse_ymd (!"%G-W%V-%u") (!"2021-W53-1") = Ok (YMD 2022 1 3) /\ parse_ymd (!"%G-W%V-%u") (!"2021-W99-1") = Ok (YMD 2022 11 21).
Proof. split; vm_compute; reflexivity. Qed.
(** The ISO week is not compared if the date follows from %U or %W *)
Theorem C79_week_unchecked_finding : parse_ymd (!"%Y %U %u %V") (!"2024 08 4 33") = Ok (YMD 2024 2 29).
Proof. vm_compute. reflexivity. Qed.
(** Month and day 0 are ignored if they come first, and rejected otherwise *)
Theorem C79_zero_finding :
  parse_ymd (!"%m %B %d %Y") (!"00 May 06 2024") = Ok (YMD 2024 5 6) /\ parse_ymd (!"%B %m %d %Y") (!"May 00 06 2024") = Throw RuntimeError.
Proof. split; vm_compute; reflexivity. Qed.
(** %m and %d accept a sign, and a negative year that is a multiple of 100 contradicts its own %y *)
Theorem C79_sign_finding :
  parse_ymd (!"%Y-%m-%d") (!"2024-+5-+6") = Ok (YMD 2024 5 6) /\ parse_ymd (!"%F %y") (!"-0100-05-06 00") = Throw RuntimeError.
Proof. split; vm_compute; reflexivity. Qed.

(** With a width of three, the month is taken modulo 256 *)
Theorem C79_wide_month_finding : parse_ymd (!"%Y-%3m-%d") (!"2024-257-06") = Ok (YMD 2024 1 6).
Proof. vm_compute. reflexivity. Qed.

Print Assumptions C79_iso.
Print Assumptions C79_sound.
