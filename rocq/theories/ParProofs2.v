(** Reading back seconds with decimals: the conversion through long double is exact. *)
From Coq Require Import Reals Lra.
From Flocq Require Import Core.Core IEEE754.BinarySingleNaN.
From Verif Require Import Base IntModel FloatModel FloatProofs ToNumModel ToNumProofs3 DateModel DateSpec DateProofs DateProofs2 StrProofs2 FmtModel FmtSpec FmtProofs FmtProofs2 FmtProofs3 FmtProofs4 FmtProofs6 ParModel ParSpec ParProofs1.

Section Long.
Notation fexp := (SpecFloat.fexp 64 16384).
Notation rnd := (round radix2 fexp ZnearestE).
#[local] Instance fexp_valid80 : Valid_exp fexp := fexp_correct 64 16384 _.

Local Open Scope R_scope.
Lemma rnd_err x e : Rabs x < bpow radix2 e -> (-1000 <= e)%Z -> Rabs (rnd x - x) <= bpow radix2 (e - 65).
Proof.
  intros H E. destruct (Req_dec x 0) as [->|N].
  - rewrite round_0 by auto with typeclass_instances. rewrite Rminus_0_r, Rabs_R0. left. apply bpow_gt_0.
  - eapply Rle_trans; [apply error_le_half_ulp; auto with typeclass_instances|]. rewrite ulp_neq_0 by exact N.
    replace (e - 65)%Z with (-1 + (e - 64))%Z by ring. rewrite bpow_plus. change (bpow radix2 (-1)) with (/ 2). apply Rmult_le_compat_l.
    { lra. } apply bpow_le. unfold cexp. assert (mag radix2 x <= e)%Z by (apply mag_le_bpow; assumption).
    unfold SpecFloat.fexp, SpecFloat.emin. lia.
Qed.
Lemma rep_err (r : ldouble) x e : rep 64 16384 r x -> Rabs x < bpow radix2 e -> (-1000 <= e <= 1000)%Z ->
  is_finite r = true /\ Rabs (B2R r - x) <= bpow radix2 (e - 65).
Proof.
  intros R H E. pose proof (rnd_err x e H ltac:(lia)) as A. unfold rep in R. rewrite Rlt_bool_true in R.
  - destruct R as [F ->]. auto.
  - assert (bpow radix2 (e - 65) <= bpow radix2 e) by (apply bpow_le; lia).
    assert (bpow radix2 (1 + e) <= bpow radix2 16384) by (apply bpow_le; lia). rewrite bpow_plus in H1.
    change (bpow radix2 1) with 2 in H1. pose proof (bpow_gt_0 radix2 e).
    apply Rabs_def2 in H. apply Rabs_def1; apply Rabs_le_inv in A; lra.
Qed.
Lemma rep_pos (r : ldouble) x : rep 64 16384 r x -> is_finite r = true -> 0 <= x -> 0 <= B2R r.
Proof.
  intros R F H. unfold rep in R. destruct (Rlt_bool (Rabs (rnd x)) (bpow radix2 16384)).
  - destruct R as [_ ->]. rewrite <- (rnd_0 64 16384). now apply (rnd_le 64 16384).
  - subst r. discriminate.
Qed.
Lemma Btrunc_Ztrunc (x : ldouble) : Btrunc x = Ztrunc (B2R x).
Proof.
  apply eq_IZR. rewrite Btrunc_correct by auto with typeclass_instances.
  unfold round, scaled_mantissa, cexp, FIX_exp, F2R. cbn [Fnum Fexp bpow Z.opp]. now rewrite !Rmult_1_r.
Qed.
Lemma of_Z_exact z : (0 <= z < 2 ^ 64)%Z -> is_finite (f_of_Z z : ldouble) = true /\ B2R (f_of_Z z : ldouble) = IZR z.
Proof. intros H. apply (of_Z_small 64 16384). exact H. Qed.

Lemma round_sec_exact w i f : (w <= 12)%nat -> (0 <= i < 60)%Z -> (0 <= f < ticks w)%Z ->
  round_sec w (ld_of i f (Z.of_nat w)) = Ok (i * ticks w + f)%Z.
Proof.
  intros W HI HF. unfold round_sec. unfold ticks in *. set (T := (10 ^ Z.of_nat w)%Z) in *.
  assert (T1 : (1 <= T <= 1000000000000)%Z).
  { split; [|change 1000000000000%Z with (10 ^ 12)%Z; apply Z.pow_le_mono_r; lia].
    assert (0 < T)%Z by (apply Z.pow_pos_nonneg; lia). lia. }
  set (N := (i * T + f)%Z). assert (NB : (0 <= N < 60000000000001)%Z) by (unfold N; nia).
  assert (P64 : (2 ^ 64 = 18446744073709551616)%Z) by reflexivity.
  destruct (of_Z_exact i ltac:(lia)) as [Fi Ei]. destruct (of_Z_exact f ltac:(lia)) as [Ff Ef].
  destruct (of_Z_exact T ltac:(lia)) as [FT ET].
  change (lit_pos (Z.of_nat w)) with (f_of_Z T : ldouble) in *.
  assert (TR : 1 <= IZR T <= 1000000000000) by (split; apply IZR_le; lia).
  assert (IR : 0 <= IZR i <= 59) by (split; apply IZR_le; lia).
  assert (FR : 0 <= IZR f) by (apply IZR_le; lia).
  assert (FR2 : IZR f <= IZR T - 1) by (rewrite <- minus_IZR; apply IZR_le; lia).
  unfold ld_of. change (lit_pos (Z.of_nat w)) with (f_of_Z T : ldouble).
  set (q := fdiv (f_of_Z f) (f_of_Z T) : ldouble). set (x := fadd (f_of_Z i) q : ldouble).
  set (d := fmul x (f_of_Z T) : ldouble).
  pose proof (rep_div 64 16384 (f_of_Z f) (f_of_Z T) Ff FT ltac:(rewrite ET; lra)) as Rq. rewrite Ef, ET in Rq. fold q in Rq.
  assert (Q0 : 0 <= IZR f / IZR T < 1).
  { split; [apply Rmult_le_pos; [lra|left; apply Rinv_0_lt_compat; lra]|]. apply Rmult_lt_reg_r with (IZR T); [lra|].
    unfold Rdiv. rewrite Rmult_assoc, Rinv_l by lra. lra. }
  destruct (rep_err q _ 0 Rq) as [Fq Eq]; [change (bpow radix2 0) with 1; rewrite Rabs_pos_eq; lra|lia|].
  apply Rabs_le_inv in Eq. pose proof (rep_pos _ _ Rq Fq ltac:(lra)) as Pq.
  assert (B65 : bpow radix2 (0 - 65) <= / 1000000000000000000).
  { change (0 - 65)%Z with (-65)%Z. cbn [bpow Z.pow_pos Pos.iter]. apply Rinv_le; [lra|]. apply IZR_le. vm_compute. discriminate. }
  pose proof (rep_plus 64 16384 (f_of_Z i) q Fi Fq) as Rx. rewrite Ei in Rx. fold x in Rx.
  destruct (rep_err x _ 6 Rx) as [Fx Ex]; [change (bpow radix2 6) with 64; rewrite Rabs_pos_eq; lra|lia|].
  apply Rabs_le_inv in Ex. pose proof (rep_pos _ _ Rx Fx ltac:(lra)) as Px.
  assert (B59 : bpow radix2 (6 - 65) <= / 100000000000000000).
  { change (6 - 65)%Z with (-59)%Z. cbn [bpow Z.pow_pos Pos.iter]. apply Rinv_le; [lra|]. apply IZR_le. vm_compute. discriminate. }
  pose proof (rep_mult 64 16384 x (f_of_Z T) Fx FT) as Rd. rewrite ET in Rd. fold d in Rd.
  assert (XT : IZR N - / 100 <= B2R x * IZR T <= IZR N + / 100).
  { unfold N. rewrite plus_IZR, mult_IZR. set (e := B2R x - (IZR i + IZR f / IZR T)).
    assert (EB : - (/ 50000000000000000) <= e <= / 50000000000000000) by (unfold e; lra).
    replace (B2R x * IZR T) with (IZR i * IZR T + IZR f + e * IZR T) by (unfold e; field; lra).
    assert (- / 100 <= e * IZR T <= / 100) by nra. lra. }
  assert (NR : 0 <= IZR N <= 60000000000000) by (split; apply IZR_le; lia).
  destruct (rep_err d _ 46 Rd) as [Fd Ed].
  { change (bpow radix2 46) with 70368744177664. rewrite Rabs_pos_eq; nra. }
  { lia. }
  apply Rabs_le_inv in Ed. pose proof (rep_pos _ _ Rd Fd ltac:(nra)) as Pd.
  assert (B19 : bpow radix2 (46 - 65) <= / 100000).
  { change (46 - 65)%Z with (-19)%Z. cbn [bpow Z.pow_pos Pos.iter]. apply Rinv_le; [lra|]. apply IZR_le. vm_compute. discriminate. }
  assert (DN : IZR N - / 50 <= B2R d <= IZR N + / 50) by lra.
  unfold ld_to_ll. rewrite Fd, Btrunc_Ztrunc, Ztrunc_floor by exact Pd. cbn [andb].
  assert (HT : (exists t, Zfloor (B2R d) = t /\ (0 <= t)%Z /\
     ((t = N /\ 0 <= B2R d - IZR t <= / 50) \/ ((t + 1)%Z = N /\ - / 50 <= B2R d - (IZR t + 1) <= 0)))).
  { destruct (Rle_or_lt (IZR N) (B2R d)) as [L|L].
    - exists N. split; [apply Zfloor_imp; rewrite plus_IZR; lra|]. split; [lia|]. left. split; [reflexivity|]. lra.
    - exists (N - 1)%Z. assert (N <> 0)%Z by (intros E0; rewrite E0 in *; lra). split.
      + apply Zfloor_imp. rewrite Z.sub_add, minus_IZR. lra.
      + split; [lia|]. right. split; [ring|]. rewrite minus_IZR. lra. }
  destruct HT as (t & -> & T0 & HT).
  assert (TB : (t <= 60000000000001)%Z) by lia.
  destruct (of_Z_exact t ltac:(lia)) as [Ft Et]. destruct (of_Z_exact (t + 1) ltac:(lia)) as [Ft1 Et1].
  rewrite plus_IZR in Et1.
  assert (in_rangeb llong_t t = true) as ->.
  { unfold in_rangeb, imin, imax, llong_t. cbn [sgn wid]. apply andb_true_intro. rewrite !Z.leb_le.
    change (2 ^ (64 - 1))%Z with 9223372036854775808%Z. lia. }
  cbn [bind]. unfold flt at 1. rewrite Bltb_correct by assumption. rewrite Et, Rlt_bool_false by lra. cbn [bind].
  rewrite ll_ok by lia. cbn [bind].
  pose proof (rep_minus 64 16384 d (f_of_Z t) Fd Ft) as R0. rewrite Et in R0.
  pose proof (rep_minus 64 16384 (f_of_Z (t + 1)) d Ft1 Fd) as R1. rewrite Et1 in R1.
  set (diff0 := fsub d (f_of_Z t) : ldouble) in *. set (diff1 := fsub (f_of_Z (t + 1)) d : ldouble) in *.
  destruct (rep_err diff0 _ 1 R0) as [F0 E0]; [change (bpow radix2 1) with 2; rewrite Rabs_pos_eq; lra|lia|].
  destruct (rep_err diff1 _ 1 R1) as [F1 E1]; [change (bpow radix2 1) with 2; rewrite Rabs_pos_eq; lra|lia|].
  assert (B64 : bpow radix2 (1 - 65) <= / 1000000).
  { change (1 - 65)%Z with (-64)%Z. cbn [bpow Z.pow_pos Pos.iter]. apply Rinv_le; [lra|]. apply IZR_le. vm_compute. discriminate. }
  apply Rabs_le_inv in E0. apply Rabs_le_inv in E1.
  unfold feq, flt. rewrite Beqb_correct, Bltb_correct by assumption.
  destruct HT as [[E HT]|[E HT]].
  - rewrite Req_bool_false by lra. rewrite Rlt_bool_true by lra. now subst t.
  - rewrite Req_bool_false by lra. rewrite Rlt_bool_false by lra. now rewrite E.
Qed.
End Long.

Local Open Scope Z_scope.
(** * The characters of the seconds *)
Lemma ull_id z : 0 <= z < 18446744073709551616 -> ull z = z.
Proof. intros H. unfold ull, conv. cbn [sgn wid]. apply Z.mod_small. exact H. Qed.
Lemma dig_not_dot c : is_dig c -> Ascii.eqb c "." = false.
Proof. intros D. apply Ascii.eqb_neq. intros ->. unfold is_dig in D. vm_compute in D. destruct D. now apply H. Qed.
(** Digits that do not end the field *)
Lemma ld_int a : forall M r count i, Forall is_dig a -> 0 <= count -> 0 <= i -> count + zlen a < M -> M <= 30 ->
  i < 10 ^ count -> count + zlen a <= 18 ->
  ld_loop M (a ++ r) true false count 0 i 0 = ld_loop M r true false (count + zlen a) 0 (i * 10 ^ zlen a + value a) 0.
Proof.
  induction a as [|c a IH]; intros M r count i F C X L B XB A18.
  - cbn [app]. unfold zlen. cbn [length]. change (10 ^ Z.of_nat 0) with 1. change (value []) with 0. f_equal; lia.
  - apply Forall_cons_iff in F. destruct F as [D F]. destruct (dig_is_digit c D) as [E1 E2]. cbn [app ld_loop].
    rewrite (dig_not_dot c D), E1, E2. cbn [andb]. unfold is_dig in D. unfold zlen in *. cbn [length] in *.
    assert (P9 : 10 ^ count <= 10 ^ 17) by (apply Z.pow_le_mono_r; lia). change (10 ^ 17) with 100000000000000000 in P9.
    rewrite (uns_id (count + 1)) by lia. rewrite (ull_id (10 * i)) by lia. rewrite (ull_id (10 * i + (uc c - 48))) by lia.
    destruct (Z.eqb_spec (count + 1) M) as [E|_]; [lia|]. rewrite IH; auto; try lia.
    + rewrite (value_cons c). unfold zlen. rewrite Nat2Z.inj_succ, Z.pow_succ_r by lia. f_equal; lia.
    + rewrite Z.pow_add_r by lia. lia.
Qed.
Ltac pairs := repeat match goal with |- (_, _) = (_, _) => f_equal end; try reflexivity.
Lemma ld_int_end a : forall M r count i, Forall is_dig a -> a <> [] -> 0 <= count -> 0 <= i -> count + zlen a = M -> M <= 18 ->
  i < 10 ^ count ->
  ld_loop M (a ++ r) true false count 0 i 0 = (M, 0, i * 10 ^ zlen a + value a, 0, r, false).
Proof.
  induction a as [|c a IH]; intros M r count i F NE C X L B XB; [now destruct NE|]. clear NE.
  apply Forall_cons_iff in F. destruct F as [D F]. destruct (dig_is_digit c D) as [E1 E2]. cbn [app ld_loop].
  rewrite (dig_not_dot c D), E1, E2. cbn [andb]. unfold is_dig in D. unfold zlen in *. cbn [length] in *.
  assert (P9 : 10 ^ count <= 10 ^ 17) by (apply Z.pow_le_mono_r; lia). change (10 ^ 17) with 100000000000000000 in P9.
  rewrite (uns_id (count + 1)) by lia. rewrite (ull_id (10 * i)) by lia. rewrite (ull_id (10 * i + (uc c - 48))) by lia.
  destruct a as [|c' a].
  - cbn [length] in *. replace (count + 1 =? M) with true by (symmetry; apply Z.eqb_eq; lia).
    change (10 ^ Z.of_nat 1) with 10. unfold value. cbn [fold_left app]. replace (count + 1) with M by lia. pairs; lia.
  - destruct (Z.eqb_spec (count + 1) M) as [E|_]; [cbn [length] in L; lia|].
    rewrite IH; auto; try (cbn [length] in *; lia); try discriminate.
    + rewrite (value_cons c). unfold zlen. rewrite Nat2Z.inj_succ, Z.pow_succ_r by lia. pairs; lia.
    + rewrite Z.pow_add_r by lia. lia.
Qed.
Lemma ld_frac_end a : forall M r count i fc f, Forall is_dig a -> a <> [] -> 0 <= count -> 0 <= fc -> 0 <= f -> count + zlen a = M -> M <= 30 ->
  f < 10 ^ fc -> fc + zlen a <= 18 ->
  ld_loop M (a ++ r) false true count fc i f = (M, fc + zlen a, i, f * 10 ^ zlen a + value a, r, false).
Proof.
  induction a as [|c a IH]; intros M r count i fc f F NE C FC X L B XB A18; [now destruct NE|]. clear NE.
  apply Forall_cons_iff in F. destruct F as [D F]. destruct (dig_is_digit c D) as [E1 E2]. cbn [app ld_loop].
  rewrite E1, E2. cbn [andb]. unfold is_dig in D. unfold zlen in *. cbn [length] in *.
  assert (P9 : 10 ^ fc <= 10 ^ 17) by (apply Z.pow_le_mono_r; lia). change (10 ^ 17) with 100000000000000000 in P9.
  rewrite (uns_id (count + 1)), (uns_id (fc + 1)) by lia.
  rewrite (ull_id (10 * f)) by lia. rewrite (ull_id (10 * f + (uc c - 48))) by lia.
  destruct a as [|c' a].
  - cbn [length] in *. replace (count + 1 =? M) with true by (symmetry; apply Z.eqb_eq; lia).
    change (10 ^ Z.of_nat 1) with 10. unfold value. cbn [fold_left app]. replace (count + 1) with M by lia.
    change (Z.of_nat 1) with 1. pairs; lia.
  - destruct (Z.eqb_spec (count + 1) M) as [E|_]; [cbn [length] in L; lia|].
    rewrite IH; auto; try (cbn [length] in *; lia); try discriminate.
    + rewrite (value_cons c). unfold zlen. rewrite Nat2Z.inj_succ, Z.pow_succ_r by lia.
      pairs; lia.
    + rewrite Z.pow_add_r by lia. lia.
Qed.
Lemma ticks_lt w : Z.of_nat w <= 18 -> 1 <= ticks w.
Proof. intros. unfold ticks. assert (0 < 10 ^ Z.of_nat w) by (apply Z.pow_pos_nonneg; lia). lia. Qed.
Lemma read_sec w i f r : (w <= 12)%nat -> 0 <= i < 60 -> 0 <= f < ticks w ->
  read_long_double 1 (sec_chars w) (str_is (pad 2 i ++ (match w with O => [] | S _ => "."%char :: pad w f end) ++ r))
  = (ld_of i f (Z.of_nat w), str_is r).
Proof.
  intros W HI HF. unfold read_long_double. cbn [good str_is eofb failb negb andb rest].
  assert (L2 : length (pad 2 i) = 2%nat) by (apply pad_len; [lia|change (10 ^ Z.of_nat 2) with 100; lia]).
  assert (D2 : Forall is_dig (pad 2 i)) by (apply pad_dig; lia).
  assert (V2 : value (pad 2 i) = i) by (apply pad_value; lia).
  destruct w as [|w'].
  - cbn [app]. change (sec_chars 0) with 2. change (ticks 0) with 1 in HF. assert (f = 0) as -> by lia.
    rewrite ld_int_end; auto; try lia.
    + rewrite V2. cbn [Z.ltb Z.compare]. change (2 <? 1) with false. pairs; f_equal; lia.
    + intros E. rewrite E in L2. discriminate.
    + unfold zlen. lia.
  - set (w := S w') in *. assert (L : length (pad w f) = w) by (apply pad_len; [lia|exact HF]).
    assert (Dw : Forall is_dig (pad w f)) by (apply pad_dig; lia).
    assert (Vw : value (pad w f) = f) by (apply pad_value; lia).
    assert (SC : sec_chars w = 3 + Z.of_nat w) by reflexivity. rewrite SC.
    rewrite ld_int; auto; try lia; [|unfold zlen; lia..].
    replace (zlen (pad 2 i)) with 2 by (unfold zlen; lia). rewrite V2. cbn [app ld_loop]. change (Ascii.eqb "." ".") with true. cbn [andb].
    rewrite (uns_id (0 + 2 + 1)) by lia. destruct (Z.eqb_spec (0 + 2 + 1) (3 + Z.of_nat w)) as [E|_]; [lia|].
    rewrite ld_frac_end; auto; try lia; try (unfold zlen; lia).
    + destruct (Z.ltb_spec (3 + Z.of_nat w) 1); [lia|]. rewrite Vw. unfold zlen. rewrite L.
      pairs; f_equal; lia.
    + intros E. rewrite E in L. discriminate.
Qed.
