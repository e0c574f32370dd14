(** Seconds that are read through long double are rounded to a nearest tick. *)
From Coq Require Import Reals Lra.
From Flocq Require Import Core.Core IEEE754.BinarySingleNaN.
From Verif Require Import Base IntModel FloatModel FloatProofs ToNumModel ToNumProofs3 DateModel DateSpec DateProofs DateProofs2 StrProofs2 FmtModel FmtSpec FmtProofs FmtProofs2 FmtProofs3 FmtProofs4 FmtProofs6 ParModel ParSpec ParProofs1 ParProofs2 ParProofs6 ParProofs7.

Section Long.
Notation rnd := (round radix2 (SpecFloat.fexp 64 16384) ZnearestE).
Local Open Scope R_scope.
(** The rounding, for a number of ticks below 2^e *)
Lemma round_near w (x : ldouble) e : (w <= 7)%nat -> is_finite x = true -> 0 <= B2R x -> B2R x * IZR (ticks w) < bpow radix2 e -> (0 <= e <= 58)%Z ->
  exists t, round_sec w x = Ok t /\ Rabs (IZR t - B2R x * IZR (ticks w)) <= / 2 + / 1000 + bpow radix2 (e - 65).
Proof.
  intros W Fx HX HB He. unfold round_sec, ticks in *. set (T := (10 ^ Z.of_nat w)%Z) in *.
  assert (T1 : (1 <= T <= 10000000)%Z).
  { split; [|change 10000000%Z with (10 ^ 7)%Z; apply Z.pow_le_mono_r; lia]. assert (0 < T)%Z by (apply Z.pow_pos_nonneg; lia). lia. }
  assert (P64 : (2 ^ 64 = 18446744073709551616)%Z) by reflexivity.
  destruct (of_Z_exact T ltac:(lia)) as [FT ET].
  assert (TR : 1 <= IZR T <= 10000000) by (split; apply IZR_le; lia).
  set (d := fmul x (f_of_Z T) : ldouble). pose proof (rep_mult 64 16384 x (f_of_Z T) Fx FT) as Rd. rewrite ET in Rd. fold d in Rd.
  assert (X0 : 0 <= B2R x * IZR T) by nra.
  destruct (rep_err d _ e Rd) as [Fd Ed]; [rewrite Rabs_pos_eq; assumption|lia|].
  pose proof (rep_pos _ _ Rd Fd X0) as Pd. apply Rabs_le_inv in Ed.
  assert (B : bpow radix2 (e - 65) <= 1) by (apply (bpow_le radix2 (e - 65) 0); lia).
  assert (B58 : bpow radix2 e <= 288230376151711744) by (apply (bpow_le radix2 e 58); lia).
  unfold ld_to_ll. rewrite Fd, Btrunc_Ztrunc, Ztrunc_floor by exact Pd. cbn [andb].
  assert (L0 : (0 <= Zfloor (B2R d))%Z) by (apply Zfloor_lub; exact Pd).
  assert (L1 : (Zfloor (B2R d) <= 300000000000000000)%Z) by (apply le_IZR; eapply Rle_trans; [apply Zfloor_lb|]; lra).
  pose proof (Zfloor_lb (B2R d)) as F1. pose proof (Zfloor_ub (B2R d)) as F2.
  set (t := Zfloor (B2R d)) in *. clearbody t. rewrite ll_range by lia. cbn [bind].
  destruct (of_Z_exact t ltac:(lia)) as [Ft Et]. destruct (of_Z_exact (t + 1) ltac:(lia)) as [Ft1 Et1]. rewrite plus_IZR in Et1.
  unfold flt at 1. rewrite Bltb_correct by assumption. rewrite Et, Rlt_bool_false by lra. cbn [bind]. rewrite ll_ok by lia. cbn [bind].
  pose proof (rep_minus 64 16384 d (f_of_Z t) Fd Ft) as R0. rewrite Et in R0.
  pose proof (rep_minus 64 16384 (f_of_Z (t + 1)) d Ft1 Fd) as R1. rewrite Et1 in R1.
  set (diff0 := fsub d (f_of_Z t) : ldouble) in *. set (diff1 := fsub (f_of_Z (t + 1)) d : ldouble) in *.
  destruct (rep_err diff0 _ 1 R0) as [G0 E0]; [change (bpow radix2 1) with 2; rewrite Rabs_pos_eq; lra|lia|].
  destruct (rep_err diff1 _ 1 R1) as [G1 E1]; [change (bpow radix2 1) with 2; rewrite Rabs_pos_eq; lra|lia|].
  assert (B64 : bpow radix2 (1 - 65) <= / 1000000).
  { change (1 - 65)%Z with (-64)%Z. cbn [bpow Z.pow_pos Pos.iter]. apply Rinv_le; [lra|]. apply IZR_le. vm_compute. discriminate. }
  apply Rabs_le_inv in E0. apply Rabs_le_inv in E1. set (b := bpow radix2 (e - 65)) in *.
  assert (P1 : IZR (t + 1) = IZR t + 1) by (rewrite plus_IZR; reflexivity).
  unfold feq, flt. rewrite Beqb_correct, Bltb_correct by assumption.
  destruct (Req_bool_spec (B2R diff0) (B2R diff1)) as [EQ|NE].
  - destruct (_ =? 0)%Z; eexists; (split; [reflexivity|]); apply Rabs_le; rewrite ?P1; lra.
  - destruct (Rlt_bool_spec (B2R diff0) (B2R diff1)) as [LT|GE]; eexists; (split; [reflexivity|]); apply Rabs_le; rewrite ?P1; lra.
Qed.
(** The number that was read *)
Lemma ld_of_close i f fc e : (0 <= i < 2 ^ 60)%Z -> (0 <= fc <= 18)%Z -> (0 <= f < 10 ^ fc)%Z -> IZR i + 1 < bpow radix2 e -> (0 <= e <= 61)%Z ->
  is_finite (ld_of i f fc) = true /\ 0 <= B2R (ld_of i f fc) /\ Rabs (B2R (ld_of i f fc) - (IZR i + IZR f / IZR (10 ^ fc))) <= 2 * bpow radix2 (e - 65).
Proof.
  intros HI HC HF HE He. set (T := (10 ^ fc)%Z) in *.
  assert (T1 : (1 <= T <= 1000000000000000000)%Z).
  { split; [|change 1000000000000000000%Z with (10 ^ 18)%Z; apply Z.pow_le_mono_r; lia]. assert (0 < T)%Z by (apply Z.pow_pos_nonneg; lia). lia. }
  assert (P64 : (2 ^ 64 = 18446744073709551616)%Z) by reflexivity. change (2 ^ 60)%Z with 1152921504606846976%Z in HI.
  destruct (of_Z_exact i ltac:(lia)) as [Fi Ei]. destruct (of_Z_exact f ltac:(lia)) as [Ff Ef]. destruct (of_Z_exact T ltac:(lia)) as [FT ET].
  assert (TR : 1 <= IZR T) by (apply IZR_le; lia). assert (IR : 0 <= IZR i) by (apply IZR_le; lia). assert (FR : 0 <= IZR f) by (apply IZR_le; lia).
  assert (FR2 : IZR f <= IZR T - 1) by (rewrite <- minus_IZR; apply IZR_le; lia).
  unfold ld_of. change (lit_pos fc) with (f_of_Z T : ldouble).
  set (q := fdiv (f_of_Z f) (f_of_Z T) : ldouble). set (x := fadd (f_of_Z i) q : ldouble).
  pose proof (rep_div 64 16384 (f_of_Z f) (f_of_Z T) Ff FT ltac:(rewrite ET; lra)) as Rq. rewrite Ef, ET in Rq. fold q in Rq.
  assert (Q0 : 0 <= IZR f / IZR T < 1).
  { split; [apply Rmult_le_pos; [lra|left; apply Rinv_0_lt_compat; lra]|]. apply Rmult_lt_reg_r with (IZR T); [lra|].
    unfold Rdiv. rewrite Rmult_assoc, Rinv_l by lra. lra. }
  destruct (rep_err q _ 0 Rq) as [Fq Eq]; [change (bpow radix2 0) with 1; rewrite Rabs_pos_eq; lra|lia|].
  apply Rabs_le_inv in Eq. pose proof (rep_pos _ _ Rq Fq ltac:(lra)) as Pq.
  assert (Q1 : B2R q <= 1).
  { unfold rep in Rq. destruct (Rlt_bool _ _); [destruct Rq as [_ ->]|rewrite Rq in Fq; discriminate].
    pose proof (rnd_le 64 16384 (IZR f / IZR T) 1 ltac:(lra)) as RL. pose proof (of_Z_exact 1 ltac:(lia)) as [_ E1].
    replace 1 with (B2R (f_of_Z 1 : ldouble)) by exact E1.
    eapply Rle_trans; [apply RL|]. rewrite <- E1. right. apply round_generic; [auto with typeclass_instances|apply generic_format_B2R]. }
  pose proof (rep_plus 64 16384 (f_of_Z i) q Fi Fq) as Rx. rewrite Ei in Rx. fold x in Rx.
  destruct (rep_err x _ e Rx) as [Fx Ex]; [rewrite Rabs_pos_eq; lra|lia|].
  apply Rabs_le_inv in Ex. pose proof (rep_pos _ _ Rx Fx ltac:(lra)) as Px.
  assert (BB : bpow radix2 (0 - 65) <= bpow radix2 (e - 65)) by (apply bpow_le; lia).
  split; [exact Fx|]. split; [exact Px|]. apply Rabs_le. lra.
Qed.
End Long.

Local Open Scope Z_scope.
Lemma small_bpow : (bpow radix2 (57 - 65) <= / 200)%R /\ (bpow radix2 (34 - 65) <= / 2000000000)%R /\ (bpow radix2 (4 - 65) <= / 1000000000000000000)%R /\ (bpow radix2 (28 - 65) <= / 1000000)%R.
Proof. repeat split; cbn -[IZR]; apply Rinv_le; try lra; apply IZR_le; vm_compute; discriminate. Qed.
(** i + f/10^fc seconds, rounded to ticks *)
Lemma round_nearest w i f fc : (w <= 7)%nat -> 0 <= fc -> 0 <= f < 10 ^ fc -> 0 <= i ->
  (fc <= Z.of_nat w /\ i < 10 ^ 10) \/ (Z.of_nat w < fc <= Z.of_nat w + 2 /\ i < 10) ->
  exists t, round_sec w (ld_of i f fc) = Ok t /\ 2 * Z.abs (t * 10 ^ fc - (i * 10 ^ fc + f) * 10 ^ Z.of_nat w) <= 10 ^ fc.
Proof.
  intros W HC HF HI HH. destruct small_bpow as (B1 & B2 & B3 & B4).
  set (P := 10 ^ fc) in *. assert (P1 : 1 <= P) by (assert (0 < P) by (apply Z.pow_pos_nonneg; lia); lia).
  assert (T1 : 1 <= ticks w <= 10000000).
  { unfold ticks. split; [|change 10000000 with (10 ^ 7); apply Z.pow_le_mono_r; lia]. assert (0 < 10 ^ Z.of_nat w) by (apply Z.pow_pos_nonneg; lia). lia. }
  fold (ticks w). set (T := ticks w) in *.
  assert (PR : (1 <= IZR P)%R) by (apply IZR_le; lia). assert (TR : (1 <= IZR T <= 10000000)%R) by (split; apply IZR_le; lia).
  assert (FR : (0 <= IZR f)%R) by (apply IZR_le; lia). assert (FR2 : (IZR f <= IZR P - 1)%R) by (rewrite <- minus_IZR; apply IZR_le; lia).
  assert (Q0 : (0 <= IZR f / IZR P < 1)%R).
  { split; [apply Rmult_le_pos; [lra|left; apply Rinv_0_lt_compat; lra]|]. apply Rmult_lt_reg_r with (IZR P); [lra|].
    unfold Rdiv. rewrite Rmult_assoc, Rinv_l by lra. lra. }
  set (v := (IZR i + IZR f / IZR P)%R).
  assert (VP : (v * IZR T * IZR P = IZR ((i * P + f) * T))%R) by (unfold v; rewrite mult_IZR, plus_IZR, mult_IZR; field; lra).
  assert (KEY : forall e1 e2 k, 0 <= e1 <= 61 -> 0 <= e2 <= 58 -> (IZR i + 1 < bpow radix2 e1)%R -> ((IZR i + 1) * IZR T < bpow radix2 e2)%R -> (bpow radix2 (e1 - 65) <= / 2000000000)%R ->
     (bpow radix2 (e2 - 65) + 2 * bpow radix2 (e1 - 65) * IZR T <= k)%R ->
     exists t, round_sec w (ld_of i f fc) = Ok t /\ (Rabs (IZR t - v * IZR T) <= / 2 + / 1000 + k)%R).
  { intros e1 e2 k H1 H2 G1 G2 G3 G4. assert (i < 2 ^ 60) by (change (2 ^ 60) with 1152921504606846976; change (10 ^ 10) with 10000000000 in HH; lia).
    destruct (ld_of_close i f fc e1) as (FX & PX & EX); [lia|destruct HH; lia|exact HF|exact G1|lia|]. fold P v in EX.
    apply Rabs_le_inv in EX. assert (IR : (0 <= IZR i)%R) by (apply IZR_le; lia).
    assert (EX2 : (Rabs (B2R (ld_of i f fc) * IZR T - v * IZR T) <= 2 * bpow radix2 (e1 - 65) * IZR T)%R).
    { rewrite <- Rmult_minus_distr_r, Rabs_mult, (Rabs_pos_eq (IZR T)) by lra. apply Rmult_le_compat_r; [lra|]. apply Rabs_le. lra. }
    assert (UB : (B2R (ld_of i f fc) <= IZR i + 1)%R).
    { assert (v <= IZR i + 1 - / IZR P)%R.
      { unfold v. assert (IZR f / IZR P <= 1 - / IZR P)%R; [|lra]. apply Rmult_le_reg_r with (IZR P); [lra|]. unfold Rdiv. rewrite Rmult_assoc, Rinv_l, Rmult_minus_distr_r, Rinv_l by lra. lra. }
      assert (/ 1000000000 <= / IZR P)%R; [|lra]. apply Rinv_le; [lra|]. apply IZR_le. unfold P.
      assert (10 ^ fc <= 10 ^ 9) by (apply Z.pow_le_mono_r; destruct HH; lia). change (10 ^ 9) with 1000000000 in *. lia. }
    destruct (round_near w (ld_of i f fc) e2 W FX PX) as (t & E & R); [fold T; nra|exact H2|]. exists t. split; [exact E|]. fold T in R.
    replace (IZR t - v * IZR T)%R with ((IZR t - B2R (ld_of i f fc) * IZR T) + (B2R (ld_of i f fc) * IZR T - v * IZR T))%R by ring.
    eapply Rle_trans; [apply Rabs_triang|]. lra. }
  destruct HH as [[L1 L2]|[L1 L2]].
  - assert (IR : (0 <= IZR i <= 9999999999)%R) by (split; apply IZR_le; change (10 ^ 10) with 10000000000 in L2; lia).
    destruct (KEY 34 57 (1 / 20)%R) as (t & E & R); [lia|lia|change (bpow radix2 34) with 17179869184%R; lra|change (bpow radix2 57) with 144115188075855872%R; nra|exact B2|nra|].
    exists t. split; [exact E|].
    (* v T is an integer *)
    assert (DV : (P | T)) by (unfold P, T, ticks; exists (10 ^ (Z.of_nat w - fc)); rewrite <- Z.pow_add_r by lia; f_equal; lia).
    destruct DV as [u DV]. assert (VT : (v * IZR T = IZR ((i * P + f) * u))%R).
    { apply Rmult_eq_reg_r with (IZR P); [|lra]. rewrite VP, <- mult_IZR. f_equal. rewrite DV. ring. }
    rewrite VT, <- minus_IZR, <- abs_IZR in R. assert (Z.abs (t - (i * P + f) * u) < 1) by (apply lt_IZR; lra). assert (t = (i * P + f) * u) by lia. subst t.
    rewrite DV. replace (_ - _) with 0 by ring. cbn [Z.abs]. lia.
  - assert (IR : (0 <= IZR i <= 9)%R) by (split; apply IZR_le; lia).
    destruct (KEY 4 28 (1 / 1000)%R) as (t & E & R); [lia|lia|change (bpow radix2 4) with 16%R; lra|change (bpow radix2 28) with 268435456%R; nra|lra|nra|].
    exists t. split; [exact E|].
    assert (DV : exists u, P = u * T /\ (u = 10 \/ u = 100)).
    { assert (fc = Z.of_nat w + 1 \/ fc = Z.of_nat w + 2) as [EF|EF] by lia; unfold P, T, ticks; rewrite EF, Z.pow_add_r by lia; [exists 10|exists 100]; split; auto; ring. }
    destruct DV as (u & DV & HU).
    assert (R2 : (Rabs (IZR (u * t) - IZR (i * P + f)) <= IZR u * (/ 2 + / 1000 + 1 / 1000))%R).
    { assert (VU : (v * IZR T * IZR u = IZR (i * P + f))%R).
      { apply Rmult_eq_reg_r with (IZR T); [|lra]. rewrite <- mult_IZR, <- VP, DV, mult_IZR. ring. }
      rewrite <- VU, mult_IZR. replace (IZR u * IZR t - v * IZR T * IZR u)%R with (IZR u * (IZR t - v * IZR T))%R by ring.
      rewrite Rabs_mult, (Rabs_pos_eq (IZR u)) by (apply IZR_le; lia). apply Rmult_le_compat_l; [apply IZR_le; lia|lra]. }
    rewrite <- minus_IZR, <- abs_IZR in R2.
    assert (Z.abs (u * t - (i * P + f)) * 2 <= u).
    { destruct HU as [-> | ->].
      - assert (Z.abs (10 * t - (i * P + f)) < 6) by (apply lt_IZR; lra). lia.
      - assert (Z.abs (100 * t - (i * P + f)) < 51) by (apply lt_IZR; lra). lia. }
    replace (t * P - (i * P + f) * T) with ((u * t - (i * P + f)) * T) by (rewrite DV; ring). rewrite Z.abs_mul, (Z.abs_eq T) by lia. rewrite DV. nia.
Qed.

(** * Reading the seconds *)
Local Open Scope outcome_scope.
Lemma zlen_cons (c : ascii) s : zlen (c :: s) = zlen s + 1. Proof. unfold zlen. cbn [length]. lia. Qed.
Ltac fin := repeat split; try lia; try discriminate; try assumption; try (repeat constructor; assumption); try reflexivity; auto.
(** After the point *)
Lemma frac_inv M : 1 <= M <= 10 -> forall r count fc i f, 0 <= fc <= count -> count < M -> 0 <= f < 10 ^ fc ->
  forall c' fc' i' f' r' e, ld_loop M r false true count fc i f = (c', fc', i', f', r', e) ->
  exists b, r = b ++ r' /\ Forall is_dig b /\ c' = count + zlen b /\ fc' = fc + zlen b /\ i' = i /\ f' = f * 10 ^ zlen b + value b /\ c' <= M /\ (e = true -> r' = []).
Proof.
  intros HM. assert (NIL : forall count fc i f r (e : bool), count < M -> (e = true -> r = []) -> exists b, r = b ++ r /\ Forall is_dig b /\ count = count + zlen b /\ fc = fc + zlen b /\ (i : Z) = i /\ (f : Z) = f * 10 ^ zlen b + value b /\ count <= M /\ (e = true -> r = [])).
  { intros count fc i f r e L E. exists []. change (zlen []) with 0. change (value []) with 0. rewrite Z.pow_0_r. fin. }
  intros r. induction r as [|c r IH]; intros count fc i f HC HCM HF c' fc' i' f' r' e; cbn [ld_loop andb].
  - intros E. injection E as <- <- <- <- <- <-. now apply NIL.
  - destruct (is_digit c) eqn:D.
    + pose proof (is_digit_dig c D) as D'. destruct (dig_is_digit c D') as [_ ->]. pose proof D' as DR. unfold is_dig in DR.
      rewrite (uns_id (count + 1)), (uns_id (fc + 1)) by lia.
      assert (PF : 10 ^ (fc + 1) = 10 * 10 ^ fc) by (rewrite Z.add_1_r, Z.pow_succ_r by lia; reflexivity).
      assert (PF2 : 10 ^ (fc + 1) <= 10 ^ 10) by (apply Z.pow_le_mono_r; lia). assert (P10 : 10 ^ 10 = 10000000000) by reflexivity.
      rewrite (ull_id (10 * f)) by lia. rewrite (ull_id (10 * f + (uc c - 48))) by lia. remember (10 * f + (uc c - 48)) as nf eqn:NF.
      destruct (Z.eqb_spec (count + 1) M) as [E|E].
      * intros H. injection H as <- <- <- <- <- <-. exists [c]. change (zlen [c]) with 1. change (value [c]) with (10 * 0 + (uc c - 48)). change (10 ^ 1) with 10. fin.
      * intros H. destruct (IH (count + 1) (fc + 1) i nf ltac:(lia) ltac:(lia) ltac:(lia) _ _ _ _ _ _ H) as (b & -> & FB & -> & -> & -> & -> & L & EE).
        exists (c :: b). rewrite zlen_cons, value_cons. rewrite (Z.add_1_r (zlen b)), Z.pow_succ_r by (unfold zlen; lia). fin.
    + intros E. injection E as <- <- <- <- <- <-. apply NIL; [exact HCM|discriminate].
Qed.
(** From the beginning *)
Lemma int_inv M : 1 <= M <= 10 -> forall r count i, 0 <= count < M -> 0 <= i < 10 ^ count ->
  forall c' fc' i' f' r' e, ld_loop M r true false count 0 i 0 = (c', fc', i', f', r', e) ->
  exists a p b, r = a ++ p ++ b ++ r' /\ Forall is_dig (a ++ b) /\ (p = !"." \/ (p = [] /\ b = [])) /\ c' = count + zlen (a ++ p ++ b) /\ fc' = zlen b /\
    i' = i * 10 ^ zlen a + value a /\ f' = value b /\ c' <= M /\ (e = true -> r' = []).
Proof.
  intros HM r. induction r as [|c r IH]; intros count i HC HI c' fc' i' f' r' e; cbn [ld_loop andb].
  - intros E. injection E as <- <- <- <- <- <-. exists [], [], []. cbn [app]. change (zlen []) with 0. change (value []) with 0. rewrite Z.pow_0_r. fin.
  - rewrite (uns_id (count + 1)) by lia. destruct (Ascii.eqb_spec c ".") as [->|ND].
    + destruct (Z.eqb_spec (count + 1) M) as [E|E].
      * intros H. injection H as <- <- <- <- <- <-. exists [], (!"."), []. cbn [app]. change (zlen []) with 0. change (zlen (!".")) with 1. change (value []) with 0. rewrite Z.pow_0_r. fin.
      * intros H. destruct (frac_inv M HM r (count + 1) 0 i 0 ltac:(lia) ltac:(lia) ltac:(cbn; lia) _ _ _ _ _ _ H) as (b & -> & FB & -> & -> & -> & -> & L & EE).
        exists [], (!"."), b. cbn [app]. change (!"." ++ b) with ("."%char :: b). rewrite zlen_cons. change (zlen []) with 0. change (value []) with 0. rewrite Z.pow_0_r. fin.
    + destruct (is_digit c) eqn:D.
      * pose proof (is_digit_dig c D) as D'. destruct (dig_is_digit c D') as [_ ->]. pose proof D' as DR. unfold is_dig in DR.
        assert (PF : 10 ^ (count + 1) = 10 * 10 ^ count) by (rewrite Z.add_1_r, Z.pow_succ_r by lia; reflexivity).
        assert (PF2 : 10 ^ (count + 1) <= 10 ^ 10) by (apply Z.pow_le_mono_r; lia). assert (P10 : 10 ^ 10 = 10000000000) by reflexivity.
        rewrite (ull_id (10 * i)) by lia. rewrite (ull_id (10 * i + (uc c - 48))) by lia. remember (10 * i + (uc c - 48)) as nf eqn:NF.
        destruct (Z.eqb_spec (count + 1) M) as [E|E].
        -- intros H. injection H as <- <- <- <- <- <-. exists [c], [], []. cbn [app]. change (zlen [c]) with 1. change (zlen []) with 0. change (value [c]) with (10 * 0 + (uc c - 48)). change (value []) with 0. change (10 ^ 1) with 10. fin.
        -- intros H. destruct (IH (count + 1) nf ltac:(lia) ltac:(lia) _ _ _ _ _ _ H) as (a & p & b & -> & FB & PB & -> & -> & -> & -> & L & EE).
           exists (c :: a), p, b. cbn [app]. rewrite (zlen_cons c (a ++ p ++ b)), (zlen_cons c a), value_cons. rewrite (Z.add_1_r (zlen a)), Z.pow_succ_r by (unfold zlen; lia). fin.
      * intros E. injection E as <- <- <- <- <- <-. exists [], [], []. cbn [app]. change (zlen []) with 0. change (value []) with 0. rewrite Z.pow_0_r. fin.
Qed.
Lemma seconds_inv w s x s' : (w <= 7)%nat -> okst s -> read_long_double 1 (sec_chars w) s = (x, s') -> failb s' = false ->
  okst s' /\ exists t q, rest s = t ++ rest s' /\ round_sec w x = Ok q /\ seconds_text w q t.
Proof.
  intros W O H FB. unfold read_long_double in H. destruct (good s) eqn:G; [|injection H as <- <-; discriminate FB].
  assert (SC : sec_chars w = Z.of_nat (if Nat.eqb w 0 then 2 else 3 + w)) by (unfold sec_chars; destruct (Nat.eqb w 0); lia).
  assert (HM : 1 <= sec_chars w <= 10) by (unfold sec_chars; destruct (Nat.eqb_spec w 0); lia).
  destruct (ld_loop (sec_chars w) (rest s) true false 0 0 0 0) as [[[[[c fc] i] f] r] e] eqn:L.
  destruct (int_inv (sec_chars w) HM (rest s) 0 0 ltac:(lia) ltac:(cbn; lia) _ _ _ _ _ _ L) as (a & p & b & E & D & PB & -> & -> & -> & -> & CM & EE).
  destruct (Z.ltb_spec (0 + zlen (a ++ p ++ b)) 1) as [LT|GE]; [injection H as <- <-; discriminate FB|]. injection H as <- <-.
  assert (EB : eofb s = false) by (unfold good in G; destruct (eofb s); [discriminate|reflexivity]). cbn [rest].
  split; [apply sok_str_r; [apply O|exact O|exact EE|congruence]|]. apply Forall_app in D. destruct D as [DA DB].
  pose proof (value_bound a DA) as VA. pose proof (value_bound b DB) as VB. try rewrite Z.mul_0_l. try rewrite Z.add_0_l.
  assert (LE : zlen (a ++ p ++ b) = zlen a + zlen p + zlen b) by (unfold zlen; rewrite !app_length; lia).
  assert (LP : zlen p = 1 \/ zlen p = 0 /\ zlen b = 0) by (destruct PB as [->|[-> ->]]; auto).
  assert (HH : (zlen b <= Z.of_nat w /\ value a < 10 ^ 10) \/ (Z.of_nat w < zlen b <= Z.of_nat w + 2 /\ value a < 10)).
  { assert (zlen a >= 0 /\ zlen b >= 0) by (unfold zlen; lia). unfold sec_chars in *.
    assert (zlen a + zlen p + zlen b <= Z.of_nat w + 3) by (destruct (Nat.eqb_spec w 0); lia).
    destruct (Z_le_gt_dec (zlen b) (Z.of_nat w)) as [B|B].
    - left. split; [exact B|]. assert (10 ^ zlen a <= 10 ^ 10) by (apply Z.pow_le_mono_r; lia). lia.
    - right. split; [lia|]. assert (zlen a <= 1) by lia. assert (10 ^ zlen a <= 10 ^ 1) by (apply Z.pow_le_mono_r; lia). change (10 ^ 1) with 10 in *. lia. }
  destruct (round_nearest w (value a) (value b) (zlen b) W ltac:(unfold zlen; lia) VB ltac:(lia) HH) as (q & RQ & NQ).
  exists (a ++ p ++ b), q. split; [rewrite E, <- !app_assoc; reflexivity|]. split; [exact RQ|]. exists a, p, b. split; [reflexivity|]. split; [now apply Forall_app|]. split; [exact PB|]. split; [unfold zlen in GE, CM; lia|exact NQ].
Qed.
