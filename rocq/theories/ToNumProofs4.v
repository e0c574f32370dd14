(** Numbers far outside of the range of every floating-point type. *)
From Coq Require Import Reals Psatz.
From Flocq Require Import Core.Core IEEE754.BinarySingleNaN.
From Verif Require Import Base StrSearch StrSpec StrModel StrProofs1 StrProofs2 IntModel IntProofs FloatModel FloatProofs
  ToNumModel ToNumSpec ToNumProofs ToNumProofs2 ToNumProofs3.
Local Open Scope R_scope.

Lemma pow10_loop_big fuel : forall neg b ex result, (0 <= b <= 9)%Z -> (9 - b < Z.of_nat fuel)%Z -> (2 ^ (9 - b) <= ex)%Z ->
  pow10_loop fuel neg b ex result = binary_power neg 9.
Proof.
  induction fuel as [|fuel IH]; intros neg b ex result B F E; [lia|]. cbn [pow10_loop].
  assert (0 < 2 ^ (9 - b))%Z by (apply Z.pow_pos_nonneg; lia). destruct (Z.gtb_spec ex 0); [|lia].
  destruct (Z.eqb_spec b 9) as [->|N]; [reflexivity|]. apply IH; [lia|lia|].
  rewrite Z.shiftr_div_pow2 by lia. change (2 ^ 1)%Z with 2%Z. apply Z.div_le_lower_bound; [lia|].
  replace (9 - b)%Z with (1 + (9 - (b + 1)))%Z in E by lia. rewrite Z.pow_add_r in E by lia. change (2 ^ 1)%Z with 2%Z in E. lia.
Qed.
Lemma pow10_big ex : (8192 <= Z.abs ex <= 2147483647)%Z -> pow10 ex = Ok (binary_power (ex <? 0)%Z 9).
Proof.
  intros E. unfold pow10. set (neg := (ex <? 0)%Z).
  assert (E1 : (if neg then arith t_i32 (- ex) else Ok ex) = Ok (Z.abs ex)).
  { unfold neg. destruct (Z.ltb_spec ex 0).
    - rewrite arith_in; [f_equal; lia|apply t_i32_ity|]. ranges. lia.
    - f_equal. lia. }
  rewrite E1. cbn [bind]. f_equal. apply pow10_loop_big; [lia|reflexivity|]. rewrite Z.shiftr_div_pow2 by lia.
  change (2 ^ 4)%Z with 16%Z. change (2 ^ (9 - 0))%Z with 512%Z. apply Z.div_le_lower_bound; lia.
Qed.

Section Sat.
Context (p e : Z) {H : Prec_gt_0 p} {H' : Prec_lt_emax p e}.
Context (pc ec : Z) {Hc : Prec_gt_0 pc} {Hc' : Prec_lt_emax pc ec}.
Hypothesis Hpc : (53 <= pc)%Z.
Hypothesis Hec : (pc + 18 <= ec)%Z.
Hypothesis Hec2 : (66 <= ec)%Z.
Hypothesis Hpc64 : (pc <= 64)%Z.
Hypothesis Hec64 : (ec <= 16384)%Z.

Lemma norm_shape m k : (0 <= k <= 18)%Z -> (10 ^ k <= m < 10 ^ (k + 1))%Z ->
  exists mm ee B, fconv 64 16384 (fdiv (f_of_Z m) (f_of_Z (10 ^ k)) : binary_float pc ec) = B754_finite false mm ee B.
Proof.
  intros Hk Hm. pose proof (uc_small2 pc Hpc) as US. pose proof (uro_pos pc) as UC0.
  destruct (norm_val_rel pc ec Hpc Hec Hec2 m k Hk Hm) as [Fn Nn].
  set (nv := fdiv (f_of_Z m) (f_of_Z (10 ^ k)) : binary_float pc ec) in *.
  destruct (fconv_exact pc ec 64 16384 nv) as [Fc Ec]; auto.
  { rewrite !emin_eq. lia. }
  assert (Hb : 1 <= IZR m * rpow10 (- k)).
  { assert (P0 : (0 < 10 ^ k)%Z) by (apply Z.pow_pos_nonneg; lia).
    assert (Ik : rpow10 (- k) = / IZR (10 ^ k)) by (rewrite rpow10_opp, rpow10_nonneg by lia; reflexivity).
    assert (Hk0 : 0 < IZR (10 ^ k)) by (apply IZR_lt; lia).
    rewrite Ik. apply Rmult_le_reg_r with (IZR (10 ^ k)); auto; rewrite Rmult_assoc, Rinv_l, Rmult_1_r by lra.
    rewrite Rmult_1_l. apply IZR_le. lia. }
  assert (PP : 0 < B2R (fconv 64 16384 nv)).
  { rewrite Ec. destruct Nn as (t & -> & Ht). assert ((1 + uro pc) ^ 2 - 1 <= / 2) by (cbn [pow]; nra).
    assert (- / 2 <= t) by (apply Rabs_le_inv in Ht; lra). nra. }
  destruct (fconv 64 16384 nv) as [s|s| |s mm ee B]; cbn [B2R is_finite] in *; try lra; try discriminate.
  destruct s; [|eauto]. exfalso. cbn [cond_Zopp] in PP. unfold F2R in PP. cbn [Fnum Fexp] in PP.
  pose proof (bpow_gt_0 radix2 ee). assert (IZR (Z.neg mm) < 0) by (apply IZR_lt; lia). cbn [Z.opp] in PP. nra.
Qed.
Lemma saturate d1 d2 ex s : decimal_number d1 d2 ex s -> (zlen s <= 2 ^ 29)%Z -> (Z.abs ex <= 2 ^ 29)%Z ->
  (rpow10 8192 <= number_value d1 d2 ex -> to_unsigned_float p e pc ec s = Ok (Some (B754_infinity false))) /\
  (0 < number_value d1 d2 ex < rpow10 (-8191) -> to_unsigned_float p e pc ec s = Ok (Some (B754_zero false))).
Proof.
  intros Hs Hl Hex.
  rewrite (to_unsigned_float_ok p e pc ec d1 d2 ex s Hs Hl Hex).
  destruct Hs as (pt & x & Es & Hp & Hx & Hd1 & Hd2 & Hne).
  assert (LL : (zlen (d1 ++ d2) <= zlen s)%Z).
  { subst s. rewrite !zlen_app. destruct Hp as [[-> ->]| ->]; unfold zlen; simpl length; lia. }
  set (V := number_value d1 d2 ex) in *. set (D := drop_zeros (d1 ++ d2)).
  assert (LD : (zlen D <= zlen (d1 ++ d2))%Z).
  { destruct (drop_zeros_suffix (d1 ++ d2)) as (z & Ez & _). fold D in Ez. rewrite Ez, zlen_app. unfold zlen. lia. }
  assert (HD : all_digits D).
  { destruct (drop_zeros_suffix (d1 ++ d2)) as (z & Ez & _). fold D in Ez.
    assert (Had : all_digits (d1 ++ d2)) by now apply all_digits_app. rewrite Ez in Had. now apply all_digits_app in Had. }
  assert (EV : V = IZR (digits_value D) * rpow10 (ex - zlen d2)).
  { unfold V, number_value, D. now rewrite dz_value. }
  destruct D as [|c l] eqn:ED.
  { assert (V0 : V = 0) by (rewrite EV; unfold digits_value; simpl; lra). rewrite V0. pose proof (rpow10_pos 8192). split; intros; lra. }
  assert (Hc0 : c <> "0"%char) by (exact (drop_zeros_head _ _ _ ED)). 
  set (sig := firstn 19 (c :: l)).
  assert (Esr : c :: l = sig ++ skipn 19 (c :: l)) by (symmetry; apply firstn_skipn).
  assert (Hsig : all_digits sig) by (rewrite Esr in HD; now apply all_digits_app in HD).
  assert (Hsc : sig = c :: firstn 18 l) by reflexivity.
  assert (Hlsig : (zlen sig = zlen (firstn 18 l) + 1)%Z) by (rewrite Hsc; unfold zlen; simpl length; lia).
  assert (Hl18 : (0 <= zlen (firstn 18 l) <= 18)%Z) by (unfold zlen; rewrite firstn_length; lia).
  assert (Hm : (10 ^ (zlen sig - 1) <= digits_value sig < 10 ^ (zlen sig - 1 + 1))%Z).
  { replace (zlen sig - 1)%Z with (zlen (firstn 18 l)) by lia. rewrite Hsc. apply (digits_lower ec Hec2 Hec64); auto. }
  set (E := (ex + zlen (c :: l) - 1 - zlen d2)%Z).
  assert (EB : (Z.abs E <= 2147483647)%Z).
  { rewrite zlen_app in *. unfold E, zlen in *. change (2 ^ 29)%Z with 536870912%Z in *. lia. }
  pose proof (digits_lower ec Hec2 Hec64 c l HD Hc0) as HL.
  assert (L1 : zlen (c :: l) = (zlen l + 1)%Z) by (unfold zlen; simpl length; lia).
  assert (G1 : rpow10 E <= V).
  { rewrite EV. unfold E. rewrite L1. replace (ex + (zlen l + 1) - 1 - zlen d2)%Z with (zlen l + (ex - zlen d2))%Z by ring.
    rewrite rpow10_add. apply Rmult_le_compat_r; [left; apply rpow10_pos|].
    rewrite rpow10_nonneg by (unfold zlen; lia). apply IZR_le. lia. }
  assert (G2 : V < rpow10 (E + 1)).
  { rewrite EV. unfold E. rewrite L1. replace (ex + (zlen l + 1) - 1 - zlen d2 + 1)%Z with ((zlen l + 1) + (ex - zlen d2))%Z by ring.
    rewrite rpow10_add. apply Rmult_lt_compat_r; [apply rpow10_pos|].
    rewrite rpow10_nonneg by (unfold zlen; lia). apply IZR_lt. lia. }
  destruct (norm_shape (digits_value sig) (zlen sig - 1) ltac:(lia) Hm) as (mm & ee & B & SH).
  unfold float_result. fold sig E. rewrite SH. split; intros HV.
  - assert (8192 < E + 1)%Z by (apply rpow10_lt_inv; lra). rewrite pow10_big by lia. cbn [bind].
    destruct (Z.ltb_spec E 0); [lia|]. reflexivity.
  - assert (E < -8191)%Z by (apply rpow10_lt_inv; lra). rewrite pow10_big by lia. cbn [bind].
    destruct (Z.ltb_spec E 0); [|lia]. reflexivity.
Qed.
End Sat.
