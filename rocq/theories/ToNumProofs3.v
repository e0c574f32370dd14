(** Accuracy of the conversion of floating-point numbers. *)
From Coq Require Import Reals Psatz.
From Flocq Require Import Core.Core IEEE754.BinarySingleNaN Relative.
From Verif Require Import Base StrSearch StrSpec StrModel StrProofs1 StrProofs2 IntModel IntProofs FloatModel FloatProofs
  ToNumModel ToNumSpec ToNumProofs ToNumProofs2.
Local Open Scope R_scope.

(** ** Relative errors: [near u n x y]: x differs from y by at most n relative errors of size u *)
Definition near (u : R) (n : nat) (x y : R) : Prop := exists t, x = y * (1 + t) /\ Rabs t <= (1 + u) ^ n - 1.

Lemma pow_ge_1 u n : 0 <= u -> 1 <= (1 + u) ^ n.
Proof. intros Hu. apply pow_R1_Rle. lra. Qed.
Lemma near_refl u n x : 0 <= u -> near u n x x.
Proof. intros Hu. exists 0. rewrite Rabs_R0. pose proof (pow_ge_1 u n Hu). split; lra. Qed.
Lemma near_mono u n m x y : 0 <= u -> (n <= m)%nat -> near u n x y -> near u m x y.
Proof.
  intros Hu Hnm (t & E & Ht). exists t. split; auto.
  assert ((1 + u) ^ n <= (1 + u) ^ m) by (apply Rle_pow; auto; lra). lra.
Qed.
Lemma near_weaken u v n x y : 0 <= u <= v -> near u n x y -> near v n x y.
Proof.
  intros Hu (t & E & Ht). exists t. split; auto.
  assert ((1 + u) ^ n <= (1 + v) ^ n) by (apply pow_incr; lra). lra.
Qed.
Lemma comb_bound t s a b : Rabs t <= a -> Rabs s <= b -> Rabs ((1 + t) * (1 + s) - 1) <= (1 + a) * (1 + b) - 1.
Proof.
  intros Ht Hs. replace ((1 + t) * (1 + s) - 1) with (t + s + t * s) by ring.
  eapply Rle_trans; [apply Rabs_triang|]. rewrite Rabs_mult.
  pose proof (Rabs_triang t s). pose proof (Rabs_pos t). pose proof (Rabs_pos s).
  assert (Rabs t * Rabs s <= a * b) by (apply Rmult_le_compat; auto). lra.
Qed.
Lemma near_mul u n m x y x' y' : near u n x x' -> near u m y y' -> near u (n + m) (x * y) (x' * y').
Proof.
  intros (t & -> & Ht) (s & -> & Hs). exists ((1 + t) * (1 + s) - 1). split; [ring|].
  eapply Rle_trans; [apply comb_bound; eassumption|]. rewrite pow_add. apply Req_le. ring.
Qed.
Lemma near_trans u n m x y z : near u n x y -> near u m y z -> near u (n + m) x z.
Proof.
  intros (t & -> & Ht) (s & -> & Hs). exists ((1 + t) * (1 + s) - 1). split; [ring|].
  eapply Rle_trans; [apply comb_bound; eassumption|]. rewrite pow_add. apply Req_le. ring.
Qed.
Lemma near_div u n m x y c : near u n x y -> c <> 0 -> near u m (x / c) (y / c) -> near u (n + m) (x / c) (y / c).
Proof.
  intros (t & E & Ht) Hc (s & E' & Hs). exists s. split; auto.
  assert (0 <= Rabs t) by apply Rabs_pos. assert (0 <= Rabs s) by apply Rabs_pos.
  rewrite pow_add. assert (1 <= (1 + u) ^ n) by lra. assert (1 <= (1 + u) ^ m) by lra. nra.
Qed.
Lemma near_scale u n x y c : near u n x y -> near u n (x * c) (y * c).
Proof. intros (t & -> & Ht). exists t. split; [ring|auto]. Qed.
Lemma near_abs u n x y : near u n x y -> Rabs (x - y) <= ((1 + u) ^ n - 1) * Rabs y.
Proof.
  intros (t & -> & Ht). replace (y * (1 + t) - y) with (t * y) by ring. rewrite Rabs_mult.
  apply Rmult_le_compat_r; auto. apply Rabs_pos.
Qed.
Lemma pow_small u n : 0 <= u -> 2 * INR n * u <= 1 -> (1 + u) ^ n <= 1 + 2 * INR n * u.
Proof.
  intros Hu. induction n as [|n IH]; intros H; [simpl; lra|].
  rewrite S_INR in *. assert (0 <= INR n) by apply pos_INR.
  assert (IH' : (1 + u) ^ n <= 1 + 2 * INR n * u) by (apply IH; nra).
  cbn [pow]. apply Rle_trans with ((1 + u) * (1 + 2 * INR n * u)); [apply Rmult_le_compat_l; lra|]. nra.
Qed.

Section Fmt.
Context (prec emax : Z) {Hprec : Prec_gt_0 prec} {Hmax : Prec_lt_emax prec emax}.
Notation fexp := (SpecFloat.fexp prec emax).
Notation bf := (binary_float prec emax).
Notation rnd := (round radix2 fexp ZnearestE).
Notation emin := (SpecFloat.emin prec emax).
Definition uro : R := bpow radix2 (- prec).

Lemma uro_pos : 0 <= uro.
Proof. apply bpow_ge_0. Qed.
Lemma uro_half : uro <= /2.
Proof.
  unfold uro. change (/ 2) with (bpow radix2 (-1)). apply bpow_le.
  assert (HP1 : (0 < prec)%Z) by exact Hprec. lia.
Qed.
Lemma round_near x : bpow radix2 (emin + prec - 1) <= Rabs x -> near uro 1 (rnd x) x.
Proof.
  intros Hx. change fexp with (FLT_exp emin prec).
  destruct (relative_error_N_FLT_ex radix2 emin prec Hprec (fun x => negb (Z.even x)) x Hx) as (eps & He & E).
  exists eps. split; [exact E|]. cbn [pow]. rewrite Rmult_1_r. replace (1 + uro - 1) with uro by ring.
  eapply Rle_trans; [exact He|]. unfold uro. change (/ 2) with (bpow radix2 (-1)).
  rewrite <- bpow_plus. apply Req_le. f_equal. ring.
Qed.

(** The result of an operation whose exact value is near [y] *)
Lemma rep_near r x y u n : rep prec emax r x -> near u n x y -> uro <= u -> (1 + u) ^ n <= 3 / 2 ->
  bpow radix2 (emin + prec) <= Rabs y <= bpow radix2 (emax - 2) ->
  is_finite r = true /\ near u (n + 1) (B2R r) y.
Proof.
  intros Hr Hn Hu Hs [H1 H2]. pose proof uro_pos as U0. pose proof uro_half as U1.
  assert (Hy : 0 < Rabs y) by (eapply Rlt_le_trans; [apply bpow_gt_0|exact H1]).
  destruct Hn as (t & E & Ht). assert (Ht2 : Rabs t <= /2) by lra.
  assert (Hx1 : bpow radix2 (emin + prec - 1) <= Rabs x).
  { rewrite E, Rabs_mult. unfold Zminus. rewrite bpow_plus. change (bpow radix2 (Z.opp 1)) with (/2).
    apply Rmult_le_compat; [apply bpow_ge_0|lra|exact H1|].
    apply Rabs_le_inv in Ht2. rewrite Rabs_pos_eq; lra. }
  assert (Hx2 : Rabs x <= 3 / 2 * Rabs y).
  { rewrite E, Rabs_mult. rewrite Rmult_comm. apply Rmult_le_compat_r; [lra|].
    apply Rabs_le_inv in Ht2. rewrite Rabs_pos_eq; lra. }
  destruct (round_near x Hx1) as (s & E2 & Hs2). cbn [pow] in Hs2. rewrite Rmult_1_r in Hs2.
  assert (Hx3 : Rabs (rnd x) < bpow radix2 emax).
  { rewrite E2, Rabs_mult.
    assert (Rabs (1 + s) <= 3 / 2).
    { eapply Rle_trans; [apply Rabs_triang|]. rewrite Rabs_R1. lra. }
    apply Rle_lt_trans with ((3 / 2 * Rabs y) * (3 / 2)).
    - apply Rmult_le_compat; auto; apply Rabs_pos.
    - replace emax with (emax - 2 + 2)%Z by ring. rewrite bpow_plus. change (bpow radix2 2) with 4. lra. }
  unfold rep in Hr. rewrite Rlt_bool_true in Hr by exact Hx3. destruct Hr as [F Hr]. split; auto.
  rewrite Hr, E2, Nat.add_comm. apply near_trans with x.
  { apply near_weaken with (u := uro) ; [lra|]. exists s. split; auto. cbn [pow]. lra. } 
  exists t. split; auto.
Qed.
End Fmt.

(** Widening conversions are exact. *)
Lemma fconv_exact p1 e1 p2 e2 {H2 : Prec_gt_0 p2} {H2' : Prec_lt_emax p2 e2} (x : binary_float p1 e1) :
  (p1 <= p2)%Z -> (e1 <= e2)%Z -> (SpecFloat.emin p2 e2 <= SpecFloat.emin p1 e1)%Z -> is_finite x = true ->
  is_finite (fconv p2 e2 x) = true /\ B2R (fconv p2 e2 x) = B2R x.
Proof.
  intros Hp He Hm Hf. destruct x as [s|s| |s m ex Hb]; try discriminate; [auto|].
  pose proof (abs_B2R_lt_emax p1 e1 (B754_finite s m ex Hb)) as HA.
  cbn [fconv B2R] in *. pose proof (rep_normalize p2 e2 (if s then Zneg m else Zpos m) ex s) as R.
  replace (F2R (Float radix2 (SpecFloat.cond_Zopp s (Z.pos m)) ex)) with
    (F2R (Float radix2 (if s then Zneg m else Zpos m) ex)) in * by (destruct s; reflexivity).
  eapply rep_exact; [exact R| |].
  - apply format_F2R.
    + replace (Z.abs (if s then Z.neg m else Z.pos m)) with (Z.pos m) by (destruct s; reflexivity).
      destruct (andb_prop _ _ Hb) as [Hc _]. unfold SpecFloat.canonical_mantissa in Hc. apply Zeq_bool_eq in Hc.
      rewrite Zpos_digits2_pos in Hc. unfold SpecFloat.fexp in Hc.
      assert (Zdigits radix2 (Z.pos m) <= p1)%Z by lia.
      apply Z.lt_le_trans with (2 ^ p1)%Z.
      * pose proof (Zdigits_correct radix2 (Z.pos m)) as [_ D]. cbn [Z.abs] in D.
        eapply Z.lt_le_trans; [exact D|]. change (Zpower radix2 (Zdigits radix2 (Z.pos m))) with (2 ^ (Zdigits radix2 (Z.pos m)))%Z.
        apply Z.pow_le_mono_r; lia.
      * apply Z.pow_le_mono_r; lia.
    + destruct (andb_prop _ _ Hb) as [Hc _]. unfold SpecFloat.canonical_mantissa in Hc. apply Zeq_bool_eq in Hc. unfold SpecFloat.fexp in Hc. lia.
  - eapply Rlt_le_trans; [exact HA|]. now apply bpow_le.
Qed.
Lemma rep_fconv p1 e1 p2 e2 {H2 : Prec_gt_0 p2} {H2' : Prec_lt_emax p2 e2} (x : binary_float p1 e1) :
  is_finite x = true -> rep p2 e2 (fconv p2 e2 x) (B2R x).
Proof.
  destruct x as [s|s| |s m ex Hb]; try discriminate; intros _.
  - cbn [fconv B2R]. unfold rep. rewrite rnd_0, Rabs_R0, Rlt_bool_true by apply bpow_gt_0. auto.
  - cbn [fconv B2R]. replace (F2R (Float radix2 (SpecFloat.cond_Zopp s (Z.pos m)) ex)) with
      (F2R (Float radix2 (if s then Zneg m else Zpos m) ex)) by (destruct s; reflexivity). apply rep_normalize.
Qed.

(** ** Powers of ten *)
Lemma IZR_pow10 k : (0 <= k)%Z -> IZR (10 ^ k) = powerRZ 10 k.
Proof.
  intros Hk. rewrite <- (Z2Nat.id k) by auto. rewrite <- pow_powerRZ. now rewrite <- pow_IZR.
Qed.
Lemma rpow10_powerRZ e : rpow10 e = powerRZ 10 e.
Proof.
  unfold rpow10. destruct (Z.ltb_spec e 0).
  - rewrite IZR_pow10 by lia. rewrite <- powerRZ_neg' . f_equal. lia.
  - now apply IZR_pow10.
Qed.
Lemma rpow10_add a b : rpow10 (a + b) = rpow10 a * rpow10 b.
Proof. rewrite !rpow10_powerRZ. apply powerRZ_add. lra. Qed.
Lemma rpow10_pos a : 0 < rpow10 a.
Proof. rewrite rpow10_powerRZ. apply powerRZ_lt. lra. Qed.
Lemma rpow10_nonneg k : (0 <= k)%Z -> rpow10 k = IZR (10 ^ k).
Proof. intros Hk. unfold rpow10. destruct (Z.ltb_spec k 0); [lia|reflexivity]. Qed.
Lemma rpow10_opp k : rpow10 (- k) = / rpow10 k.
Proof.
  apply Rmult_eq_reg_r with (rpow10 k); [|apply Rgt_not_eq, rpow10_pos].
  rewrite <- rpow10_add. replace (- k + k)%Z with 0%Z by ring. rewrite Rinv_l by apply Rgt_not_eq, rpow10_pos. reflexivity.
Qed.
Lemma rpow10_le a b : (a <= b)%Z -> rpow10 a <= rpow10 b.
Proof.
  intros H. replace b with (a + (b - a))%Z by ring. rewrite rpow10_add.
  rewrite <- (Rmult_1_r (rpow10 a)) at 1. apply Rmult_le_compat_l; [left; apply rpow10_pos|].
  rewrite rpow10_nonneg by lia. apply IZR_le. assert (0 < 10 ^ (b - a))%Z by (apply Z.pow_pos_nonneg; lia). lia.
Qed.
Lemma rpow10_lt_inv a b : rpow10 a < rpow10 b -> (a < b)%Z.
Proof. intros H. destruct (Z_lt_le_dec a b) as [|G]; auto. apply rpow10_le in G. lra. Qed.

Lemma big_pow : (10 ^ 4900 <= 2 ^ 16300)%Z.
Proof. apply Z.leb_le. vm_compute. reflexivity. Qed.
Lemma rpow10_range e : (Z.abs e <= 4900)%Z -> bpow radix2 (-16300) <= rpow10 e <= bpow radix2 16300.
Proof.
  intros He.
  assert (HB : rpow10 4900 <= bpow radix2 16300).
  { rewrite rpow10_nonneg by lia. rewrite <- (IZR_Zpower radix2) by lia. apply IZR_le. exact big_pow. }
  split.
  - apply Rle_trans with (rpow10 (-4900)); [|apply rpow10_le; lia].
    change (-4900)%Z with (- (4900))%Z. change (-16300)%Z with (- (16300))%Z.
    rewrite rpow10_opp, bpow_opp. apply Rinv_le; [apply rpow10_pos|exact HB].
  - eapply Rle_trans; [|exact HB]. apply rpow10_le. lia.
Qed.

Notation u80 := (uro 64).
Lemma u80_val : u80 = / IZR (2 ^ 64).
Proof. unfold uro. rewrite bpow_opp. now rewrite <- (IZR_Zpower radix2). Qed.
Lemma u80_pow n : (n <= 100)%nat -> (1 + u80) ^ n <= 3 / 2.
Proof.
  intros Hn. assert (U : u80 <= / 10000).
  { rewrite u80_val. apply Rinv_le; [lra|]. apply IZR_le. now vm_compute. }
  pose proof (uro_pos 64) as U0.
  assert (INR n <= 100). { replace 100 with (INR 100) by (simpl; lra). now apply le_INR. }
  assert (0 <= INR n) by apply pos_INR.
  assert (INR n * u80 <= 100 * / 10000) by (apply Rmult_le_compat; auto).
  eapply Rle_trans; [apply pow_small; auto; lra|]. lra.
Qed.

Lemma emin80 : SpecFloat.emin 64 16384 = (-16445)%Z. Proof. reflexivity. Qed.
Lemma range80 e : (Z.abs e <= 4900)%Z ->
  bpow radix2 (SpecFloat.emin 64 16384 + 64) <= Rabs (rpow10 e) <= bpow radix2 (16384 - 2).
Proof.
  intros He. rewrite Rabs_pos_eq by (left; apply rpow10_pos). destruct (rpow10_range e He) as [H1 H2].
  split; [eapply Rle_trans; [|exact H1] | eapply Rle_trans; [exact H2|]]; apply bpow_le; rewrite ?emin80; lia.
Qed.

Lemma lit_pos_near k : (0 <= k <= 4900)%Z -> is_finite (lit_pos k) = true /\ near u80 2 (B2R (lit_pos k)) (rpow10 k).
Proof.
  intros Hk. pose proof (uro_pos 64) as U0.
  destruct (rep_near 64 16384 (lit_pos k) (rpow10 k) (rpow10 k) u80 1) as [F N]; try lra.
  - pose proof (rep_normalize 64 16384 (10 ^ k) 0 false) as R. rewrite rpow10_nonneg by lia.
    replace (IZR (10 ^ k)) with (F2R (Float radix2 (10 ^ k) 0)); [exact R|]. unfold F2R. cbn [Fnum Fexp bpow]. ring.
  - apply near_refl. auto.
  - apply u80_pow. lia.
  - apply range80. lia.
  - auto.
Qed.

Lemma lit_neg_near k : (0 <= k <= 4900)%Z -> is_finite (lit_neg k) = true /\ near u80 2 (B2R (lit_neg k)) (rpow10 (- k)).
Proof.
  intros Hk. unfold lit_neg. destruct (Z.eqb_spec k 0) as [->|Hk0]; [apply lit_pos_near; lia|].
  set (T := (10 ^ k)%Z). set (K := (Z.log2_up T + 80)%Z). cbv zeta.
  assert (HT : (1 < T)%Z) by (apply Z.pow_gt_1; lia).
  assert (HK : (0 <= K)%Z) by (pose proof (Z.log2_up_nonneg T); lia).
  assert (HTK : (T * 2 ^ 80 <= 2 ^ K)%Z).
  { unfold K. rewrite Z.pow_add_r by (try apply Z.log2_up_nonneg; lia). apply Z.mul_le_mono_nonneg_r; [lia|].
    apply Z.log2_up_spec. exact HT. }
  set (q := (2 ^ K / T)%Z).
  assert (Hq : (T * q <= 2 ^ K < T * q + T)%Z).
  { unfold q. pose proof (Z.div_mod (2 ^ K) T ltac:(lia)). pose proof (Z.mod_pos_bound (2 ^ K) T ltac:(lia)). lia. }
  pose proof (uro_pos 64) as U0.
  set (B := bpow radix2 (- K - 1)).
  assert (HB : B * (2 * IZR (2 ^ K)) = 1).
  { unfold B. replace (- K - 1)%Z with (- (K + 1))%Z by ring. rewrite bpow_opp.
    change (2 ^ K)%Z with (Zpower radix2 K). rewrite (IZR_Zpower radix2 K HK).
    rewrite bpow_plus. change (bpow radix2 1) with 2. field. apply Rgt_not_eq, bpow_gt_0. }
  assert (HB0 : 0 < B) by apply bpow_gt_0.
  assert (HT0 : 0 < IZR T) by (apply IZR_lt; lia).
  assert (Ht : rpow10 (- k) = / IZR T) by (rewrite rpow10_opp, rpow10_nonneg by lia; reflexivity).
  assert (N0 : near u80 1 (F2R (Float radix2 (2 * q + 1) (- K - 1))) (rpow10 (- k))).
  { unfold F2R. cbn [Fnum Fexp]. fold B. rewrite Ht.
    exists (IZR (2 * q + 1) * B * IZR T - 1). split; [field; lra|].
    cbn [pow]. rewrite Rmult_1_r. replace (1 + u80 - 1) with u80 by ring.
    (* multiply by 2*2^K *)
    assert (G : Rabs (IZR (2 * q + 1) * B * IZR T - 1) <= B * IZR T).
    { rewrite <- HB.
      replace (IZR (2 * q + 1) * B * IZR T - B * (2 * IZR (2 ^ K))) with (B * (IZR (2 * q + 1) * IZR T - 2 * IZR (2 ^ K))) by ring.
      rewrite Rabs_mult, (Rabs_pos_eq B) by lra. apply Rmult_le_compat_l; [lra|].
      rewrite <- !mult_IZR, <- minus_IZR, <- abs_IZR. apply IZR_le. lia. }
    eapply Rle_trans; [exact G|]. rewrite u80_val.
    apply Rmult_le_reg_r with (2 * IZR (2 ^ K)).
    { assert (0 < 2 ^ K)%Z by (apply Z.pow_pos_nonneg; lia). apply IZR_lt in H. lra. }
    replace (B * IZR T * (2 * IZR (2 ^ K))) with (IZR T) by (transitivity (B * (2 * IZR (2 ^ K)) * IZR T); [rewrite HB; ring | ring]).
    apply IZR_le in HTK. rewrite mult_IZR in HTK.
    assert (IZR (2 ^ 64) <= IZR (2 ^ 80)) by (apply IZR_le; now vm_compute).
    assert (0 < IZR (2 ^ 64)) by (apply IZR_lt; now vm_compute).
    apply Rmult_le_reg_l with (IZR (2 ^ 64)); auto.
    rewrite <- Rmult_assoc. rewrite Rinv_r by lra. rewrite Rmult_1_l. nra. }
  destruct (rep_near 64 16384 (binary_normalize 64 16384 _ _ mode_NE (2 * q + 1) (- K - 1) false) _ _ u80 1
     (rep_normalize 64 16384 (2 * q + 1) (- K - 1) false) N0) as [F N]; try lra.
  - apply u80_pow. lia.
  - apply range80. lia.
  - auto.
Qed.

Definition sg (neg : bool) (j : Z) : Z := if neg then (- j)%Z else j.
Lemma pow10_loop_near fuel : forall neg b ex result n j,
  (0 <= b <= 9)%Z -> (9 - b < Z.of_nat fuel)%Z -> (0 <= ex)%Z -> (0 <= j)%Z -> (j + 16 * 2 ^ b * ex <= 4900)%Z ->
  (n + 3 * Z.to_nat (9 - b) <= 100)%nat ->
  is_finite result = true -> near u80 n (B2R result) (rpow10 (sg neg j)) ->
  is_finite (pow10_loop fuel neg b ex result) = true /\
  near u80 (n + 3 * Z.to_nat (9 - b)) (B2R (pow10_loop fuel neg b ex result)) (rpow10 (sg neg (j + 16 * 2 ^ b * ex))).
Proof.
  pose proof (uro_pos 64) as U0.
  induction fuel as [|fuel IH]; intros neg b ex result n j Hb Hf Hex Hj Hsum Hn Fr Nr; [lia|].
  cbn [pow10_loop]. rewrite Z.gtb_ltb. destruct (Z.ltb_spec 0 ex) as [Hp|Hp].
  - assert (P2 : (0 < 2 ^ b)%Z) by (apply Z.pow_pos_nonneg; lia).
    destruct (Z.eqb_spec b 9) as [->|Hb9]; [exfalso; change (2 ^ 9)%Z with 512%Z in Hsum; lia|].
    assert (Hdiv : ex = (2 * Z.shiftr ex 1 + (if Z.odd ex then 1 else 0))%Z).
    { rewrite <- Z.div2_spec. pose proof (Z.div2_odd ex). destruct (Z.odd ex); cbn [Z.b2z] in *; lia. }
    assert (Hs0 : (0 <= Z.shiftr ex 1)%Z) by (apply Z.shiftr_nonneg; lia).
    assert (HP : (2 ^ (b + 1) = 2 * 2 ^ b)%Z) by (rewrite Z.pow_add_r by lia; lia).
    assert (Hlit : is_finite (binary_power neg b) = true /\ near u80 2 (B2R (binary_power neg b)) (rpow10 (sg neg (16 * 2 ^ b)))).
    { unfold binary_power. destruct (Z.eqb_spec b 9); [lia|].
      assert (16 * 2 ^ b <= 4900)%Z by nia.
      destruct neg; cbn [sg]; [apply lit_neg_near | apply lit_pos_near]; lia. }
    destruct (Z.odd ex) eqn:Eo.
    + destruct (rep_near 64 16384 (fmul result (binary_power neg b)) (B2R result * B2R (binary_power neg b))
        (rpow10 (sg neg (j + 16 * 2 ^ b))) u80 (n + 2)) as [F N].
      * apply rep_mult; tauto.
      * replace (sg neg (j + 16 * 2 ^ b)) with (sg neg j + sg neg (16 * 2 ^ b))%Z by (destruct neg; cbn [sg]; ring).
        rewrite rpow10_add. apply near_mul; tauto.
      * lra.
      * apply u80_pow. lia.
      * apply range80. assert (0 <= 2 * 16 * 2 ^ b * Z.shiftr ex 1)%Z by nia. destruct neg; cbn [sg]; nia.
      * destruct (IH neg (b + 1)%Z (Z.shiftr ex 1) (fmul result (binary_power neg b)) (n + 2 + 1)%nat (j + 16 * 2 ^ b)%Z) as [F2 N2]; auto; try lia.
        split; [exact F2|].
        replace (j + 16 * 2 ^ b * ex)%Z with (j + 16 * 2 ^ b + 16 * 2 ^ (b + 1) * Z.shiftr ex 1)%Z by (rewrite HP; rewrite Hdiv at 2; ring).
        eapply near_mono; [lra| |exact N2]. lia.
    + destruct (IH neg (b + 1)%Z (Z.shiftr ex 1) result n j) as [F2 N2]; auto; try lia.
      split; [exact F2|].
      replace (j + 16 * 2 ^ b * ex)%Z with (j + 16 * 2 ^ (b + 1) * Z.shiftr ex 1)%Z by (rewrite HP; rewrite Hdiv at 2; ring).
      eapply near_mono; [lra| |exact N2]. lia.
  - replace ex with 0%Z by lia. rewrite Z.mul_0_r, Z.add_0_r. split; auto. eapply near_mono; [lra| |exact Nr]. lia.
Qed.

Lemma pow10_near e : (Z.abs e <= 4900)%Z ->
  exists r, pow10 e = Ok r /\ is_finite r = true /\ near u80 29 (B2R r) (rpow10 e).
Proof.
  intros He. unfold pow10.
  set (neg := (e <? 0)%Z).
  assert (E1 : (if neg then arith t_i32 (- e) else Ok e) = Ok (Z.abs e)).
  { unfold neg. destruct (Z.ltb_spec e 0).
    - rewrite arith_in; [f_equal; lia|apply t_i32_ity|]. ranges. lia.
    - f_equal. lia. }
  rewrite E1. cbn [bind]. eexists. split; [reflexivity|].
  assert (Hl : (Z.land (Z.abs e) 15 = Z.abs e mod 16)%Z) by (change 15%Z with (Z.ones 4); now rewrite Z.land_ones).
  assert (Hs : (Z.shiftr (Z.abs e) 4 = Z.abs e / 16)%Z) by (now rewrite Z.shiftr_div_pow2).
  rewrite Hl, Hs.
  pose proof (Z.div_mod (Z.abs e) 16 ltac:(lia)) as DM. pose proof (Z.mod_pos_bound (Z.abs e) 16 ltac:(lia)) as MB.
  assert (D0 : (0 <= Z.abs e / 16)%Z) by (apply Z.div_pos; lia).
  assert (HD : is_finite (direct_power neg (Z.abs e mod 16)) = true /\
     near u80 2 (B2R (direct_power neg (Z.abs e mod 16))) (rpow10 (sg neg (Z.abs e mod 16)))).
  { unfold direct_power. destruct neg; cbn [sg]; [apply lit_neg_near|apply lit_pos_near]; lia. }
  destruct HD as [F N].
  destruct (pow10_loop_near 11 neg 0 (Z.abs e / 16) _ 2 (Z.abs e mod 16) ltac:(lia) ltac:(lia) D0 ltac:(lia)
    ltac:(change (2 ^ 0)%Z with 1%Z; lia) ltac:(lia) F N) as [F2 N2].
  split; auto. 
  replace (sg neg (Z.abs e mod 16 + 16 * 2 ^ 0 * (Z.abs e / 16))) with e in N2; [exact N2|].
  change (2 ^ 0)%Z with 1%Z. unfold neg. destruct (Z.ltb_spec e 0); cbn [sg]; lia.
Qed.

(** ** Relative errors of different sizes *)
Definition rel (d x y : R) : Prop := exists t, x = y * (1 + t) /\ Rabs t <= d.
Lemma near_rel u n x y : near u n x y -> rel ((1 + u) ^ n - 1) x y.
Proof. auto. Qed.
Lemma rel_mono d d' x y : rel d x y -> d <= d' -> rel d' x y.
Proof. intros (t & E & H) Hd. exists t. split; auto. lra. Qed.
Lemma rel_mul d1 d2 x y x' y' : rel d1 x x' -> rel d2 y y' -> rel ((1 + d1) * (1 + d2) - 1) (x * y) (x' * y').
Proof.
  intros (t & -> & Ht) (s & -> & Hs). exists ((1 + t) * (1 + s) - 1). split; [ring|]. now apply comb_bound.
Qed.
Lemma rel_trans d1 d2 x y z : rel d1 x y -> rel d2 y z -> rel ((1 + d1) * (1 + d2) - 1) x z.
Proof.
  intros (t & -> & Ht) (s & -> & Hs). exists ((1 + t) * (1 + s) - 1). split; [ring|].
  apply comb_bound; auto.
Qed.
Lemma rel_bound d x y : rel d x y -> Rabs (x - y) <= d * Rabs y.
Proof.
  intros (t & -> & Ht). replace (y * (1 + t) - y) with (t * y) by ring. rewrite Rabs_mult.
  apply Rmult_le_compat_r; auto. apply Rabs_pos.
Qed.

Section Fmt2.
Context (prec emax : Z) {Hprec : Prec_gt_0 prec} {Hmax : Prec_lt_emax prec emax}.
Notation emin := (SpecFloat.emin prec emax).
Lemma rep_rel r x y d : rep prec emax r x -> rel d x y -> d <= /2 ->
  bpow radix2 (emin + prec) <= Rabs y <= bpow radix2 (emax - 2) ->
  is_finite r = true /\ rel ((1 + d) * (1 + uro prec) - 1) (B2R r) y.
Proof.
  intros Hr (t & E & Ht) Hs [H1 H2]. pose proof (uro_pos prec) as U0. pose proof (uro_half prec) as U1.
  assert (Hy : 0 < Rabs y) by (eapply Rlt_le_trans; [apply bpow_gt_0|exact H1]).
  assert (Ht2 : Rabs t <= /2) by lra.
  assert (Hx1 : bpow radix2 (emin + prec - 1) <= Rabs x).
  { rewrite E, Rabs_mult. unfold Zminus. rewrite bpow_plus. change (bpow radix2 (Z.opp 1)) with (/2).
    apply Rmult_le_compat; [apply bpow_ge_0|lra|exact H1|].
    apply Rabs_le_inv in Ht2. rewrite Rabs_pos_eq; lra. }
  assert (Hx2 : Rabs x <= 3 / 2 * Rabs y).
  { rewrite E, Rabs_mult. rewrite Rmult_comm. apply Rmult_le_compat_r; [lra|].
    apply Rabs_le_inv in Ht2. rewrite Rabs_pos_eq; lra. }
  destruct (round_near prec emax x Hx1) as (s & E2 & Hs2). cbn [pow] in Hs2. rewrite Rmult_1_r in Hs2.
  assert (Hx3 : Rabs (round radix2 (SpecFloat.fexp prec emax) ZnearestE x) < bpow radix2 emax).
  { rewrite E2, Rabs_mult.
    assert (Rabs (1 + s) <= 3 / 2).
    { eapply Rle_trans; [apply Rabs_triang|]. rewrite Rabs_R1. lra. }
    apply Rle_lt_trans with ((3 / 2 * Rabs y) * (3 / 2)).
    - apply Rmult_le_compat; auto; apply Rabs_pos.
    - replace emax with (emax - 2 + 2)%Z by ring. rewrite bpow_plus. change (bpow radix2 2) with 4. lra. }
  unfold rep in Hr. rewrite Rlt_bool_true in Hr by exact Hx3. destruct Hr as [F Hr]. split; auto.
  rewrite Hr, E2. eapply rel_mono; [eapply rel_trans with (y := x)|].
  - exists s. split; [reflexivity|exact Hs2].
  - exists t. split; [exact E|exact Ht].
  - apply Req_le. ring.
Qed.
End Fmt2.

(** ** The significand *)
Section Norm.
Context (pc ec : Z) {Hc : Prec_gt_0 pc} {Hc' : Prec_lt_emax pc ec}.
Hypothesis Hpc : (53 <= pc)%Z.
Hypothesis Hec : (pc + 18 <= ec)%Z.
Hypothesis Hec2 : (66 <= ec)%Z.

Lemma uc_small : uro pc <= / 1000.
Proof.
  unfold uro. apply Rle_trans with (bpow radix2 (-10)); [apply bpow_le; lia|].
  change (bpow radix2 (-10)) with (/ 1024). lra.
Qed.
Lemma pow10_exact k : (0 <= k <= 18)%Z ->
  is_finite (f_of_Z (10 ^ k) : binary_float pc ec) = true /\ B2R (f_of_Z (10 ^ k) : binary_float pc ec) = IZR (10 ^ k).
Proof.
  intros Hk. assert (E : IZR (10 ^ k) = IZR (5 ^ k) * bpow radix2 k).
  { rewrite <- (IZR_Zpower radix2) by lia. rewrite <- mult_IZR. f_equal.
    change (Zpower radix2 k) with (2 ^ k)%Z. rewrite <- Z.pow_mul_l. reflexivity. }
  rewrite E. apply (small_exact pc ec).
  - rewrite <- E. apply rep_of_Z.
  - split; [apply Z.pow_nonneg; lia|]. apply Z.le_lt_trans with (5 ^ 18)%Z; [apply Z.pow_le_mono_r; lia|].
    apply Z.lt_le_trans with (2 ^ 53)%Z; [now vm_compute|]. apply Z.pow_le_mono_r; lia.
  - rewrite emin_eq. lia.
  - lia.
Qed.
Lemma norm_val_rel m k : (0 <= k <= 18)%Z -> (10 ^ k <= m < 10 ^ (k + 1))%Z ->
  let nv := fdiv (f_of_Z m) (f_of_Z (10 ^ k)) : binary_float pc ec in
  is_finite nv = true /\ rel ((1 + uro pc) ^ 2 - 1) (B2R nv) (IZR m * rpow10 (- k)).
Proof.
  intros Hk Hm nv. pose proof uc_small as US. pose proof (uro_pos pc) as U0.
  destruct (pow10_exact k Hk) as [Fk Ek].
  assert (P0 : (0 < 10 ^ k)%Z) by (apply Z.pow_pos_nonneg; lia).
  assert (P19 : (10 ^ (k + 1) <= 10 ^ 19)%Z) by (apply Z.pow_le_mono_r; lia).
  assert (PK : (10 ^ (k + 1) = 10 * 10 ^ k)%Z) by (rewrite Z.pow_add_r by lia; lia).
  assert (Hb1 : bpow radix2 (SpecFloat.emin pc ec + pc) <= 1).
  { change 1 with (bpow radix2 0). apply bpow_le. rewrite emin_eq. lia. }
  assert (Hb2 : IZR (2 ^ 64) <= bpow radix2 (ec - 2)).
  { change (2 ^ 64)%Z with (Zpower radix2 64). rewrite (IZR_Zpower radix2) by lia. apply bpow_le. lia. }
  assert (M64 : (m <= 2 ^ 64)%Z) by (change (10 ^ 19)%Z with 10000000000000000000%Z in *; change (2 ^ 64)%Z with 18446744073709551616%Z; lia).
  destruct (rep_rel pc ec (f_of_Z m) (IZR m) (IZR m) 0) as [Fm Nm].
  - apply rep_of_Z.
  - exists 0. rewrite Rabs_R0. split; lra.
  - lra.
  - rewrite Rabs_pos_eq by (apply IZR_le; lia). split.
    + eapply Rle_trans; [exact Hb1|]. apply IZR_le. lia.
    + eapply Rle_trans; [|exact Hb2]. apply IZR_le. exact M64.
  - assert (Ik : rpow10 (- k) = / IZR (10 ^ k)) by (rewrite rpow10_opp, rpow10_nonneg by lia; reflexivity).
    assert (Hk0 : 0 < IZR (10 ^ k)) by (apply IZR_lt; lia).
    destruct (rep_rel pc ec nv (B2R (f_of_Z m : binary_float pc ec) / IZR (10 ^ k)) (IZR m * rpow10 (- k)) (uro pc)) as [F N].
    + unfold nv. rewrite <- Ek. apply rep_div; auto. rewrite Ek. lra.
    + destruct Nm as (t & E & Ht). exists t. split; [rewrite E, Ik; field; lra|lra].
    + lra.
    + assert (1 <= IZR m * rpow10 (- k) <= IZR (2 ^ 64)).
      { rewrite Ik. split.
        - apply Rmult_le_reg_r with (IZR (10 ^ k)); auto. rewrite Rmult_1_l, Rmult_assoc, Rinv_l by lra.
          rewrite Rmult_1_r. apply IZR_le. lia.
        - apply Rmult_le_reg_r with (IZR (10 ^ k)); auto. rewrite Rmult_assoc, Rinv_l, Rmult_1_r by lra.
          rewrite <- mult_IZR. apply IZR_le. nia. }
      rewrite Rabs_pos_eq by lra. lra.
    + split; auto. eapply rel_mono; [exact N|]. cbn [pow]. lra.
Qed.
End Norm.

(** ** The whole conversion *)
Section Conv.
Context (p e : Z) {H : Prec_gt_0 p} {H' : Prec_lt_emax p e}.
Context (pc ec : Z) {Hc : Prec_gt_0 pc} {Hc' : Prec_lt_emax pc ec}.
Hypothesis Hpc : (53 <= pc)%Z.
Hypothesis Hec : (pc + 18 <= ec)%Z.
Hypothesis Hec2 : (66 <= ec)%Z.
Hypothesis Hpc64 : (pc <= 64)%Z.
Hypothesis Hec64 : (ec <= 16384)%Z.

Definition total_err : R := (1 + uro pc) ^ 2 * (1 + u80) ^ 30 * (1 + / IZR (10 ^ 18)) * (1 + uro p) - 1.

Lemma dz_value s : digits_value (drop_zeros s) = digits_value s.
Proof.
  induction s as [|c s IH]; auto. cbn [drop_zeros]. destruct (Ascii.eqb_spec c "0") as [->|]; auto.
Qed.
Lemma digits_lower c s : all_digits (c :: s) -> c <> "0"%char ->
  (10 ^ zlen s <= digits_value (c :: s) < 10 ^ (zlen s + 1))%Z.
Proof.
  intros Hd Hc0. pose proof (digits_value_range _ Hd) as R. 
  change (c :: s) with ([c] ++ s) in *. rewrite digits_value_app. rewrite zlen_app in R.
  apply all_digits_app in Hd. destruct Hd as [H1 H2]. pose proof (digits_value_range s H2) as R2.
  assert (D : dec_digit c) by (apply H1; now left). unfold dec_digit in D.
  assert (uc c <> 48%Z).
  { intros E. apply Hc0. rewrite <- (chr_uc c). rewrite E. reflexivity. }
  assert (E1 : digits_value [c] = (uc c - 48)%Z) by (unfold digits_value, digit_value; simpl; lia).
  assert (0 < 10 ^ zlen s)%Z by (apply Z.pow_pos_nonneg; unfold zlen; lia).
  split.
  - rewrite E1. nia.
  - rewrite <- digits_value_app. change (zlen [c]) with 1%Z in R. rewrite (Z.add_comm (zlen s)). apply R.
Qed.

Lemma uc_small2 : uro pc <= / 1000.
Proof. apply uc_small; auto. Qed.

Lemma product_rel m k E : (0 <= k <= 18)%Z -> (10 ^ k <= m < 10 ^ (k + 1))%Z -> (Z.abs E <= 4900)%Z ->
  exists pw, pow10 E = Ok pw /\
    let r := fmul pw (fconv 64 16384 (fdiv (f_of_Z m) (f_of_Z (10 ^ k)) : binary_float pc ec)) in
    is_finite r = true /\ rel ((1 + uro pc) ^ 2 * (1 + u80) ^ 30 - 1) (B2R r) (IZR m * rpow10 (- k) * rpow10 E).
Proof.
  intros Hk Hm HE. pose proof uc_small2 as US. pose proof (uro_pos pc) as UC0. pose proof (uro_pos 64) as U0.
  destruct (pow10_near E HE) as (pw & Ep & Fp & Np). exists pw. split; auto. intros r.
  destruct (norm_val_rel pc ec Hpc Hec Hec2 m k Hk Hm) as [Fn Nn].
  set (nv := fdiv (f_of_Z m) (f_of_Z (10 ^ k)) : binary_float pc ec) in *.
  destruct (fconv_exact pc ec 64 16384 nv) as [Fc Ec]; auto.
  { rewrite !emin_eq. lia. }
  assert (P29 : (1 + u80) ^ 29 <= 1 + / 1000).
  { assert (U : u80 <= / 10000000).
    { rewrite u80_val. apply Rinv_le; [lra|]. apply IZR_le. now vm_compute. }
    eapply Rle_trans; [apply pow_small; auto; simpl; lra|]. simpl. lra. }
  pose proof (pow_ge_1 u80 29 U0) as P29'.
  assert (Hb : 1 <= IZR m * rpow10 (- k) <= 10).
  { assert (P0 : (0 < 10 ^ k)%Z) by (apply Z.pow_pos_nonneg; lia).
    assert (PK : (10 ^ (k + 1) = 10 * 10 ^ k)%Z) by (rewrite Z.pow_add_r by lia; lia).
    assert (Ik : rpow10 (- k) = / IZR (10 ^ k)) by (rewrite rpow10_opp, rpow10_nonneg by lia; reflexivity).
    assert (Hk0 : 0 < IZR (10 ^ k)) by (apply IZR_lt; lia).
    rewrite Ik. split; apply Rmult_le_reg_r with (IZR (10 ^ k)); auto; rewrite Rmult_assoc, Rinv_l, Rmult_1_r by lra.
    - rewrite Rmult_1_l. apply IZR_le. lia.
    - rewrite <- mult_IZR. apply IZR_le. lia. }
  destruct (rep_rel 64 16384 r (B2R pw * B2R (fconv 64 16384 nv)) (IZR m * rpow10 (- k) * rpow10 E)
     ((1 + uro pc) ^ 2 * (1 + u80) ^ 29 - 1)) as [F N].
  - unfold r. apply rep_mult; auto.
  - rewrite Ec. rewrite (Rmult_comm (B2R pw)). eapply rel_mono; [eapply rel_mul; [exact Nn|apply near_rel; exact Np]|].
    apply Req_le. ring.
  - assert ((1 + uro pc) ^ 2 <= 1 + / 100) by (cbn [pow]; nra).
    assert (0 <= (1 + uro pc) ^ 2) by (apply pow_le; lra). nra.
  - pose proof (rpow10_range E HE) as [R1 R2]. pose proof (rpow10_pos E).
    rewrite Rabs_pos_eq by nra. split.
    + eapply Rle_trans; [apply bpow_le with (e2 := (-16300)%Z); rewrite emin80; lia|].
      eapply Rle_trans; [exact R1|]. rewrite <- (Rmult_1_l (rpow10 E)) at 1. apply Rmult_le_compat_r; lra.
    + apply Rle_trans with (bpow radix2 4 * bpow radix2 16300).
      * apply Rmult_le_compat; try lra. change (bpow radix2 4) with 16. lra.
      * rewrite <- bpow_plus. apply bpow_le. lia.
  - split; auto. eapply rel_mono; [exact N|]. change 30%nat with (29 + 1)%nat. rewrite pow_add. apply Req_le. ring.
Qed.

Lemma to_unsigned_float_accurate d1 d2 ex s : decimal_number d1 d2 ex s ->
  (zlen s <= 2 ^ 29)%Z -> (Z.abs ex <= 2 ^ 29)%Z ->
  rpow10 (-4900) <= number_value d1 d2 ex <= rpow10 4900 ->
  bpow radix2 (SpecFloat.emin p e + p) <= number_value d1 d2 ex <= bpow radix2 (e - 2) ->
  exists r, to_unsigned_float p e pc ec s = Ok (Some r) /\ is_finite r = true /\
    Rabs (B2R r - number_value d1 d2 ex) <= total_err * number_value d1 d2 ex.
Proof.
  intros Hs Hl Hex Hv10 Hv.
  rewrite (to_unsigned_float_ok p e pc ec d1 d2 ex s Hs Hl Hex).
  destruct Hs as (pt & x & Es & Hp & Hx & Hd1 & Hd2 & Hne).
  set (V := number_value d1 d2 ex) in *. set (D := drop_zeros (d1 ++ d2)).
  assert (HV0 : 0 < V) by (eapply Rlt_le_trans; [apply (rpow10_pos (-4900))|apply Hv10]).
  assert (HD : all_digits D).
  { destruct (drop_zeros_suffix (d1 ++ d2)) as (z & Ez & _). fold D in Ez.
    assert (Had : all_digits (d1 ++ d2)) by now apply all_digits_app. rewrite Ez in Had. now apply all_digits_app in Had. }
  assert (EV : V = IZR (digits_value D) * rpow10 (ex - zlen d2)).
  { unfold V, number_value, D. now rewrite dz_value. }
  destruct D as [|c l] eqn:ED.
  { exfalso. rewrite EV in HV0. unfold digits_value in HV0. simpl in HV0. lra. }
  assert (Hc0 : c <> "0"%char) by (eapply drop_zeros_head; exact ED). 
  assert (ED' : D = c :: l) by exact ED.
  set (sig := firstn 19 (c :: l)). set (rest := skipn 19 (c :: l)).
  assert (Esr : c :: l = sig ++ rest) by (symmetry; apply firstn_skipn).
  assert (Hsd : all_digits sig /\ all_digits rest) by (apply all_digits_app; now rewrite <- Esr).
  destruct Hsd as [Hsig Hrest].
  assert (Hsc : sig = c :: firstn 18 l) by reflexivity.
  assert (Hlsig : (zlen sig = zlen (firstn 18 l) + 1)%Z) by (rewrite Hsc; unfold zlen; simpl length; lia).
  assert (Hl18 : (0 <= zlen (firstn 18 l) <= 18)%Z) by (unfold zlen; rewrite firstn_length; lia).
  assert (Hm : (10 ^ (zlen sig - 1) <= digits_value sig < 10 ^ (zlen sig - 1 + 1))%Z).
  { replace (zlen sig - 1)%Z with (zlen (firstn 18 l)) by lia. rewrite Hsc. apply digits_lower; auto. }
  set (E := (ex + zlen (c :: l) - 1 - zlen d2)%Z).
  pose proof (digits_lower c l HD Hc0) as HL.
  assert (HE : (Z.abs E <= 4900)%Z).
  { assert (L1 : zlen (c :: l) = (zlen l + 1)%Z) by (unfold zlen; simpl length; lia).
    assert (G1 : rpow10 E <= V).
    { rewrite EV. unfold E. rewrite L1. replace (ex + (zlen l + 1) - 1 - zlen d2)%Z with (zlen l + (ex - zlen d2))%Z by ring.
      rewrite rpow10_add. apply Rmult_le_compat_r; [left; apply rpow10_pos|].
      rewrite rpow10_nonneg by (unfold zlen; lia). apply IZR_le. lia. }
    assert (G2 : V < rpow10 (E + 1)).
    { rewrite EV. unfold E. rewrite L1. replace (ex + (zlen l + 1) - 1 - zlen d2 + 1)%Z with ((zlen l + 1) + (ex - zlen d2))%Z by ring.
      rewrite rpow10_add. apply Rmult_lt_compat_r; [apply rpow10_pos|].
      rewrite rpow10_nonneg by (unfold zlen; lia). apply IZR_lt. lia. }
    assert (E <= 4900)%Z.
    { destruct (Z_le_gt_dec E 4900) as [|G]; auto. exfalso.
      assert (rpow10 4901 <= rpow10 E) by (apply rpow10_le; lia).
      assert (rpow10 4901 = 10 * rpow10 4900).
      { change 4901%Z with (1 + 4900)%Z. rewrite rpow10_add. f_equal. }
      pose proof (rpow10_pos 4900). lra. }
    assert (-4900 < E + 1)%Z by (apply rpow10_lt_inv; lra). lia. }
  destruct (product_rel (digits_value sig) (zlen sig - 1) E ltac:(lia) Hm HE) as (pw & Epw & Fr & Nr).
  unfold float_result. fold sig E. rewrite Epw. cbn [bind].
  eexists. split; [reflexivity|].
  set (r := fmul pw _) in *.
  (* the truncated significand *)
  assert (T : rel (/ IZR (10 ^ 18)) (IZR (digits_value sig) * rpow10 (- (zlen sig - 1)) * rpow10 E) V).
  { rewrite EV, Esr, digits_value_app. set (M := digits_value sig) in *. set (Q := digits_value rest).
    pose proof (digits_value_range rest Hrest) as RQ. fold Q in RQ.
    assert (P0 : (0 < 10 ^ zlen rest)%Z) by (apply Z.pow_pos_nonneg; unfold zlen; lia).
    assert (P1 : (0 < 10 ^ (zlen sig - 1))%Z) by (apply Z.pow_pos_nonneg; lia).
    assert (EE : IZR M * rpow10 (- (zlen sig - 1)) * rpow10 E = IZR (M * 10 ^ zlen rest) * rpow10 (ex - zlen d2)).
    { rewrite mult_IZR. rewrite <- (rpow10_nonneg (zlen rest)) by (unfold zlen; lia).
      rewrite !Rmult_assoc. f_equal. rewrite <- !rpow10_add. f_equal. unfold E. rewrite Esr, zlen_app. ring. }
    rewrite EE. assert (HW : 0 < IZR (M * 10 ^ zlen rest + Q)) by (apply IZR_lt; nia).
    exists (- IZR Q / IZR (M * 10 ^ zlen rest + Q)). split.
    - rewrite plus_IZR in *. field. lra.
    - unfold Rdiv. rewrite Rabs_mult, Rabs_Ropp, Rabs_inv, <- !abs_IZR.
      rewrite !Z.abs_eq by nia.
      apply Rmult_le_reg_r with (IZR (M * 10 ^ zlen rest + Q)); auto. rewrite Rmult_assoc, Rinv_l, Rmult_1_r by lra.
      assert (H18 : 0 < IZR (10 ^ 18)) by (apply IZR_lt; now vm_compute).
      apply Rmult_le_reg_l with (IZR (10 ^ 18)); auto. rewrite <- Rmult_assoc, Rinv_r, Rmult_1_l by lra.
      rewrite <- mult_IZR. apply IZR_le.
      destruct rest as [|rc rl] eqn:Er.
      + change Q with 0%Z. nia.
      + assert (Hfull : zlen sig = 19%Z).
        { unfold zlen, sig. rewrite firstn_length. assert (length rest = length (c :: l) - 19)%nat by (unfold rest; now rewrite skipn_length).
          unfold rest in H0. unfold rest in Er. rewrite Er in H0. simpl length in H0. simpl length. lia. }
        rewrite Hfull in Hm. change (19 - 1)%Z with 18%Z in Hm. nia. }
  pose proof uc_small2 as US. pose proof (uro_pos pc) as UC0. pose proof (uro_pos 64) as U0.
  assert (P30 : (1 + u80) ^ 30 <= 1 + / 1000).
  { assert (U : u80 <= / 10000000).
    { rewrite u80_val. apply Rinv_le; [lra|]. apply IZR_le. now vm_compute. }
    eapply Rle_trans; [apply pow_small; auto; simpl; lra|]. simpl. lra. }
  pose proof (pow_ge_1 u80 30 U0) as P30'.
  assert (T18 : 0 <= / IZR (10 ^ 18) <= / 1000).
  { split; [left; apply Rinv_0_lt_compat, IZR_lt; now vm_compute|]. apply Rinv_le; [lra|]. apply IZR_le. now vm_compute. }
  destruct (rep_rel p e (fconv p e r) (B2R r) V ((1 + uro pc) ^ 2 * (1 + u80) ^ 30 * (1 + / IZR (10 ^ 18)) - 1)) as [F N].
  - now apply rep_fconv.
  - eapply rel_mono; [eapply rel_trans; [exact Nr|exact T]|]. apply Req_le. ring.
  - assert ((1 + uro pc) ^ 2 <= 1 + / 100) by (cbn [pow]; nra).
    assert (0 <= (1 + uro pc) ^ 2) by (apply pow_le; lra).
    assert ((1 + uro pc) ^ 2 * (1 + u80) ^ 30 <= (1 + / 100) * (1 + / 1000)) by (apply Rmult_le_compat; lra).
    assert ((1 + uro pc) ^ 2 * (1 + u80) ^ 30 * (1 + / IZR (10 ^ 18)) <= ((1 + / 100) * (1 + / 1000)) * (1 + / 1000))
      by (apply Rmult_le_compat; try lra; apply Rmult_le_pos; lra). lra.
  - rewrite Rabs_pos_eq by lra. exact Hv.
  - split; auto. apply rel_bound in N. rewrite (Rabs_pos_eq V) in N by lra.
    eapply Rle_trans; [exact N|]. apply Rmult_le_compat_r; [lra|]. unfold total_err. apply Req_le. ring.
Qed.
End Conv.
