(** The order of a floating-point type, medians of floating-point numbers. *)
From Coq Require Import ZArith List Bool Permutation Lia Reals Lra PeanoNat.
From Flocq Require Import Core.Core IEEE754.BinarySingleNaN.
From Flocq Require Import Mult_error.
From Verif Require Import Base IntModel NumModel FloatModel FloatProofs StatModel StatSpec StatProofs.
Import ListNotations.

Section Fmt.
Context (prec emax : Z) {Hprec : Prec_gt_0 prec} {Hmax : Prec_lt_emax prec emax}.
Notation fexp := (SpecFloat.fexp prec emax).
Notation bf := (binary_float prec emax).
#[local] Instance fexp_valid : Valid_exp fexp := fexp_correct prec emax Hprec.
#[local] Instance fexp_mono : Monotone_exp fexp := fexp_monotone prec emax.
Notation rnd := (round radix2 fexp ZnearestE).
Notation format := (generic_format radix2 fexp).
Definition num (x : bf) : bool := negb (is_nan x).

Lemma feq_num (x : bf) : feq x x = num x.
Proof.
  unfold feq, num, Beqb, SpecFloat.SFeqb. change (SpecFloat.SFcompare (B2SF x) (B2SF x)) with (Bcompare x x).
  destruct x as [s|s| |s m e H]; try (destruct s; reflexivity); try reflexivity.
  rewrite Bcompare_correct by reflexivity. rewrite Rcompare_Eq by reflexivity. reflexivity.
Qed.
Lemma fle_spec (a b : bf) : fle a b = true <->
  (num a = true /\ num b = true /\ (a = B754_infinity true \/ b = B754_infinity false \/ (is_finite a = true /\ is_finite b = true /\ (B2R a <= B2R b)%R))).
Proof.
  unfold fle. destruct (is_finite a) eqn:Fa, (is_finite b) eqn:Fb.
  - rewrite Bleb_correct by assumption. split.
    + intros H. destruct (Rle_bool_spec (B2R a) (B2R b)); [|discriminate].
      split; [destruct a; try discriminate; reflexivity|]. split; [destruct b; try discriminate; reflexivity|]. right; right; auto.
    + intros (_ & _ & [-> | [-> | (_ & _ & H)]]); try discriminate. apply Rle_bool_true. exact H.
  - destruct a as [[]|[]| |[]]; try discriminate; destruct b as [[]|[]| |[]]; try discriminate; cbn; split; intros H; try discriminate; try reflexivity;
      try (repeat split; auto; fail); try (decompose [and or] H; discriminate).
  - destruct a as [[]|[]| |[]]; try discriminate; destruct b as [[]|[]| |[]]; try discriminate; cbn; split; intros H; try discriminate; try reflexivity;
      try (repeat split; auto; fail); try (decompose [and or] H; discriminate).
  - destruct a as [[]|[]| |[]]; try discriminate; destruct b as [[]|[]| |[]]; try discriminate; cbn; split; intros H; try discriminate; try reflexivity;
      try (repeat split; auto; fail); try (decompose [and or] H; discriminate).
Qed.
Lemma num_cases (x : bf) : num x = true -> x = B754_infinity true \/ x = B754_infinity false \/ is_finite x = true.
Proof. destruct x as [s|[]| |s m e H]; cbn; intros Hn; try discriminate; auto. Qed.
Lemma fle_total (x y : bf) : num x = true -> num y = true -> fle x y = true \/ fle y x = true.
Proof.
  intros Hx Hy. rewrite !fle_spec. destruct (num_cases x Hx) as [->|[->|Fx]]; [left; auto|right; auto|].
  destruct (num_cases y Hy) as [->|[->|Fy]]; [right; auto|left; auto|].
  destruct (Rle_or_lt (B2R x) (B2R y)); [left; split; [|split; [|right; right]]; auto|right].
  split; [assumption|]. split; [assumption|]. right; right. repeat split; auto. lra.
Qed.
Lemma fle_trans (x y z : bf) : fle x y = true -> fle y z = true -> fle x z = true.
Proof.
  rewrite !fle_spec. intros (A1 & A2 & A3) (B1 & B2 & B3). split; [assumption|]. split; [assumption|].
  destruct A3 as [->|[->|(F1 & F2 & L1)]]; [auto| |].
  - destruct B3 as [E|[->|(F1 & _)]]; [discriminate|auto|discriminate].
  - destruct B3 as [->|[->|(F3 & F4 & L2)]]; [discriminate|auto|]. right; right. repeat split; auto. lra.
Qed.
Lemma flt_irrefl (x : bf) : flt x x = false.
Proof. destruct (flt x x) eqn:E; [|reflexivity]. pose proof (flt_asym _ _ _ _ E). congruence. Qed.
Lemma flt_negle (x y : bf) : num x = true -> num y = true -> flt x y = negb (fle y x).
Proof. intros Hx Hy. apply flt_fle; [destruct x|destruct y]; try discriminate; reflexivity. Qed.
Lemma flt_le_trans (x y z : bf) : num x = true -> num y = true -> num z = true -> flt y x = false -> flt y z = true -> flt x z = true.
Proof.
  intros Hx Hy Hz. rewrite !flt_negle by assumption. intros H1 H2. apply negb_false_iff in H1. apply negb_true_iff in H2. apply negb_true_iff.
  destruct (fle z x) eqn:E; [|reflexivity]. pose proof (fle_trans _ _ _ E H1). congruence.
Qed.
Notation emin := (SpecFloat.emin prec emax).
Local Open Scope R_scope.
(** Values whose half is a value of the type *)
Definition halvable (x : bf) : Prop := is_finite x = true /\ (B2R x = 0 \/ bpow radix2 (emin + prec) <= Rabs (B2R x)).
Lemma half_format (x : bf) : halvable x -> format (B2R x / 2).
Proof.
  intros (Fx & [H|H]); [rewrite H; unfold Rdiv; rewrite Rmult_0_l; apply generic_format_0|].
  replace (B2R x / 2) with (B2R x * bpow radix2 (-1)) by (cbn; lra).
  change fexp with (FLT_exp emin prec). apply mult_bpow_exact_FLT.
  - change (FLT_exp emin prec) with fexp. apply generic_format_B2R.
  - pose proof (mag_ge_bpow radix2 (B2R x) (emin + prec + 1)) as HM. replace (emin + prec + 1 - 1)%Z with (emin + prec)%Z in HM by ring.
    specialize (HM H). lia.
Qed.
Lemma two_ok : (1 < prec)%Z -> is_finite (f_of_Z 2 : bf) = true /\ B2R (f_of_Z 2 : bf) = 2.
Proof.
  intros Hp. apply of_Z_small; try assumption. split; [lia|].
  change 2%Z with (2 ^ 1)%Z at 1. apply Z.pow_lt_mono_r; lia.
Qed.
Lemma half_ok (x : bf) : (1 < prec)%Z -> is_finite x = true -> format (B2R x / 2) -> is_finite (fdiv x (f_of_Z 2)) = true /\ B2R (fdiv x (f_of_Z 2)) = B2R x / 2.
Proof.
  intros Hp Fx Hf. destruct (two_ok Hp) as [F2 E2].
  pose proof (rep_div prec emax x (f_of_Z 2) Fx F2 ltac:(rewrite E2; lra)) as R1. rewrite E2 in R1.
  apply rep_exact in R1; auto. pose proof (abs_B2R_lt_emax prec emax x).
  unfold Rdiv. rewrite Rabs_mult, (Rabs_pos_eq (/ 2)) by lra. pose proof (Rabs_pos (B2R x)). lra.
Qed.
Lemma average_ok (x y : bf) : (1 < prec)%Z -> is_finite x = true -> is_finite y = true -> format (B2R x / 2) -> format (B2R y / 2) ->
  let r := fadd (fdiv x (f_of_Z 2)) (fdiv y (f_of_Z 2)) in
  is_finite r = true /\ B2R r = rnd ((B2R x + B2R y) / 2) /\ Rmin (B2R x) (B2R y) <= B2R r <= Rmax (B2R x) (B2R y).
Proof.
  intros Hp Fx Fy Hx Hy r. destruct (half_ok x Hp Fx Hx) as [F1 E1], (half_ok y Hp Fy Hy) as [F2 E2].
  pose proof (rep_plus prec emax _ _ F1 F2) as R1. rewrite E1, E2 in R1. replace (B2R x / 2 + B2R y / 2) with ((B2R x + B2R y) / 2) in R1 by lra.
  fold r in R1.
  assert (Hb : Rmin (B2R x) (B2R y) <= rnd ((B2R x + B2R y) / 2) <= Rmax (B2R x) (B2R y)).
  { split.
    - rewrite <- (rnd_id prec emax (Rmin (B2R x) (B2R y))) by (apply Rmin_format; apply generic_format_B2R).
      apply rnd_le; auto. unfold Rmin. destruct (Rle_dec (B2R x) (B2R y)); lra.
    - assert (format (Rmax (B2R x) (B2R y))) by (unfold Rmax; destruct (Rle_dec (B2R x) (B2R y)); apply generic_format_B2R).
      rewrite <- (rnd_id prec emax (Rmax (B2R x) (B2R y))) by assumption.
      apply rnd_le; auto. unfold Rmax. destruct (Rle_dec (B2R x) (B2R y)); lra. }
  unfold rep in R1. rewrite Rlt_bool_true in R1.
  - destruct R1 as [R1 R2]. rewrite R2. auto.
  - pose proof (abs_B2R_lt_emax prec emax x) as Ax. pose proof (abs_B2R_lt_emax prec emax y) as Ay.
    unfold Rmin, Rmax in Hb. apply Rabs_def2 in Ax. apply Rabs_def2 in Ay.
    destruct (Rle_dec (B2R x) (B2R y)); apply Rabs_def1; lra.
Qed.
Lemma Z_half_format n : (1 < prec)%Z -> (Z.abs n < 2 ^ prec)%Z -> format (IZR n / 2).
Proof.
  intros Hp H. replace (IZR n / 2) with (F2R (Float radix2 n (-1))) by (unfold F2R; cbn; lra).
  apply format_F2R; auto. unfold SpecFloat.emin. unfold Prec_gt_0, Prec_lt_emax in *. lia.
Qed.
Lemma of_Z_exact n : (Z.abs n < 2 ^ prec)%Z -> is_finite (f_of_Z n : bf) = true /\ B2R (f_of_Z n : bf) = IZR n.
Proof.
  intros H. pose proof (rep_of_Z prec emax n) as R1. apply rep_exact in R1; auto.
  - replace (IZR n) with (F2R (Float radix2 n 0)) by (unfold F2R; cbn; ring). apply format_F2R; auto. unfold SpecFloat.emin. unfold Prec_gt_0, Prec_lt_emax in *. lia.
  - rewrite <- abs_IZR. apply Rlt_le_trans with (bpow radix2 prec).
    + rewrite <- IZR_Zpower by (unfold Prec_gt_0 in *; lia). apply IZR_lt. exact H.
    + apply bpow_le. unfold Prec_lt_emax in *. lia.
Qed.
Lemma average_int x y : (1 < prec)%Z -> (2 * Z.abs x < 2 ^ prec)%Z -> (2 * Z.abs y < 2 ^ prec)%Z ->
  let r := fadd (fdiv (f_of_Z x : bf) (f_of_Z 2)) (fdiv (f_of_Z y) (f_of_Z 2)) in
  is_finite r = true /\ B2R r = IZR (x + y) / 2.
Proof.
  intros Hp Hx Hy. cbv zeta. destruct (of_Z_exact x ltac:(lia)) as [F1 E1], (of_Z_exact y ltac:(lia)) as [F2 E2].
  destruct (average_ok (f_of_Z x) (f_of_Z y) Hp F1 F2) as (A1 & A2 & _).
  - rewrite E1. apply Z_half_format; lia.
  - rewrite E2. apply Z_half_format; lia.
  - split; [exact A1|]. rewrite A2, E1, E2, <- plus_IZR. apply rnd_id. apply Z_half_format; lia.
Qed.
End Fmt.

(** * median *)
Section Median.
Context {E D T : Type} (ar : arithmetic T) (lt : D -> D -> bool) (num : D -> Prop) (cast : D -> T) (acc : E -> D).
Hypothesis lt_irrefl : forall x, num x -> lt x x = false.
Hypothesis lt_asym : forall x y, num x -> num y -> lt x y = true -> lt y x = false.
Hypothesis lt_le_trans : forall x y z, num x -> num y -> num z -> lt y x = false -> lt y z = true -> lt x z = true.
Lemma median_odd l r : (forall e, In e l -> num (acc e)) -> Nat.odd (length l) = true -> median ar lt cast acc l r ->
  exists x, ranked lt (map acc l) (length l / 2) x /\ r = cast x.
Proof.
  intros HN Ho H. unfold median in H.
  assert (HN' : forall y, In y (map acc l) -> num y) by (intros y Hy; apply in_map_iff in Hy; destruct Hy as (e & <- & He); apply HN; exact He).
  destruct (Nat.eqb_spec (length l) 0) as [H0|H0]; [rewrite H0 in Ho; discriminate|].
  destruct H as (l1 & x & H1 & H2 & H3).
  assert (Hm : (length l mod 2 =? 0)%nat = false).
  { apply Nat.odd_spec in Ho. destruct Ho as [k Hk]. apply Nat.eqb_neq. rewrite Hk. rewrite Nat.add_comm, Nat.mul_comm, Nat.mod_add by lia. discriminate. }
  rewrite Hm in H3. exists x. split; [|exact H3]. eapply nth_element_ranked; eassumption.
Qed.
Lemma median_even l r : (forall e, In e l -> num (acc e)) -> Nat.even (length l) = true -> l <> [] -> median ar lt cast acc l r ->
  exists x y, ranked lt (map acc l) (length l / 2 - 1) x /\ ranked lt (map acc l) (length l / 2) y /\
    r = a_add ar (a_div ar (cast y) (a_two ar)) (a_div ar (cast x) (a_two ar)).
Proof.
  intros HN Ho Hne H. unfold median in H.
  assert (HN' : forall y, In y (map acc l) -> num y) by (intros y Hy; apply in_map_iff in Hy; destruct Hy as (e & <- & He); apply HN; exact He).
  destruct (Nat.eqb_spec (length l) 0) as [H0|H0]; [destruct l; [congruence|discriminate]|].
  destruct H as (l1 & x & H1 & H2 & H3).
  assert (Hm : (length l mod 2 =? 0)%nat = true).
  { apply Nat.even_spec in Ho. destruct Ho as [k Hk]. apply Nat.eqb_eq. rewrite Hk. rewrite Nat.mul_comm, Nat.mod_mul by lia. reflexivity. }
  rewrite Hm in H3. destruct H3 as (l2 & y & H4 & H5 & H6). exists y, x. split; [|split; [|exact H6]].
  - assert (HP : Permutation (map acc l) l1) by exact (proj1 H1). apply (ranked_perm lt l1); [apply Permutation_sym; exact HP|].
    eapply (nth_element_ranked lt num); try eassumption. intros z Hz. apply HN'. eapply Permutation_in; [apply Permutation_sym; exact HP|exact Hz].
  - eapply nth_element_ranked; eassumption.
Qed.
Lemma median_exists l : (forall e, In e l -> num (acc e)) -> exists r, median ar lt cast acc l r.
Proof.
  intros HN. unfold median.
  assert (HN' : forall y, In y (map acc l) -> num y) by (intros y Hy; apply in_map_iff in Hy; destruct Hy as (e & <- & He); apply HN; exact He).
  destruct (Nat.eqb_spec (length l) 0) as [H0|H0]; [eauto|].
  assert (Hl : (length l / 2 < length (map acc l))%nat) by (rewrite map_length; apply Nat.div_lt; lia).
  pose proof (nth_element_exists lt num lt_asym lt_le_trans (map acc l) _ HN' Hl) as H1. set (l1 := sort lt (map acc l)) in *.
  destruct H1 as (HP & HL & x & Hx & Hr). 
  destruct (length l mod 2 =? 0)%nat eqn:Hm; [|exists (cast x), l1, x; split; [split; [exact HP|split; [exact HL|exists x; auto]]|split; [exact Hx|reflexivity]]].
  assert (HN1 : forall y, In y l1 -> num y) by (intros y Hy; apply HN'; eapply Permutation_in; [apply Permutation_sym; exact HP|exact Hy]).
  assert (HL2 : (length l / 2 - 1 < length l1)%nat) by (rewrite <- (Permutation_length HP); lia).
  pose proof (nth_element_exists lt num lt_asym lt_le_trans l1 _ HN1 HL2) as H2. set (l2 := sort lt l1) in *.
  pose proof H2 as (_ & _ & y & Hy & _).
  exists (a_add ar (a_div ar (cast x) (a_two ar)) (a_div ar (cast y) (a_two ar))), l1, x.
  split; [split; [exact HP|split; [exact HL|exists x; auto]]|]. split; [exact Hx|]. exists l2, y. auto.
Qed.
End Median.
