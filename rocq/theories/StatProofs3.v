(** Sums: mean, root mean square and standard deviation in exact arithmetic; means of integers. *)
From Coq Require Import ZArith List Bool Permutation Lia Reals Lra PeanoNat.
From Flocq Require Import Core.Core IEEE754.BinarySingleNaN.
From Verif Require Import Base IntModel NumModel FloatModel FloatProofs StatModel StatSpec StatProofs StatProofs2.
Import ListNotations.
Local Open Scope R_scope.

Lemma fold_sum {E} (f : E -> R) l : forall a, fold_left (fun accu el => accu + f el) l a = a + Rsum (map f l).
Proof. induction l as [|e l IH]; intros a; cbn [fold_left map Rsum]; [lra|]. rewrite IH. lra. Qed.
Lemma Rsum_app a b : Rsum (a ++ b) = Rsum a + Rsum b.
Proof. induction a; cbn [app Rsum]; lra. Qed.
Lemma Rsum_perm l l' : Permutation l l' -> Rsum l = Rsum l'.
Proof. induction 1; cbn [Rsum]; lra. Qed.
Lemma Rsum_shift c l : Rsum (map (fun x => x + c) l) = Rsum l + INR (length l) * c.
Proof. induction l as [|x l IH]; cbn [map Rsum length]; [cbn; lra|]. rewrite IH, S_INR. lra. Qed.
Lemma Rsum_scale c l : Rsum (map (fun x => c * x) l) = c * Rsum l.
Proof. induction l as [|x l IH]; cbn [map Rsum]; [lra|]. rewrite IH. lra. Qed.
Lemma Rsum_ge0 l : (forall x, In x l -> 0 <= x) -> 0 <= Rsum l.
Proof. induction l as [|x l IH]; intros H; cbn [Rsum]; [lra|]. pose proof (H x (or_introl eq_refl)). assert (0 <= Rsum l) by (apply IH; intros; apply H; right; assumption). lra. Qed.
Lemma Rsum_bounds lo hi l : (forall x, In x l -> lo <= x <= hi) -> INR (length l) * lo <= Rsum l <= INR (length l) * hi.
Proof.
  induction l as [|x l IH]; intros H; cbn [Rsum length]; [cbn; lra|]. rewrite S_INR.
  pose proof (H x (or_introl eq_refl)). assert (INR (length l) * lo <= Rsum l <= INR (length l) * hi) by (apply IH; intros; apply H; right; assumption). lra.
Qed.
Lemma length_pos {E} (l : list E) : l <> [] -> 0 < INR (length l).
Proof. destruct l; [congruence|]. intros _. apply lt_0_INR. cbn. lia. Qed.

Section Exact.
Context {E : Type} (nan : R) (acc : E -> R).
Lemma mean_exact l : mean (exact nan) acc l = Rmean (map acc l).
Proof. unfold mean, Rmean. cbn [a_add a_zero a_div a_nat exact]. rewrite fold_sum, map_length. f_equal. lra. Qed.
Lemma rms_exact l : rms (exact nan) acc l = sqrt (Rmean (Rsquares (map acc l))).
Proof.
  unfold rms, Rmean, Rsquares. cbn [a_add a_zero a_div a_nat a_sqr a_sqrt exact]. rewrite (fold_sum (fun e => acc e * acc e)), !map_length, map_map. f_equal. f_equal. lra.
Qed.
Lemma stddev_exact l : (2 <= length l)%nat -> standard_deviation (exact nan) acc l = (sqrt (Rvariance (map acc l)), Rmean (map acc l)).
Proof.
  intros H. unfold standard_deviation. destruct (Nat.eqb_spec (length l) 0); [lia|]. destruct (Nat.eqb_spec (length l) 1); [lia|].
  rewrite mean_exact. unfold Rvariance. cbn [a_add a_zero a_div a_nat a_sqr a_sqrt a_sub exact].
  rewrite (fold_sum (fun e => (acc e - Rmean (map acc l)) * (acc e - Rmean (map acc l)))), map_length, map_map. f_equal. f_equal. f_equal. lra.
Qed.
End Exact.
Lemma Rmean_shift c l : l <> [] -> Rmean (map (fun x => x + c) l) = Rmean l + c.
Proof. intros H. unfold Rmean. rewrite Rsum_shift, map_length. pose proof (length_pos l H). field. lra. Qed.
Lemma Rmean_scale c l : Rmean (map (fun x => c * x) l) = c * Rmean l.
Proof. unfold Rmean. rewrite Rsum_scale, map_length. unfold Rdiv. ring. Qed.
Lemma Rvariance_shift c l : l <> [] -> Rvariance (map (fun x => x + c) l) = Rvariance l.
Proof.
  intros H. unfold Rvariance. rewrite map_map, map_length, Rmean_shift by assumption. f_equal. f_equal. apply map_ext. intros x. ring.
Qed.
Lemma Rvariance_scale c l : Rvariance (map (fun x => c * x) l) = c * c * Rvariance l.
Proof.
  unfold Rvariance. rewrite map_map, map_length, Rmean_scale.
  rewrite (map_ext _ (fun x => c * c * ((x - Rmean l) * (x - Rmean l)))) by (intros; ring).
  rewrite <- (map_map (fun x => (x - Rmean l) * (x - Rmean l)) (fun y => c * c * y)), Rsum_scale. unfold Rdiv. ring.
Qed.
Lemma Rvariance_ge0 l : (2 <= length l)%nat -> 0 <= Rvariance l.
Proof.
  intros H. unfold Rvariance. apply Rmult_le_pos.
  - apply Rsum_ge0. intros x Hx. apply in_map_iff in Hx. destruct Hx as (y & <- & _). apply Rle_0_sqr.
  - apply Rlt_le, Rinv_0_lt_compat, lt_0_INR. lia.
Qed.
Lemma Rmean_bounds lo hi l : l <> [] -> (forall x, In x l -> lo <= x <= hi) -> lo <= Rmean l <= hi.
Proof.
  intros Hl H. pose proof (Rsum_bounds lo hi l H) as [H1 H2]. pose proof (length_pos l Hl) as Hp. unfold Rmean. split.
  - apply Rmult_le_reg_r with (INR (length l)); [exact Hp|]. unfold Rdiv. rewrite Rmult_assoc, Rinv_l by lra. lra.
  - apply Rmult_le_reg_r with (INR (length l)); [exact Hp|]. unfold Rdiv. rewrite Rmult_assoc, Rinv_l by lra. lra.
Qed.
Lemma Rmean_perm l l' : Permutation l l' -> Rmean l = Rmean l'.
Proof. intros H. unfold Rmean. rewrite (Rsum_perm _ _ H), (Permutation_length H). reflexivity. Qed.
Lemma Rvariance_perm l l' : Permutation l l' -> Rvariance l = Rvariance l'.
Proof.
  intros H. unfold Rvariance. rewrite (Rmean_perm _ _ H), (Permutation_length H). f_equal. apply Rsum_perm. apply Permutation_map. exact H.
Qed.
(** sum of (x - mean)^2 is the sum of squares minus n mean^2 *)
Lemma Rsum_dev m l : Rsum (map (fun x => (x - m) * (x - m)) l) = Rsum (Rsquares l) - 2 * m * Rsum l + INR (length l) * (m * m).
Proof.
  induction l as [|x l IH]; cbn [map Rsum length Rsquares]; [cbn; lra|]. rewrite IH, S_INR. unfold Rsquares. lra.
Qed.
Lemma Rvariance_alt l : (2 <= length l)%nat -> Rvariance l = (Rsum (Rsquares l) - INR (length l) * (Rmean l * Rmean l)) / INR (length l - 1).
Proof.
  intros H. unfold Rvariance. rewrite Rsum_dev. f_equal. assert (0 < INR (length l)) by (apply lt_0_INR; lia).
  unfold Rmean. field. lra.
Qed.

(** * The mean of integers in floating-point arithmetic *)
Section Fmt.
Context (prec emax : Z) {Hprec : Prec_gt_0 prec} {Hmax : Prec_lt_emax prec emax}.
Notation bf := (binary_float prec emax).
Definition Zsum (l : list Z) : Z := fold_right Z.add 0%Z l.
Definition Zsum_abs (l : list Z) : Z := fold_right (fun x a => Z.abs x + a)%Z 0%Z l.
Lemma Zsum_abs_ge l : (Z.abs (Zsum l) <= Zsum_abs l)%Z.
Proof. induction l; cbn [Zsum Zsum_abs fold_right]; [cbn; lia|]. fold (Zsum l) (Zsum_abs l). lia. Qed.
Lemma Zsum_abs_nonneg l : (0 <= Zsum_abs l)%Z.
Proof. pose proof (Zsum_abs_ge l). lia. Qed.
Lemma int_fold {E} (f : E -> Z) l : forall (a : bf) z, is_finite a = true -> B2R a = IZR z -> (Z.abs z + Zsum_abs (map f l) < 2 ^ prec)%Z ->
  let s := fold_left (fun accu el => fadd accu (f_of_Z (f el))) l a in is_finite s = true /\ B2R s = IZR (z + Zsum (map f l)).
Proof.
  induction l as [|e l IH]; intros a z Fa Ea H; cbn [fold_left map].
  - cbv zeta. cbn [map Zsum fold_right]. rewrite Z.add_0_r. auto.
  - cbn [map Zsum_abs fold_right] in H. fold (Zsum_abs (map f l)) in H. pose proof (Zsum_abs_nonneg (map f l)).
    destruct (of_Z_exact prec emax (f e) ltac:(lia)) as [F1 E1].
    pose proof (rep_plus prec emax a (f_of_Z (f e)) Fa F1) as R1. rewrite Ea, E1, <- plus_IZR in R1.
    assert (Hz : (Z.abs (z + f e) < 2 ^ prec)%Z) by lia.
    destruct (of_Z_exact prec emax (z + f e) Hz) as [F2 E2].
    assert (R2 : is_finite (fadd a (f_of_Z (f e))) = true /\ B2R (fadd a (f_of_Z (f e))) = IZR (z + f e)).
    { apply rep_exact with (1 := R1); auto.
      - rewrite <- E2. apply generic_format_B2R.
      - rewrite <- E2. apply abs_B2R_lt_emax. }
    destruct R2 as [F3 E3]. specialize (IH (fadd a (f_of_Z (f e))) (z + f e)%Z F3 E3 ltac:(lia)). cbv zeta in IH |- *.
    cbn [Zsum fold_right]. fold (Zsum (map f l)). replace (z + (f e + Zsum (map f l)))%Z with (z + f e + Zsum (map f l))%Z by lia. exact IH.
Qed.
Lemma mean_int {E} (f : E -> Z) l : l <> [] -> (Z.of_nat (length l) < 2 ^ prec)%Z -> (Zsum_abs (map f l) < 2 ^ prec)%Z ->
  rep prec emax (mean (ieee prec emax) (fun e => f_of_Z (f e)) l) (IZR (Zsum (map f l)) / INR (length l)).
Proof.
  intros Hl Hn Hs. unfold mean. cbn [a_add a_zero a_div a_nat ieee].
  destruct (int_fold f l (B754_zero false) 0 eq_refl eq_refl ltac:(cbn [Z.abs]; lia)) as [F1 E1]. cbv zeta in F1, E1.
  destruct (of_Z_exact prec emax (Z.of_nat (length l)) ltac:(lia)) as [F2 E2].
  pose proof (length_pos l Hl) as Hp. rewrite INR_IZR_INZ in *.
  pose proof (rep_div prec emax _ _ F1 F2 ltac:(rewrite E2; lra)) as R1. rewrite E1, E2 in R1. exact R1.
Qed.
(** order does not matter for a median *)
Lemma rep_B2R (a b : bf) x : rep prec emax a x -> rep prec emax b x -> fle a b = true /\ fle b a = true.
Proof. intros H1 H2. split; eapply rep_unique; eassumption. Qed.
Lemma average_cong (x y x' y' : bf) : (1 < prec)%Z -> is_finite x = true -> is_finite y = true -> is_finite x' = true -> is_finite y' = true ->
  B2R x = B2R x' -> B2R y = B2R y' ->
  let r := fadd (fdiv x (f_of_Z 2)) (fdiv y (f_of_Z 2)) in let r' := fadd (fdiv x' (f_of_Z 2)) (fdiv y' (f_of_Z 2)) in
  fle r r' = true /\ fle r' r = true.
Proof.
  intros Hp F1 F2 F3 F4 E1 E2. cbv zeta. destruct (two_ok prec emax Hp) as [G EG].
  assert (Hd : forall z : bf, is_finite z = true -> is_finite (fdiv z (f_of_Z 2)) = true /\ B2R (fdiv z (f_of_Z 2)) = round radix2 (SpecFloat.fexp prec emax) ZnearestE (B2R z / 2)).
  { intros z Fz. pose proof (rep_div prec emax z (f_of_Z 2) Fz G ltac:(rewrite EG; lra)) as R1. rewrite EG in R1. unfold rep in R1.
    rewrite Rlt_bool_true in R1; [exact R1|].
    apply Rle_lt_trans with (Rabs (B2R z)); [|apply abs_B2R_lt_emax].
    rewrite <- (rnd_abs prec emax). rewrite <- (rnd_id prec emax (Rabs (B2R z))) by (apply generic_format_abs; apply generic_format_B2R).
    apply rnd_le; auto. unfold Rdiv. rewrite Rabs_mult, (Rabs_pos_eq (/ 2)) by lra. pose proof (Rabs_pos (B2R z)). lra. }
  destruct (Hd x F1) as [A1 A2], (Hd y F2) as [B1 B2], (Hd x' F3) as [C1 C2], (Hd y' F4) as [D1 D2].
  pose proof (rep_plus prec emax _ _ A1 B1) as R1. pose proof (rep_plus prec emax _ _ C1 D1) as R2.
  rewrite A2, B2, E1, E2 in R1. rewrite C2, D2 in R2. eapply rep_B2R; eassumption.
Qed.
End Fmt.
