(** Facts about rounded arithmetic, and the floating-point part of num_util.h. *)
From Coq Require Import ZArith Reals Psatz Bool.
From Flocq Require Import Core.Core IEEE754.BinarySingleNaN.
From Verif Require Import Base NumModel FloatModel.
Local Open Scope R_scope.

Section Fmt.
Context (prec emax : Z) {Hprec : Prec_gt_0 prec} {Hmax : Prec_lt_emax prec emax}.
Notation fexp := (SpecFloat.fexp prec emax).
Notation bf := (binary_float prec emax).
#[local] Instance fexp_valid : Valid_exp fexp := fexp_correct prec emax Hprec.
#[local] Instance fexp_mono : Monotone_exp fexp := fexp_monotone prec emax.
Notation rnd := (round radix2 fexp ZnearestE).
Notation format := (generic_format radix2 fexp).

(** [rep r x]: [r] is the correctly rounded result of an operation whose exact value is [x]. *)
Definition rep (r : bf) (x : R) : Prop :=
  if Rlt_bool (Rabs (rnd x)) (bpow radix2 emax)
  then is_finite r = true /\ B2R r = rnd x
  else r = B754_infinity (Rlt_bool x 0).

Lemma rnd_le x y : x <= y -> rnd x <= rnd y.
Proof. apply round_le; auto with typeclass_instances. Qed.
Lemma rnd_id x : format x -> rnd x = x.
Proof. apply round_generic; auto with typeclass_instances. Qed.
Lemma rnd_B2R (b : bf) : rnd (B2R b) = B2R b.
Proof. apply rnd_id, generic_format_B2R. Qed.
Lemma rnd_opp x : rnd (- x) = - rnd x.
Proof. apply round_NE_opp. Qed.
Lemma rnd_0 : rnd 0 = 0.
Proof. apply round_0; auto with typeclass_instances. Qed.
Lemma rnd_abs x : rnd (Rabs x) = Rabs (rnd x).
Proof. apply round_NE_abs. auto with typeclass_instances. Qed.
Lemma emax_format : format (bpow radix2 emax).
Proof.
  apply generic_format_bpow. unfold SpecFloat.fexp, SpecFloat.emin.
  unfold Prec_gt_0, Prec_lt_emax in *. lia.
Qed.

Lemma rep_finite (b : bf) : is_finite b = true -> rep b (B2R b).
Proof.
  intros Hb. unfold rep. rewrite rnd_B2R.
  rewrite Rlt_bool_true by apply abs_B2R_lt_emax. auto.
Qed.

Lemma B2SF_inf (r : bf) s : B2SF r = SpecFloat.S754_infinity s -> r = B754_infinity s.
Proof. destruct r; simpl; intros E; inversion E; auto. Qed.

Lemma Bsign_B2R (b : bf) : is_finite b = true ->
  (Bsign b = true -> B2R b <= 0) /\ (Bsign b = false -> 0 <= B2R b).
Proof.
  destruct b as [s|s| |s m e H]; simpl; intros Hf; try discriminate; split; intros Hs; subst; try lra.
  - apply F2R_le_0. simpl. lia.
  - apply F2R_ge_0. simpl. lia.
Qed.

Lemma rnd_nonzero_overflow x : ~ Rabs (rnd x) < bpow radix2 emax -> x <> 0.
Proof. intros H ->. apply H. rewrite rnd_0, Rabs_R0. apply bpow_gt_0. Qed.

Lemma rep_plus (a b : bf) : is_finite a = true -> is_finite b = true ->
  rep (fadd a b) (B2R a + B2R b).
Proof.
  intros Ha Hb. unfold rep, fadd. generalize (Bplus_correct prec emax _ _ mode_NE a b Ha Hb).
  change (round_mode mode_NE) with ZnearestE.
  destruct (Rlt_bool_spec (Rabs (rnd (B2R a + B2R b))) (bpow radix2 emax)) as [H|H]; intros E.
  - tauto.
  - destruct E as [E Es]. apply B2SF_inf in E. rewrite E. f_equal.
    assert (Hx : B2R a + B2R b <> 0) by (apply rnd_nonzero_overflow; lra).
    destruct (Bsign_B2R a Ha), (Bsign_B2R b Hb). rewrite <- Es in *.
    destruct (Bsign a); symmetry.
    + apply Rlt_bool_true. specialize (H0 eq_refl). specialize (H2 eq_refl). lra.
    + apply Rlt_bool_false. specialize (H1 eq_refl). specialize (H3 eq_refl). lra.
Qed.

Lemma rep_minus (a b : bf) : is_finite a = true -> is_finite b = true ->
  rep (fsub a b) (B2R a - B2R b).
Proof.
  intros Ha Hb. unfold rep, fsub. generalize (Bminus_correct prec emax _ _ mode_NE a b Ha Hb).
  change (round_mode mode_NE) with ZnearestE.
  destruct (Rlt_bool_spec (Rabs (rnd (B2R a - B2R b))) (bpow radix2 emax)) as [H|H]; intros E.
  - tauto.
  - destruct E as [E Es]. apply B2SF_inf in E. rewrite E. f_equal.
    assert (Hx : B2R a - B2R b <> 0) by (apply rnd_nonzero_overflow; lra).
    destruct (Bsign_B2R a Ha), (Bsign_B2R b Hb). rewrite Es in *.
    destruct (Bsign b); symmetry.
    + apply Rlt_bool_false. specialize (H1 eq_refl). specialize (H2 eq_refl). lra.
    + apply Rlt_bool_true. specialize (H0 eq_refl). specialize (H3 eq_refl). lra.
Qed.

Lemma sign_prod (a b : bf) : is_finite a = true -> is_finite b = true ->
  B2R a * B2R b <> 0 -> xorb (Bsign a) (Bsign b) = Rlt_bool (B2R a * B2R b) 0.
Proof.
  intros Ha Hb Hx. destruct (Bsign_B2R a Ha) as [A1 A2], (Bsign_B2R b Hb) as [B1 B2].
  symmetry. destruct (Bsign a), (Bsign b); simpl;
    [apply Rlt_bool_false | apply Rlt_bool_true | apply Rlt_bool_true | apply Rlt_bool_false];
    try specialize (A1 eq_refl); try specialize (A2 eq_refl);
    try specialize (B1 eq_refl); try specialize (B2 eq_refl); nra.
Qed.

Lemma rep_mult (a b : bf) : is_finite a = true -> is_finite b = true ->
  rep (fmul a b) (B2R a * B2R b).
Proof.
  intros Ha Hb. unfold rep, fmul. generalize (Bmult_correct prec emax _ _ mode_NE a b).
  change (round_mode mode_NE) with ZnearestE.
  destruct (Rlt_bool_spec (Rabs (rnd (B2R a * B2R b))) (bpow radix2 emax)) as [H|H]; intros E.
  - destruct E as (E1 & E2 & _). rewrite E2, Ha, Hb. auto.
  - apply B2SF_inf in E. rewrite E. f_equal. apply sign_prod; auto.
    apply rnd_nonzero_overflow; lra.
Qed.

Lemma rep_div (a b : bf) : is_finite a = true -> is_finite b = true -> B2R b <> 0 ->
  rep (fdiv a b) (B2R a / B2R b).
Proof.
  intros Ha Hb Hb0. unfold rep, fdiv. generalize (Bdiv_correct prec emax _ _ mode_NE a b Hb0).
  change (round_mode mode_NE) with ZnearestE.
  destruct (Rlt_bool_spec (Rabs (rnd (B2R a / B2R b))) (bpow radix2 emax)) as [H|H]; intros E.
  - destruct E as (E1 & E2 & _). rewrite E2, Ha. auto.
  - apply B2SF_inf in E. rewrite E. f_equal.
    assert (Hx : B2R a / B2R b <> 0) by (apply rnd_nonzero_overflow; lra).
    assert (Ha0 : B2R a <> 0) by (intros E'; apply Hx; rewrite E'; unfold Rdiv; ring).
    rewrite sign_prod by (auto; nra).
    unfold Rdiv. destruct (Rlt_bool_spec (B2R a * B2R b) 0) as [L|L]; symmetry;
      [apply Rlt_bool_true | apply Rlt_bool_false].
    + replace (B2R a * / B2R b) with (B2R a * B2R b * (/ B2R b * / B2R b)) by (field; auto).
      assert (0 < / B2R b * / B2R b) by (apply Rlt_0_sqr; now apply Rinv_neq_0_compat).
      nra.
    + replace (B2R a * / B2R b) with (B2R a * B2R b * (/ B2R b * / B2R b)) by (field; auto).
      assert (0 < / B2R b * / B2R b) by (apply Rlt_0_sqr; now apply Rinv_neq_0_compat).
      nra.
Qed.

Lemma rep_normalize m e s : rep (binary_normalize prec emax _ _ mode_NE m e s) (F2R (Float radix2 m e)).
Proof.
  unfold rep. generalize (binary_normalize_correct prec emax _ _ mode_NE m e s). cbv zeta.
  change (round_mode mode_NE) with ZnearestE.
  destruct (Rlt_bool_spec (Rabs (rnd (F2R (Float radix2 m e)))) (bpow radix2 emax)); intros E.
  - tauto.
  - apply B2SF_inf in E. exact E.
Qed.
Lemma rep_of_Z z : rep (f_of_Z z) (IZR z).
Proof.
  replace (IZR z) with (F2R (Float radix2 z 0)) by (unfold F2R; simpl; ring).
  apply rep_normalize.
Qed.

Lemma rep_abs r x : rep r x -> rep (f_abs r) (Rabs x).
Proof.
  unfold rep, f_abs. rewrite rnd_abs, Rabs_Rabsolu.
  destruct (Rlt_bool_spec (Rabs (rnd x)) (bpow radix2 emax)); intros E.
  - rewrite is_finite_Babs, B2R_Babs. destruct E as [E1 E2]. rewrite E2. auto.
  - rewrite E. simpl. rewrite Rlt_bool_false; auto. apply Rabs_pos.
Qed.

(** Comparison of rounded results *)
Lemma rep_fle r s x y : rep r x -> rep s y -> x <= y -> fle r s = true.
Proof.
  unfold rep, fle. intros Hr Hs Hxy. pose proof (rnd_le _ _ Hxy) as Hle.
  destruct (Rlt_bool_spec (Rabs (rnd x)) (bpow radix2 emax)) as [Lx|Lx];
  destruct (Rlt_bool_spec (Rabs (rnd y)) (bpow radix2 emax)) as [Ly|Ly].
  - destruct Hr as [Fr Er], Hs as [Fs Es]. rewrite Bleb_correct, Er, Es by auto.
    now apply Rle_bool_true.
  - destruct Hr as [Fr Er]. rewrite Hs.
    rewrite Rlt_bool_false.
    + destruct r; try discriminate; reflexivity.
    + destruct (Rle_or_lt 0 y) as [|Hy]; auto. exfalso.
      assert (rnd y <= 0) by (rewrite <- rnd_0; apply rnd_le; lra).
      rewrite (Rabs_left1 (rnd x)) in Lx by lra. rewrite (Rabs_left1 (rnd y)) in Ly by lra. lra.
  - destruct Hs as [Fs Es]. rewrite Hr.
    rewrite Rlt_bool_true.
    + destruct s; try discriminate; reflexivity.
    + destruct (Rlt_or_le x 0) as [|Hx]; auto. exfalso.
      assert (0 <= rnd x) by (rewrite <- rnd_0; apply rnd_le; lra).
      rewrite (Rabs_pos_eq (rnd x)) in Lx by lra. rewrite (Rabs_pos_eq (rnd y)) in Ly by lra. lra.
  - rewrite Hr, Hs. destruct (Rlt_bool_spec x 0), (Rlt_bool_spec y 0); try reflexivity. lra.
Qed.
Lemma rep_fle_inv r s x y : rep r x -> rep s y -> fle r s = true -> is_finite s = true ->
  rnd x <= rnd y.
Proof.
  unfold rep, fle. intros Hr Hs Hf Fs.
  destruct (Rlt_bool_spec (Rabs (rnd x)) (bpow radix2 emax)) as [Lx|Lx];
  destruct (Rlt_bool_spec (Rabs (rnd y)) (bpow radix2 emax)) as [Ly|Ly].
  - destruct Hr as [Fr Er], Hs as [_ Es]. rewrite Bleb_correct, Er, Es in Hf by auto.
    destruct (Rle_bool_spec (rnd x) (rnd y)); [auto|discriminate].
  - rewrite Hs in Fs. discriminate.
  - destruct Hs as [_ Es]. rewrite Hr in Hf.
    destruct (Rlt_bool_spec x 0) as [Hx|Hx].
    + assert (rnd x <= 0) by (rewrite <- rnd_0; apply rnd_le; lra).
      rewrite (Rabs_left1 (rnd x)) in Lx by lra.
      assert (- rnd y <= Rabs (rnd y)) by (rewrite <- Rabs_Ropp; apply Rle_abs). lra.
    + destruct s; discriminate.
  - rewrite Hs in Fs. discriminate.
Qed.
Lemma rep_unique r s x : rep r x -> rep s x -> fle r s = true.
Proof. intros. eapply rep_fle; eauto. lra. Qed.

Lemma flt_fle (a b : bf) : is_nan a = false -> is_nan b = false -> flt a b = negb (fle b a).
Proof.
  intros Ha Hb. unfold flt, fle, Bltb, Bleb, SpecFloat.SFltb, SpecFloat.SFleb.
  change (SpecFloat.SFcompare (B2SF a) (B2SF b)) with (Bcompare a b).
  change (SpecFloat.SFcompare (B2SF b) (B2SF a)) with (Bcompare b a).
  rewrite (Bcompare_swap _ _ b a).
  destruct (Bcompare b a) as [[]|] eqn:E; auto.
  exfalso. destruct a as [[]|[]| |[] ? ? ?], b as [[]|[]| |[] ? ? ?]; discriminate.
Qed.

(** ** within_abs *)
Lemma fle_nan_l (a b : bf) : is_nan a = true -> fle a b = false.
Proof. destruct a; try discriminate. reflexivity. Qed.
Lemma fle_nan_r (a b : bf) : is_nan b = true -> fle a b = false.
Proof. destruct b; try discriminate. destruct a as [|[]| |[]]; reflexivity. Qed.

Lemma feq_B2R (a b : bf) : is_finite a = true -> is_finite b = true ->
  flt a b = false -> flt b a = false -> B2R a = B2R b.
Proof.
  intros Ha Hb. unfold flt. rewrite !Bltb_correct by auto.
  intros H1 H2. destruct (Rlt_bool_spec (B2R a) (B2R b)), (Rlt_bool_spec (B2R b) (B2R a)); try discriminate. lra.
Qed.

Lemma flt_asym (a b : bf) : flt a b = true -> flt b a = false.
Proof.
  unfold flt, Bltb, SpecFloat.SFltb.
  change (SpecFloat.SFcompare (B2SF a) (B2SF b)) with (Bcompare a b).
  change (SpecFloat.SFcompare (B2SF b) (B2SF a)) with (Bcompare b a).
  rewrite (Bcompare_swap _ _ a b). destruct (Bcompare a b) as [[]|]; auto; discriminate.
Qed.

Lemma within_abs_f_sym (a b tol : bf) : within_abs_f a b tol = within_abs_f b a tol.
Proof.
  unfold within_abs_f. destruct (flt b a) eqn:E1, (flt a b) eqn:E2; auto.
  - apply flt_asym in E1. congruence.
  - destruct (is_finite a) eqn:Fa, (is_finite b) eqn:Fb.
    + assert (E : B2R a = B2R b) by (symmetry; apply feq_B2R; auto).
      destruct (is_finite (f_abs tol)) eqn:Ft.
      * set (t := f_abs tol) in *.
        apply eq_true_iff_eq.
        assert (HH : forall x y : bf, is_finite x = true -> is_finite y = true -> B2R x = B2R y ->
                 fle (fsub x t) y = true -> fle (fsub y t) x = true).
        { intros x y Fx Fy Exy H.
          pose proof (rep_minus x t Fx Ft) as R1. pose proof (rep_minus y t Fy Ft) as R2.
          pose proof (rep_finite x Fx) as R3. pose proof (rep_finite y Fy) as R4.
          pose proof (rep_fle_inv _ _ _ _ R1 R4 H Fy) as HH. rewrite rnd_B2R in HH.
          rewrite Exy in *. destruct (fle (fsub y t) x) eqn:G; auto. exfalso.
          revert G. unfold rep in R2, R3. rewrite rnd_B2R in R3.
          destruct (Rlt_bool_spec (Rabs (rnd (B2R y - B2R t))) (bpow radix2 emax)) as [L|L].
          - destruct R2 as [Fm Em]. unfold fle. rewrite Bleb_correct by auto.
            rewrite Em, Exy. rewrite Rle_bool_true by auto. discriminate.
          - rewrite R2. rewrite Rlt_bool_true.
            + destruct x; try discriminate Fx; discriminate.
            + destruct (Rlt_or_le (B2R y - B2R t) 0) as [|Hge]; auto. exfalso.
              assert (0 <= rnd (B2R y - B2R t)) by (rewrite <- rnd_0; now apply rnd_le).
              rewrite Rabs_pos_eq in L by auto.
              pose proof (abs_B2R_lt_emax prec emax y). pose proof (Rle_abs (B2R y)). lra. }
        split; apply HH; auto.
      * (* the tolerance is infinite or NaN *)
        destruct tol as [|s| |]; try discriminate Ft; simpl;
          destruct a as [|[]| |[]]; try discriminate Fa; destruct b as [|[]| |[]]; try discriminate Fb; reflexivity.
    + destruct a as [|[]| |[]]; try discriminate Fa;
      destruct b as [[]|[]| |[]]; try discriminate Fb; try discriminate E1; try discriminate E2;
      try reflexivity; first
        [ transitivity false; [|symmetry]; first [apply fle_nan_l; reflexivity | apply fle_nan_r; reflexivity]
        | destruct (f_abs tol); reflexivity ].
    + destruct b as [|[]| |[]]; try discriminate Fb;
      destruct a as [[]|[]| |[]]; try discriminate Fa; try discriminate E1; try discriminate E2;
      try reflexivity; first
        [ transitivity false; [|symmetry]; first [apply fle_nan_l; reflexivity | apply fle_nan_r; reflexivity]
        | destruct (f_abs tol); reflexivity ].
    + destruct a as [|[]| |[]]; try discriminate Fa;
      destruct b as [|[]| |[]]; try discriminate Fb; try discriminate E1; try discriminate E2;
      try reflexivity; first
        [ transitivity false; [|symmetry]; first [apply fle_nan_l; reflexivity | apply fle_nan_r; reflexivity]
        | destruct (f_abs tol); reflexivity ].
Qed.

(** Exact description for finite operands *)
Lemma rep_fle_iff r b x : rep r x -> is_finite b = true -> (fle r b = true <-> rnd x <= B2R b).
Proof.
  intros Hr Fb. pose proof (rep_finite b Fb) as Rb. split.
  - intros H. pose proof (rep_fle_inv _ _ _ _ Hr Rb H Fb) as HH. now rewrite rnd_B2R in HH.
  - intros H. unfold rep in Hr.
    destruct (Rlt_bool_spec (Rabs (rnd x)) (bpow radix2 emax)) as [L|L].
    + destruct Hr as [Fr Er]. unfold fle. rewrite Bleb_correct, Er by auto. now apply Rle_bool_true.
    + rewrite Hr, Rlt_bool_true.
      * destruct b; try discriminate Fb; reflexivity.
      * destruct (Rlt_or_le x 0) as [|Hge]; auto. exfalso.
        assert (0 <= rnd x) by (rewrite <- rnd_0; now apply rnd_le).
        rewrite Rabs_pos_eq in L by auto.
        pose proof (abs_B2R_lt_emax prec emax b). pose proof (Rle_abs (B2R b)). lra.
Qed.

Lemma within_abs_f_finite (a b tol : bf) :
  is_finite a = true -> is_finite b = true -> is_finite tol = true ->
  (within_abs_f a b tol = true <->
   rnd (Rmax (B2R a) (B2R b) - Rabs (B2R tol)) <= Rmin (B2R a) (B2R b)).
Proof.
  intros Fa Fb Ft. assert (Ft' : is_finite (f_abs tol) = true) by (unfold f_abs; now rewrite is_finite_Babs).
  assert (Et : B2R (f_abs tol) = Rabs (B2R tol)) by apply B2R_Babs.
  unfold within_abs_f. unfold flt. rewrite Bltb_correct by auto.
  destruct (Rlt_bool_spec (B2R b) (B2R a)) as [L|L].
  - rewrite Rmax_left, Rmin_right by lra. rewrite <- Et. apply rep_fle_iff; auto. now apply rep_minus.
  - rewrite Rmax_right, Rmin_left by lra. rewrite <- Et. apply rep_fle_iff; auto. now apply rep_minus.
Qed.

Lemma Rabs_max_min x y : Rabs (x - y) = Rmax x y - Rmin x y.
Proof. unfold Rmax, Rmin, Rabs. destruct (Rle_dec x y), (Rcase_abs (x - y)); lra. Qed.

Lemma Rmin_format x y : format x -> format y -> format (Rmin x y).
Proof. unfold Rmin. destruct (Rle_dec x y); auto. Qed.

Lemma within_abs_f_complete (a b tol : bf) :
  is_finite a = true -> is_finite b = true -> is_finite tol = true ->
  Rabs (B2R a - B2R b) <= Rabs (B2R tol) -> within_abs_f a b tol = true.
Proof.
  intros Fa Fb Ft H. apply within_abs_f_finite; auto. rewrite Rabs_max_min in H.
  rewrite <- (rnd_id (Rmin (B2R a) (B2R b))) by (apply Rmin_format; apply generic_format_B2R).
  apply rnd_le. lra.
Qed.

Lemma succ_le_ulp x : succ radix2 fexp x <= x + ulp radix2 fexp x.
Proof.
  apply succ_le_plus_ulp; auto with typeclass_instances.
Qed.

Lemma within_abs_f_sound (a b tol : bf) :
  is_finite a = true -> is_finite b = true -> is_finite tol = true ->
  within_abs_f a b tol = true ->
  Rabs (B2R a - B2R b) < Rabs (B2R tol) + ulp radix2 fexp (Rmin (B2R a) (B2R b)).
Proof.
  intros Fa Fb Ft H. apply within_abs_f_finite in H; auto. rewrite Rabs_max_min.
  set (m := Rmin (B2R a) (B2R b)) in *. set (x := Rmax (B2R a) (B2R b) - Rabs (B2R tol)) in *.
  assert (Fm : format m) by (apply Rmin_format; apply generic_format_B2R).
  enough (x < m + ulp radix2 fexp m) by (unfold x in *; lra).
  apply Rlt_le_trans with (2 := succ_le_ulp m).
  destruct (Rlt_or_le x (succ radix2 fexp m)) as [|Hge]; auto. exfalso.
  apply rnd_le in Hge. rewrite (rnd_id (succ radix2 fexp m)) in Hge
    by (apply generic_format_succ; auto with typeclass_instances).
  destruct (Req_dec m 0) as [E|E].
  - rewrite E, succ_0 in Hge.
    pose proof (bpow_gt_0 radix2 (SpecFloat.emin prec emax)) as Hpos.
    assert (ulp radix2 fexp 0 = bpow radix2 (SpecFloat.emin prec emax)) as Eu.
    { change fexp with (FLT_exp (SpecFloat.emin prec emax) prec). apply ulp_FLT_0. auto. }
    lra.
  - pose proof (succ_gt_id radix2 fexp m E). lra.
Qed.

(** ** within_ulp and within_orders *)
Lemma rep_eq r s x : rep r x -> rep s x -> Bsign r = Bsign s -> r = s.
Proof.
  unfold rep. destruct (Rlt_bool (Rabs (rnd x)) (bpow radix2 emax)).
  - intros [F1 E1] [F2 E2] Hs. apply B2R_Bsign_inj; auto. congruence.
  - intros; congruence.
Qed.

Lemma abs_fsub_sym (a b : bf) : f_abs (fsub a b) = f_abs (fsub b a).
Proof.
  destruct (is_finite a) eqn:Fa, (is_finite b) eqn:Fb.
  - apply (rep_eq _ _ (Rabs (B2R a - B2R b))).
    + now apply rep_abs, rep_minus.
    + rewrite Rabs_minus_sym. now apply rep_abs, rep_minus.
    + unfold f_abs. now rewrite !Bsign_Babs.
  - destruct a as [[]|[]| |[]], b as [[]|[]| |[]]; try discriminate; reflexivity.
  - destruct a as [[]|[]| |[]], b as [[]|[]| |[]]; try discriminate; reflexivity.
  - destruct a as [[]|[]| |[]], b as [[]|[]| |[]]; try discriminate; reflexivity.
Qed.

Lemma feq_sym (a b : bf) : feq a b = feq b a.
Proof.
  unfold feq, Beqb, SpecFloat.SFeqb.
  change (SpecFloat.SFcompare (B2SF a) (B2SF b)) with (Bcompare a b).
  change (SpecFloat.SFcompare (B2SF b) (B2SF a)) with (Bcompare b a).
  rewrite (Bcompare_swap _ _ b a). destruct (Bcompare b a) as [[]|]; auto.
Qed.

Lemma max_abs_sym (a b : bf) : is_nan a = false -> is_nan b = false ->
  std_max flt (f_abs a) (f_abs b) = std_max flt (f_abs b) (f_abs a).
Proof.
  intros Na Nb. unfold std_max.
  destruct (flt (f_abs a) (f_abs b)) eqn:E1, (flt (f_abs b) (f_abs a)) eqn:E2; auto.
  - apply flt_asym in E1. congruence.
  - destruct (is_finite a) eqn:Fa, (is_finite b) eqn:Fb.
    + apply B2R_Bsign_inj; unfold f_abs in *; rewrite ?is_finite_Babs, ?Bsign_Babs; auto.
      symmetry in E1. apply feq_B2R; rewrite ?is_finite_Babs; auto.
    + destruct a as [[]|[]| |[]], b as [[]|[]| |[]]; try discriminate.
    + destruct a as [[]|[]| |[]], b as [[]|[]| |[]]; try discriminate.
    + destruct a as [[]|[]| |[]], b as [[]|[]| |[]]; try discriminate; reflexivity.
Qed.

Lemma feq_nan (a b : bf) : is_nan a = true \/ is_nan b = true -> feq a b = false.
Proof. intros [H|H]; destruct a as [[]|[]| |[]], b as [[]|[]| |[]]; try discriminate; reflexivity. Qed.
Lemma fsub_nan (a b : bf) : is_nan a = true \/ is_nan b = true -> fsub a b = B754_nan.
Proof. intros [H|H]; destruct a as [[]|[]| |[]], b as [[]|[]| |[]]; try discriminate; reflexivity. Qed.
Lemma flt_nan_l (b : bf) : flt B754_nan b = false.
Proof. reflexivity. Qed.

Lemma within_ulp_nan (a b : bf) n : is_nan a = true \/ is_nan b = true -> within_ulp a b n = false.
Proof.
  intros H. unfold within_ulp. rewrite feq_nan, fsub_nan by auto.
  change (f_abs (B754_nan : bf)) with (B754_nan : bf).
  rewrite !fle_nan_l by reflexivity.
  destruct (f_isnormal (std_max flt (f_abs a) (f_abs b))), (f_isfinite (std_max flt (f_abs a) (f_abs b))); reflexivity.
Qed.
Lemma within_ulp_sym (a b : bf) n : within_ulp a b n = within_ulp b a n.
Proof.
  destruct (is_nan a) eqn:Na; [rewrite !within_ulp_nan by auto; reflexivity|].
  destruct (is_nan b) eqn:Nb; [rewrite !within_ulp_nan by auto; reflexivity|].
  unfold within_ulp. rewrite (feq_sym a b), (abs_fsub_sym a b), (max_abs_sym a b) by auto. reflexivity.
Qed.
Lemma within_ulp_refl (a : bf) n : is_nan a = false -> within_ulp a a n = true.
Proof. intros H. unfold within_ulp, feq. rewrite Beqb_refl, H. reflexivity. Qed.
Lemma within_ulp_inf (a b : bf) n : is_finite a = false -> feq a b = false -> within_ulp a b n = false.
Proof.
  intros Fa E. destruct (is_nan a) eqn:Na; [now apply within_ulp_nan; auto|].
  destruct (is_nan b) eqn:Nb; [now apply within_ulp_nan; auto|].
  unfold within_ulp. rewrite E.
  destruct a as [[]|[]| |[]]; try discriminate;
  destruct b as [[]|[]| |[]]; try discriminate; reflexivity.
Qed.

Lemma within_orders_nan (a b p : bf) : is_nan a = true \/ is_nan b = true -> within_orders_f a b p = false.
Proof.
  intros H. unfold within_orders_f. rewrite fsub_nan by auto.
  change (f_abs (B754_nan : bf)) with (B754_nan : bf).
  rewrite feq_nan by auto. reflexivity.
Qed.
Lemma within_orders_sym (a b p : bf) : within_orders_f a b p = within_orders_f b a p.
Proof.
  destruct (is_nan a) eqn:Na; [rewrite !within_orders_nan by auto; reflexivity|].
  destruct (is_nan b) eqn:Nb; [rewrite !within_orders_nan by auto; reflexivity|].
  unfold within_orders_f. rewrite (abs_fsub_sym a b), (max_abs_sym a b) by auto. reflexivity.
Qed.

Notation emin := (SpecFloat.emin prec emax).
Lemma emin_eq : emin = (3 - emax - prec)%Z.
Proof. reflexivity. Qed.
Notation ulpf := (ulp radix2 fexp).

Lemma rep_exact r x : rep r x -> format x -> Rabs x < bpow radix2 emax -> is_finite r = true /\ B2R r = x.
Proof. unfold rep. intros H Hf Hx. rewrite (rnd_id x Hf) in H. now rewrite Rlt_bool_true in H. Qed.

Lemma format_F2R m e : (Z.abs m < 2 ^ prec)%Z -> (emin <= e)%Z -> format (F2R (Float radix2 m e)).
Proof.
  intros Hm He. change fexp with (FLT_exp emin prec). apply generic_format_FLT.
  now exists (Float radix2 m e).
Qed.
Lemma IZR_F2R n e : IZR n * bpow radix2 e = F2R (Float radix2 n e).
Proof. reflexivity. Qed.

(** The product n * 2^e of a small integer and a power of two is exact. *)
Lemma small_exact r n e : rep r (IZR n * bpow radix2 e) -> (0 <= n < 2 ^ prec)%Z ->
  (emin <= e)%Z -> (e + prec <= emax)%Z ->
  is_finite r = true /\ B2R r = IZR n * bpow radix2 e.
Proof.
  intros H Hn He He2. apply rep_exact; auto.
  - rewrite IZR_F2R. apply format_F2R; auto. rewrite Z.abs_eq; lia.
  - assert (Hb := bpow_gt_0 radix2 e).
    assert (0 <= IZR n) by (apply (IZR_le 0); lia).
    rewrite Rabs_pos_eq by nra.
    assert (IZR n < bpow radix2 prec).
    { change (bpow radix2 prec) with (bpow radix2 prec). rewrite <- IZR_Zpower by (unfold Prec_gt_0 in *; lia).
      apply IZR_lt. apply Hn. }
    apply Rlt_le_trans with (bpow radix2 prec * bpow radix2 e); [nra|].
    rewrite <- bpow_plus. apply bpow_le. lia.
Qed.

Lemma of_Z_small n : (0 <= n < 2 ^ prec)%Z -> is_finite (f_of_Z n : bf) = true /\ B2R (f_of_Z n : bf) = IZR n.
Proof.
  intros Hn. pose proof (rep_of_Z n) as H. replace (IZR n) with (IZR n * bpow radix2 0) in * by (simpl; ring).
  apply small_exact; auto; rewrite ?emin_eq; unfold Prec_gt_0, Prec_lt_emax in *; lia.
Qed.
Lemma epsilon_val : (1 < prec)%Z -> is_finite (f_epsilon : bf) = true /\ B2R (f_epsilon : bf) = bpow radix2 (1 - prec).
Proof.
  intros H1. pose proof (rep_normalize 1 (1 - prec) false) as H. unfold Prec_gt_0, Prec_lt_emax in *.
  rewrite <- IZR_F2R in H. replace (bpow radix2 (1 - prec)) with (1 * bpow radix2 (1 - prec)) by ring.
  apply (small_exact _ 1); auto; rewrite ?emin_eq; try lia.
  split; [lia|]. apply Z.pow_gt_1; lia.
Qed.
Lemma denorm_val : (1 < prec)%Z -> is_finite (f_denorm_min : bf) = true /\ B2R (f_denorm_min : bf) = bpow radix2 emin.
Proof.
  intros H1. pose proof (rep_normalize 1 (3 - emax - prec) false) as H. unfold Prec_gt_0, Prec_lt_emax in *.
  rewrite <- IZR_F2R in H. rewrite emin_eq.
  replace (bpow radix2 (3 - emax - prec)) with (1 * bpow radix2 (3 - emax - prec)) by ring.
  apply (small_exact _ 1); auto; rewrite ?emin_eq; try lia.
  split; [lia|]. apply Z.pow_gt_1; lia.
Qed.

(** Sizes of normal and subnormal values *)
Lemma normal_ge (x : bf) : f_isnormal x = true -> bpow radix2 (emin + prec - 1) <= Rabs (B2R x).
Proof.
  destruct x as [|[]| |s m e H]; try discriminate. cbn [f_isnormal B2R]. intros E. apply Z.eqb_eq in E.
  rewrite <- F2R_Zabs. rewrite abs_cond_Zopp. simpl.
  rewrite Digits.Zpos_digits2_pos in E.
  assert (Hd : (2 ^ (prec - 1) <= Zpos m)%Z).
  { pose proof (Digits.Zdigits_correct radix2 (Zpos m)) as [Hd _]. rewrite E in Hd. exact Hd. }
  apply andb_prop in H. destruct H as [H _]. apply Zeq_bool_eq in H.
  unfold SpecFloat.fexp in H.
  assert (He : (emin <= e)%Z) by lia.
  unfold F2R. simpl. replace (emin + prec - 1)%Z with ((prec - 1) + emin)%Z by ring.
  rewrite bpow_plus. apply Rmult_le_compat; try apply bpow_ge_0.
  - rewrite <- IZR_Zpower by (unfold Prec_gt_0 in *; lia). apply IZR_le. exact Hd.
  - now apply bpow_le.
Qed.
Lemma subnormal_lt (x : bf) : f_isnormal x = false -> is_finite x = true ->
  Rabs (B2R x) < bpow radix2 (emin + prec).
Proof.
  destruct x as [|[]| |s m e H]; try discriminate; cbn [f_isnormal B2R]; intros E _.
  - rewrite Rabs_R0. apply bpow_gt_0.
  - apply Z.eqb_neq in E. rewrite <- F2R_Zabs, abs_cond_Zopp. cbn [Z.abs].
    apply andb_prop in H. destruct H as [H _]. apply Zeq_bool_eq in H. unfold SpecFloat.fexp in H.
    rewrite Digits.Zpos_digits2_pos in *.
    assert (He : e = emin) by lia. subst e. assert (Hd : (Digits.Zdigits radix2 (Zpos m) <= prec)%Z) by lia.
    apply Rlt_le_trans with (bpow radix2 (Digits.Zdigits radix2 (Zpos m) + emin)).
    + pose proof (Digits.Zdigits_correct radix2 (Zpos m)) as [_ Hd']. unfold F2R. cbn [Fnum Fexp].
      rewrite bpow_plus. apply Rmult_lt_compat_r; [apply bpow_gt_0|].
      rewrite <- IZR_Zpower by apply Digits.Zdigits_ge_0. apply IZR_lt. exact Hd'.
    + apply bpow_le. lia.
Qed.

Lemma max_abs_val (a b : bf) : is_finite a = true -> is_finite b = true ->
  let M := std_max flt (f_abs a) (f_abs b) in
  is_finite M = true /\ B2R M = Rmax (Rabs (B2R a)) (Rabs (B2R b)).
Proof.
  intros Fa Fb M. unfold M, std_max, flt, f_abs. rewrite Bltb_correct by (now rewrite is_finite_Babs).
  rewrite !B2R_Babs. destruct (Rlt_bool_spec (Rabs (B2R a)) (Rabs (B2R b))).
  - rewrite is_finite_Babs, B2R_Babs, Rmax_right by lra. auto.
  - rewrite is_finite_Babs, B2R_Babs, Rmax_left by lra. auto.
Qed.

(** The right-hand side of the comparison made by within_ulp *)
Definition ulp_limit (M : bf) (n : Z) : bf :=
  if f_isnormal M then fmul (fmul f_epsilon (f_of_Z n)) M else fmul f_denorm_min (f_of_Z n).
Lemma ulp_limit_rep (M : bf) n : (1 < prec)%Z -> is_finite M = true -> 0 <= B2R M ->
  (0 <= n < 2 ^ prec)%Z ->
  exists y, rep (ulp_limit M n) y /\ IZR n * ulpf (B2R M) <= y /\ y <= 2 * IZR n * ulpf (B2R M) /\
            ((n <= 2 ^ (prec - 2))%Z -> is_finite (ulp_limit M n) = true).
Proof.
  intros Hp FM HM Hn. unfold ulp_limit. destruct (of_Z_small n Hn) as [Fn En].
  assert (HP1 : (0 < prec)%Z) by exact Hprec. assert (HP2 : (prec < emax)%Z) by exact Hmax.
  assert (Hn0 : 0 <= IZR n) by (apply (IZR_le 0); lia).
  destruct (f_isnormal M) eqn:E.
  - destruct (epsilon_val Hp) as [Fe Ee].
    pose proof (rep_mult f_epsilon (f_of_Z n) Fe Fn) as R1. rewrite Ee, En, Rmult_comm in R1.
    apply small_exact in R1; auto; try (rewrite ?emin_eq; lia). destruct R1 as [F1 E1].
    pose proof (rep_mult _ M F1 FM) as R2. rewrite E1 in R2.
    exists (IZR n * bpow radix2 (1 - prec) * B2R M). split; auto.
    apply normal_ge in E. rewrite Rabs_pos_eq in E by auto.
    pose proof (ulp_FLT_le radix2 emin prec (B2R M)) as U1.
    rewrite Rabs_pos_eq in U1 by auto. replace (emin + prec - 1)%Z with (emin + (prec - 1))%Z in E by ring.
    specialize (U1 ltac:(replace (emin + prec - 1)%Z with (emin + (prec - 1))%Z by ring; auto)).
    change (FLT_exp emin prec) with fexp in U1.
    pose proof (ulp_FLT_gt radix2 emin prec (B2R M)) as U2.
    rewrite Rabs_pos_eq in U2 by auto. change (FLT_exp emin prec) with fexp in U2.
    assert (Eb : bpow radix2 (1 - prec) = 2 * bpow radix2 (- prec)) by (replace (1 - prec)%Z with (1 + - prec)%Z by ring; now rewrite bpow_plus).
    pose proof (bpow_gt_0 radix2 (1 - prec)) as Hb.
    repeat split.
    + rewrite Rmult_assoc. apply Rmult_le_compat_l; auto. lra.
    + rewrite Eb. rewrite (Rmult_comm 2 (IZR n)), !Rmult_assoc. apply Rmult_le_compat_l; auto. lra.
    + intros Hs. unfold rep in R2.
      assert (Hle : IZR n * bpow radix2 (1 - prec) * B2R M <= B2R M).
      { assert (IZR n * bpow radix2 (1 - prec) <= 1); [|nra].
        apply Rle_trans with (bpow radix2 (prec - 2) * bpow radix2 (1 - prec)).
        - apply Rmult_le_compat_r; [lra|]. rewrite <- IZR_Zpower by lia. apply IZR_le. exact Hs.
        - rewrite <- bpow_plus. replace (prec - 2 + (1 - prec))%Z with (-1)%Z by ring. simpl. lra. }
      rewrite Rlt_bool_true in R2; [tauto|].
      assert (0 <= IZR n * bpow radix2 (1 - prec) * B2R M) by (apply Rmult_le_pos; auto; apply Rmult_le_pos; auto; lra).
      rewrite <- rnd_abs, Rabs_pos_eq by auto. apply rnd_le in Hle. rewrite rnd_B2R in Hle.
      pose proof (abs_B2R_lt_emax prec emax M). pose proof (Rle_abs (B2R M)). lra.
  - destruct (denorm_val Hp) as [Fd Ed].
    pose proof (rep_mult f_denorm_min (f_of_Z n) Fd Fn) as R1. rewrite Ed, En, Rmult_comm in R1.
    exists (IZR n * bpow radix2 emin). split; auto.
    pose proof (subnormal_lt M E FM) as S.
    assert (U : ulpf (B2R M) = bpow radix2 emin).
    { change fexp with (FLT_exp emin prec). apply ulp_FLT_small; auto. }
    rewrite U. pose proof (bpow_gt_0 radix2 emin).
    assert (0 <= IZR n * bpow radix2 emin) by (apply Rmult_le_pos; auto; lra).
    repeat split; try lra. intros _.
    apply small_exact in R1; auto; try (rewrite ?emin_eq; lia). tauto.
Qed.

Lemma feq_B2R_eq (a b : bf) : is_finite a = true -> is_finite b = true -> feq a b = Req_bool (B2R a) (B2R b).
Proof. intros. now apply Beqb_correct. Qed.

Lemma within_ulp_unfold (a b : bf) n : is_finite a = true -> is_finite b = true -> B2R a <> B2R b ->
  within_ulp a b n = fle (f_abs (fsub a b)) (ulp_limit (std_max flt (f_abs a) (f_abs b)) n).
Proof.
  intros Fa Fb Hne. unfold within_ulp, ulp_limit. rewrite feq_B2R_eq by auto.
  rewrite Req_bool_false by auto.
  destruct (max_abs_val a b Fa Fb) as [FM _].
  destruct (f_isnormal (std_max flt (f_abs a) (f_abs b))); auto. unfold f_isfinite. now rewrite FM.
Qed.

Lemma within_ulp_complete (a b : bf) n : (1 < prec)%Z -> is_finite a = true -> is_finite b = true ->
  (0 <= n < 2 ^ prec)%Z ->
  Rabs (B2R a - B2R b) <= IZR n * ulpf (Rmax (Rabs (B2R a)) (Rabs (B2R b))) ->
  within_ulp a b n = true.
Proof.
  intros Hp Fa Fb Hn H. destruct (Req_dec (B2R a) (B2R b)) as [E|E].
  - unfold within_ulp. rewrite feq_B2R_eq, Req_bool_true by auto. reflexivity.
  - rewrite within_ulp_unfold by auto. destruct (max_abs_val a b Fa Fb) as [FM EM].
    destruct (ulp_limit_rep (std_max flt (f_abs a) (f_abs b)) n Hp FM) as (y & R & Hy & _); auto.
    { rewrite EM. apply Rle_trans with (Rabs (B2R a)); [apply Rabs_pos | apply Rmax_l]. }
    rewrite EM in Hy.
    eapply rep_fle; [apply rep_abs, rep_minus; auto | exact R | lra].
Qed.

Lemma ulp_pow x : x <> 0 -> exists e, (emin <= e)%Z /\ ulpf x = bpow radix2 e.
Proof.
  intros Hx. rewrite ulp_neq_0 by auto. exists (cexp radix2 fexp x). split; auto.
  unfold cexp, SpecFloat.fexp. lia.
Qed.

Lemma within_ulp_sound (a b : bf) n : (2 < prec)%Z -> is_finite a = true -> is_finite b = true ->
  (0 <= n <= 2 ^ (prec - 2))%Z -> within_ulp a b n = true ->
  Rabs (B2R a - B2R b) < (2 * IZR n + 1) * ulpf (Rmax (Rabs (B2R a)) (Rabs (B2R b))).
Proof.
  intros Hp Fa Fb Hn H.
  set (M := Rmax (Rabs (B2R a)) (Rabs (B2R b))).
  assert (Hn0 : 0 <= IZR n) by (apply (IZR_le 0); lia).
  destruct (Req_dec (B2R a) (B2R b)) as [E|E].
  - rewrite E, Rminus_diag_eq, Rabs_R0 by auto.
    assert (0 < ulpf M).
    { destruct (Req_dec M 0) as [->|HM].
      - change fexp with (FLT_exp emin prec). rewrite ulp_FLT_0 by auto. apply bpow_gt_0.
      - destruct (ulp_pow M HM) as (e & _ & ->). apply bpow_gt_0. }
    nra.
  - rewrite within_ulp_unfold in H by auto. destruct (max_abs_val a b Fa Fb) as [FM EM].
    assert (Hpow : (2 ^ prec = 4 * 2 ^ (prec - 2))%Z).
    { replace prec with (2 + (prec - 2))%Z at 1 by ring. rewrite Z.pow_add_r by lia. reflexivity. }
    assert (Hpow1 : (2 <= 2 ^ (prec - 2))%Z).
    { replace (prec - 2)%Z with (1 + (prec - 3))%Z by ring. rewrite Z.pow_add_r by lia.
      assert (0 < 2 ^ (prec - 3))%Z by lia. lia. }
    assert (HM0 : M <> 0).
    { intros HM. apply E. assert (Rabs (B2R a) <= 0) by (rewrite <- HM; apply Rmax_l).
      assert (Rabs (B2R b) <= 0) by (rewrite <- HM; apply Rmax_r).
      unfold Rabs in *. destruct (Rcase_abs (B2R a)), (Rcase_abs (B2R b)); lra. }
    destruct (ulp_limit_rep (std_max flt (f_abs a) (f_abs b)) n) as (y & R & _ & Hy & Hfin); auto; try lia.
    { rewrite EM. apply Rle_trans with (Rabs (B2R a)); [apply Rabs_pos | apply Rmax_l]. }
    rewrite EM in Hy. fold M in Hy.
    pose proof (rep_fle_inv _ _ _ _ (rep_abs _ _ (rep_minus a b Fa Fb)) R H (Hfin ltac:(lia))) as HL.
    destruct (ulp_pow M HM0) as (e & He & EU). rewrite EU in *.
    assert (F1 : format (2 * IZR n * bpow radix2 e)).
    { replace (2 * IZR n * bpow radix2 e) with (F2R (Float radix2 (2 * n) e)) by (unfold F2R; cbn [Fnum Fexp]; now rewrite mult_IZR).
      apply format_F2R; auto. lia. }
    assert (F2 : format ((2 * IZR n + 1) * bpow radix2 e)).
    { replace ((2 * IZR n + 1) * bpow radix2 e) with (F2R (Float radix2 (2 * n + 1) e))
        by (unfold F2R; cbn [Fnum Fexp]; now rewrite plus_IZR, mult_IZR).
      apply format_F2R; auto. lia. }
    apply rnd_le in Hy. rewrite (rnd_id _ F1) in Hy.
    destruct (Rlt_or_le (Rabs (B2R a - B2R b)) ((2 * IZR n + 1) * bpow radix2 e)) as [|Hge]; auto.
    apply rnd_le in Hge. rewrite (rnd_id _ F2) in Hge.
    pose proof (bpow_gt_0 radix2 e). lra.
Qed.

(** A non-zero number is never within orders of zero. *)
Lemma within_orders_zero (z b p : bf) : is_finite z = true -> B2R z = 0 -> is_finite b = true ->
  B2R b <> 0 -> is_finite p = true -> 1 <= B2R p -> within_orders_f z b p = false.
Proof.
  intros Fz Ez Fb Eb Fp Hp. unfold within_orders_f.
  pose proof (rep_abs _ _ (rep_minus z b Fz Fb)) as RD. rewrite Ez, Rminus_0_l, Rabs_Ropp in RD.
  apply rep_exact in RD.
  2:{ apply generic_format_abs, generic_format_B2R. }
  2:{ rewrite Rabs_Rabsolu. apply abs_B2R_lt_emax. }
  destruct RD as [FD ED].
  assert (Hb : 0 < Rabs (B2R b)) by now apply Rabs_pos_lt.
  destruct (of_Z_small 0) as [F0 E0]; [split; [lia|]; apply Z.pow_pos_nonneg; [lia|]; unfold Prec_gt_0 in *; lia|].
  rewrite feq_B2R_eq, ED, E0 by auto. rewrite Req_bool_false by lra.
  destruct (max_abs_val z b Fz Fb) as [FM EM]. rewrite Ez, Rabs_R0, Rmax_right in EM by lra.
  pose proof (rep_div _ p FM Fp ltac:(lra)) as RL. rewrite EM in RL.
  assert (Hq : 0 <= Rabs (B2R b) / B2R p <= Rabs (B2R b)).
  { split.
    - apply Rle_mult_inv_pos; lra.
    - unfold Rdiv. rewrite <- (Rmult_1_r (Rabs (B2R b))) at 2. apply Rmult_le_compat_l; [lra|].
      rewrite <- Rinv_1. apply Rinv_le; lra. }
  assert (HL : fle (fdiv (std_max flt (f_abs z) (f_abs b)) p) (f_abs (fsub z b)) = true).
  { eapply rep_fle; [exact RL | apply rep_finite; exact FD | rewrite ED; lra]. }
  assert (N1 : is_nan (f_abs (fsub z b)) = false) by (destruct (f_abs (fsub z b)); auto; discriminate).
  rewrite flt_fle; auto.
  - rewrite HL. reflexivity.
  - destruct (fdiv _ p) as [| | |] eqn:E; auto.
Qed.
End Fmt.
