(** Properties C28 and C29 for floating-point types.  The theorems hold for every IEEE binary
    format with at least 3 bits of precision, in particular float (24, 128) and double
    (53, 1024).  [B2R] is the real number denoted by a finite value, [is_finite] excludes
    infinities and NaN, and [ulp radix2 fexp x] is the spacing of the format at x (all from
    Flocq). *)
From Coq Require Import ZArith Reals Psatz Bool.
From Flocq Require Import Core.Core IEEE754.BinarySingleNaN.
From Verif Require Import Base IntModel IntProofs NumModel NumProofs NumProps FloatModel FloatProofs.
Local Open Scope R_scope.

Section Fmt.
Context (prec emax : Z) {Hprec : Prec_gt_0 prec} {Hmax : Prec_lt_emax prec emax}.
Notation bf := (binary_float prec emax).
Notation ulpf := (ulp radix2 (SpecFloat.fexp prec emax)).

(** ** C28: clamp on floating-point values *)
Theorem C28_clamp_float : forall v lo hi : bf,
  is_finite v = true -> is_finite lo = true -> is_finite hi = true -> B2R lo <= B2R hi ->
  B2R (clamp flt v lo hi) = Rmax (B2R lo) (Rmin (B2R v) (B2R hi)).
Proof.
  intros v lo hi Fv Fl Fh H. unfold clamp, std_max, std_min, flt.
  rewrite (Bltb_correct _ _ hi v) by auto.
  destruct (Rlt_bool_spec (B2R hi) (B2R v)) as [L|L].
  - rewrite (Bltb_correct _ _ lo hi) by auto. rewrite Rmin_right by lra.
    destruct (Rlt_bool_spec (B2R lo) (B2R hi)); [rewrite Rmax_right by lra | rewrite Rmax_left by lra]; auto.
  - rewrite (Bltb_correct _ _ lo v) by auto. rewrite Rmin_left by lra.
    destruct (Rlt_bool_spec (B2R lo) (B2R v)); [rewrite Rmax_right by lra | rewrite Rmax_left by lra]; auto.
Qed.
(** The two overloads differ on NaN: clamp(NaN, lo, hi) is lo, but with operator< passed as
    comparison function it is NaN. *)
Theorem C28_clamp_nan : forall lo hi : bf,
  clamp flt B754_nan lo hi = lo /\ clamp_comp flt B754_nan lo hi = B754_nan.
Proof. intros lo hi. destruct lo as [[]|[]| |[]], hi as [[]|[]| |[]]; split; reflexivity. Qed.

(** ** C29: floating-point comparisons with tolerance *)
(** within_abs is symmetric for all values, including infinities and NaN. *)
Theorem C29_within_abs_float_symmetric : forall a b tol : bf,
  within_abs_f a b tol = within_abs_f b a tol.
Proof. intros. apply within_abs_f_sym. Qed.
(** No false negatives. *)
Theorem C29_within_abs_float_complete : forall a b tol : bf,
  is_finite a = true -> is_finite b = true -> is_finite tol = true ->
  Rabs (B2R a - B2R b) <= Rabs (B2R tol) -> within_abs_f a b tol = true.
Proof. intros. now apply within_abs_f_complete. Qed.
(** False positives only within one unit in the last place of the smaller operand.  (The
    exact claim |a-b| <= |tol| is false because the difference is rounded.) *)
Theorem C29_within_abs_float_partial : forall a b tol : bf,
  is_finite a = true -> is_finite b = true -> is_finite tol = true ->
  within_abs_f a b tol = true ->
  Rabs (B2R a - B2R b) < Rabs (B2R tol) + ulpf (Rmin (B2R a) (B2R b)).
Proof. intros. eapply within_abs_f_sound; eassumption. Qed.
(** NaN is never within a tolerance of anything. *)
Theorem C29_within_abs_float_nan : forall a b tol : bf,
  is_nan a = true \/ is_nan b = true \/ is_nan tol = true -> within_abs_f a b tol = false.
Proof.
  intros a b tol H. unfold within_abs_f. destruct H as [H|[H|H]].
  - destruct a; try discriminate H. replace (flt b B754_nan) with false by (destruct b as [[]|[]| |[]]; reflexivity).
    apply fle_nan_r; reflexivity.
  - destruct b; try discriminate H. simpl. apply fle_nan_l. reflexivity.
  - destruct tol; try discriminate H. simpl.
    destruct (flt b a); apply fle_nan_l; [destruct a as [[]|[]| |[]] | destruct b as [[]|[]| |[]]]; reflexivity.
Qed.
(** +infinity is within a finite tolerance only of itself; for -infinity the same holds as long
    as b - |tol| does not overflow. *)
Theorem C29_within_abs_float_inf : forall b tol : bf, is_finite tol = true ->
  (within_abs_f (B754_infinity false) b tol = true <-> b = B754_infinity false) /\
  (fsub b (Babs tol) <> B754_infinity true \/ is_finite b = false ->
   within_abs_f (B754_infinity true) b tol = true <-> b = B754_infinity true).
Proof.
  intros b tol Ft. split.
  - destruct b as [[]|[]| |[]], tol as [[]|[]| |[]]; try discriminate Ft;
      unfold within_abs_f; split; intros H; try reflexivity; try discriminate H.
  - intros Ho. destruct (is_finite b) eqn:Fb.
    + destruct Ho as [Ho|]; [|discriminate]. split; intros H; [|subst; discriminate].
      exfalso. unfold within_abs_f in H.
      replace (flt b (B754_infinity true)) with false in H by (destruct b as [[]|[]| |[]]; try discriminate; reflexivity).
      change (f_abs tol) with (Babs tol) in H.
      destruct (fsub b (Babs tol)) as [[]|[]| |[]]; try discriminate H. now apply Ho.
    + destruct b as [[]|[]| |[]]; try discriminate Fb;
      destruct tol as [[]|[]| |[]]; try discriminate Ft;
      unfold within_abs_f; split; intros H; try reflexivity; try discriminate H.
Qed.

Theorem C29_within_ulp_symmetric : forall (a b : bf) n, within_ulp a b n = within_ulp b a n.
Proof. intros. apply within_ulp_sym. Qed.
Theorem C29_within_ulp_reflexive : forall (a : bf) n, is_nan a = false -> within_ulp a a n = true.
Proof. intros. now apply within_ulp_refl. Qed.
Theorem C29_within_ulp_nan : forall (a b : bf) n,
  is_nan a = true \/ is_nan b = true -> within_ulp a b n = false.
Proof. intros. now apply within_ulp_nan. Qed.
Theorem C29_within_ulp_infinite : forall (a b : bf) n,
  is_finite a = false -> feq a b = false -> within_ulp a b n = false.
Proof. intros. now apply within_ulp_inf. Qed.
(** Values at most n units in the last place (of the larger one) apart are accepted ... *)
Theorem C29_within_ulp_complete : forall (a b : bf) n, (1 < prec)%Z ->
  is_finite a = true -> is_finite b = true -> (0 <= n < 2 ^ prec)%Z ->
  Rabs (B2R a - B2R b) <= IZR n * ulpf (Rmax (Rabs (B2R a)) (Rabs (B2R b))) ->
  within_ulp a b n = true.
Proof. intros. now apply within_ulp_complete. Qed.
(** ... and values at least 2 n + 1 units apart are rejected. *)
Theorem C29_within_ulp_sound : forall (a b : bf) n, (2 < prec)%Z ->
  is_finite a = true -> is_finite b = true -> (0 <= n <= 2 ^ (prec - 2))%Z ->
  within_ulp a b n = true ->
  Rabs (B2R a - B2R b) < (2 * IZR n + 1) * ulpf (Rmax (Rabs (B2R a)) (Rabs (B2R b))).
Proof. intros. eapply within_ulp_sound; eassumption. Qed.

(** within_orders, for every value [p] that std::pow(10, orders) may return *)
Theorem C29_within_orders_symmetric : forall a b p : bf, within_orders_f a b p = within_orders_f b a p.
Proof. intros. apply within_orders_sym. Qed.
(** "If one operand is 0.0 while the other is not, the result must be false." *)
Theorem C29_within_orders_zero : forall z b p : bf,
  is_finite z = true -> B2R z = 0 -> is_finite b = true -> B2R b <> 0 ->
  is_finite p = true -> 1 <= B2R p -> within_orders_f z b p = false.
Proof. intros. now apply within_orders_zero. Qed.
End Fmt.

(** *** within_orders on integers *)
Local Open Scope Z_scope.
(** Signed types, and unsigned types narrower than int: symmetric (also in being undefined). *)
Theorem C29_within_orders_integer_symmetric_partial : forall t a b p, is_ity t ->
  sgn (promote t) = true -> in_range t a -> in_range t b ->
  within_orders_i t a b p = within_orders_i t b a p.
Proof.
  intros t a b p Ht Hs Ha Hb. unfold within_orders_i, NumModel.abs.
  set (q := promote t) in *. assert (Hq : is_ity q) by now apply promote_ity.
  assert (Hqq : promote q = q) by (unfold q; ity_cases t; reflexivity).
  rewrite Hs, Hqq.
  assert (HR : forall z, bind (if in_rangeb q z then Ok z else UB)
      (fun d => bind (bind (arith q (Z.abs d)) (fun a0 => Ok (conv q a0))) (fun x : Z => Ok x)) =
      if in_rangeb q (Z.abs z) then Ok (Z.abs z) else UB).
  { intros z. unfold arith. rewrite Hs.
    assert (HI : forall x, in_rangeb q x = true <-> in_range q x).
    { intros x. unfold in_rangeb, in_range. rewrite andb_true_iff, !Z.leb_le. tauto. }
    destruct (in_rangeb q z) eqn:E1; cbn [bind]; destruct (in_rangeb q (Z.abs z)) eqn:E2; cbn [bind]; auto.
    - rewrite conv_id; auto. now apply HI.
    - apply HI in E2. exfalso. enough (in_rangeb q z = true) by congruence. apply HI.
      unfold in_range, imin, imax in *. rewrite Hs in *. lia. }
  assert (HD : forall X z (k : Z -> outcome X),
      bind (arith q z) (fun d => bind (bind (arith q (Z.abs d)) (fun a0 => Ok (conv q a0))) k) =
      bind (if in_rangeb q (Z.abs z) then Ok (Z.abs z) else UB) k).
  { intros X z k. rewrite <- HR. unfold arith at 1. rewrite Hs. destruct (in_rangeb q z); cbn [bind]; auto.
    destruct (arith q (Z.abs z)); reflexivity. }
  rewrite !HD. replace (Z.abs (b - a)) with (Z.abs (a - b)) by lia.
  destruct (in_rangeb q (Z.abs (a - b))); cbn [bind]; auto.
  destruct (Z.abs (a - b) =? 0); auto.
  assert (HS : forall X (u v : outcome Z) (k : Z -> Z -> outcome X),
     (forall x y, k x y = k y x) -> (forall e, u <> Throw e) -> (forall e, v <> Throw e) -> u <> Diverge -> v <> Diverge ->
     bind u (fun x => bind v (fun y => k x y)) = bind v (fun y => bind u (fun x => k y x))).
  { intros X u v k Hk U1 V1 U2 V2. destruct u, v; cbn [bind]; auto; try congruence;
      try (exfalso; eapply U1; reflexivity); try (exfalso; eapply V1; reflexivity). }
  apply HS.
  - intros x y. unfold std_max. destruct (Z.ltb_spec x y), (Z.ltb_spec y x); auto; try lia.
    replace y with x by lia. reflexivity.
  - intros e. unfold arith. destruct (sgn t); [destruct (sgn q)|]; try discriminate; destruct (in_rangeb _ _); discriminate.
  - intros e. unfold arith. destruct (sgn t); [destruct (sgn q)|]; try discriminate; destruct (in_rangeb _ _); discriminate.
  - unfold arith. destruct (sgn t); [destruct (sgn q)|]; try discriminate; destruct (in_rangeb _ _); discriminate.
  - unfold arith. destruct (sgn t); [destruct (sgn q)|]; try discriminate; destruct (in_rangeb _ _); discriminate.
Qed.
(** Finding: for unsigned int the difference wraps around, and the answer depends on the order
    of the arguments (p = 100.0, i.e. two orders). *)
Definition d100 : double := f_of_Z 100.
Theorem C29_within_orders_unsigned_refuted :
  within_orders_i t_uint 100001 100000 d100 = Ok true /\
  within_orders_i t_uint 100000 100001 d100 = Ok false.
Proof. split; vm_compute; reflexivity. Qed.

(** *** Concrete cases (double) *)
Definition d_of (m e : Z) : double := binary_normalize 53 1024 _ _ mode_NE m e false.
(** Finding: -infinity is within a finite tolerance of the most negative double, because
    -DBL_MAX - DBL_MAX overflows to -infinity; +infinity and DBL_MAX are not. *)
Definition d_max : double := d_of (2 ^ 53 - 1) 971.
Theorem C29_within_abs_minus_infinity_refuted :
  within_abs_f (B754_infinity true) (Bopp d_max) d_max = true /\
  within_abs_f (B754_infinity false) d_max d_max = false.
Proof. split; vm_compute; reflexivity. Qed.
Example C29_float_example :
  within_abs_f (d_of 5 0) (d_of 7 0) (d_of (-2) 0) = true /\
  within_abs_f (d_of 5 0) (d_of 7 0) (d_of 1 0) = false /\
  within_abs_f (d_of 1 1023) (d_of (-1) 1023) (d_of 1 1023) = false /\
  within_ulp (d_of 1 0) (d_of 4503599627370497 (-52)) 1 = true /\
  within_ulp (d_of 1 0) (d_of 4503599627370499 (-52)) 1 = false /\
  within_ulp (d_of 1 (-1074)) (d_of 3 (-1074)) 2 = true /\
  within_orders_f (d_of 23736384 0) (d_of 23736228 0) (d_of 100000 0) = true /\
  within_orders_f (d_of 23736384 0) (d_of 23735384 0) (d_of 100000 0) = false /\
  is_finite (d_of 5 0) = true /\ is_finite (d_of 1 (-1074)) = true.
Proof. vm_compute. repeat split. Qed.
Example C29_orders_example :
  within_orders_i t_int (-1000) (-1001) d100 = Ok true /\ sgn (promote t_int) = true /\
  within_orders_i t_int 2147483647 (-1) d100 = UB.
Proof. vm_compute. repeat split. Qed.

Print Assumptions C29_within_abs_float_partial.
Print Assumptions C29_within_ulp_sound.
Print Assumptions C29_within_orders_zero.
