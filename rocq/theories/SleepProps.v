(** C96: how long sleep(seconds, trigger) lasts *)
From Coq Require Import ZArith Reals Lia Lra Bool.
From Flocq Require Import Core.Core IEEE754.BinarySingleNaN.
From Verif Require Import Base IntModel IntProofs FloatModel FloatProofs TocModel SleepModel SleepSpec.
Local Open Scope Z_scope.

Lemma billion : is_finite (f_of_Z 1000000000 : double) = true /\ B2R (f_of_Z 1000000000 : double) = 1000000000%R.
Proof. apply (of_Z_small 53 1024). lia. Qed.
Lemma nanos_value (s : double) : is_finite s = true -> (Rabs (exact_ns s) < bpow radix2 1024)%R ->
  is_finite (nanos s) = true /\ B2R (nanos s) = exact_ns s.
Proof.
  intros Hs Hx. destruct billion as [F V]. pose proof (rep_mult 53 1024 s (f_of_Z 1000000000) Hs F) as H. unfold rep in H. rewrite V in H.
  rewrite Rlt_bool_true in H by exact Hx. exact H.
Qed.
Lemma trunc_value (x : double) : Btrunc x = Ztrunc (B2R x).
Proof. apply eq_IZR. rewrite Btrunc_correct by reflexivity. apply round_FIX_IZR. Qed.
Lemma of_Z_exact t : - 2 ^ 53 < t < 2 ^ 53 -> is_finite (f_of_Z t : double) = true /\ B2R (f_of_Z t : double) = IZR t.
Proof.
  intros H. pose proof (rep_of_Z 53 1024 t) as R. apply (rep_exact 53 1024) in R; [exact R| |].
  - replace (IZR t) with (F2R (Float radix2 t 0)) by (unfold F2R; cbn; ring). apply (format_F2R 53 1024); [lia|]. cbv. discriminate.
  - apply Rlt_trans with (bpow radix2 53); [|apply bpow_lt; lia]. rewrite <- abs_IZR, <- IZR_Zpower by lia. apply IZR_lt. cbn. lia.
Qed.
Lemma trunc_bound x : (Rabs x < IZR (2 ^ 53))%R -> - 2 ^ 53 < Ztrunc x < 2 ^ 53.
Proof.
  intros H. apply Rabs_def2 in H. destruct H as [H1 H2]. destruct (Rle_or_lt 0 x) as [L|L].
  - rewrite Ztrunc_floor by exact L. pose proof (Zfloor_lb x) as F. assert (K : (IZR (Zfloor x) < IZR (2 ^ 53))%R) by lra. apply lt_IZR in K.
    assert (0 <= Zfloor x) by (apply (Zfloor_lub 0); exact L). lia.
  - rewrite Ztrunc_ceil by lra. pose proof (Zceil_ub x) as F. assert (K : (IZR (- 2 ^ 53) < IZR (Zceil x))%R) by (rewrite opp_IZR; lra). apply lt_IZR in K.
    assert (Zceil x <= 0) by (apply (Zceil_glb 0); lra). lia.
Qed.
Lemma ceil_cases x : (if Rlt_bool (IZR (Ztrunc x)) x then Ztrunc x + 1 else Ztrunc x) = Zceil x.
Proof.
  destruct (Rle_or_lt 0 x) as [L|L].
  - rewrite Ztrunc_floor by exact L. case Rlt_bool_spec; intros H.
    + symmetry. apply Zceil_floor_neq. lra.
    + assert (E : x = IZR (Zfloor x)) by (pose proof (Zfloor_lb x); lra). rewrite E at 2. rewrite Zceil_IZR. reflexivity.
  - rewrite Ztrunc_ceil by lra. rewrite Rlt_bool_false; [reflexivity|apply Zceil_ub].
Qed.

(** For up to 2^53 nanoseconds (104 days) the sleep ends at the first nanosecond that is not before
    the rounded number of nanoseconds after the call *)
Theorem C96_wake_up (s : double) (now : Z) : is_finite s = true -> (Rabs (exact_ns s) < IZR (2 ^ 53))%R ->
  in_range i64 now -> now < 2 ^ 62 -> - 2 ^ 62 < now ->
  exists n, wake_up now s = Ok (now + n) /\ (exact_ns s <= IZR n < exact_ns s + 1)%R.
Proof.
  intros Hs Hx Hnow H1 H2.
  assert (Hb : (Rabs (exact_ns s) < bpow radix2 1024)%R).
  { apply Rlt_trans with (1 := Hx). change (2 ^ 53) with (Zpower radix2 53). rewrite IZR_Zpower by lia. apply bpow_lt. lia. }
  destruct (nanos_value s Hs Hb) as [F V]. pose proof (trunc_bound _ Hx) as B.
  exists (Zceil (exact_ns s)). split; [|split; [apply Zceil_ub|apply Zceil_lb]].
  unfold wake_up, ceil_nanos, cast_nanos. rewrite F, trunc_value, V.
  assert (Hr : in_rangeb i64 (Ztrunc (exact_ns s)) = true).
  { unfold in_rangeb. apply andb_true_iff. rewrite !Z.leb_le. cbn. lia. }
  rewrite Hr. cbn [andb bind].
  destruct (of_Z_exact _ B) as [F2 V2]. unfold flt. rewrite Bltb_correct by assumption. rewrite V2, V.
  pose proof (ceil_cases (exact_ns s)) as C.
  assert (I64 : is_ity i64) by (unfold is_ity; cbn; tauto).
  destruct (Rlt_bool (IZR (Ztrunc (exact_ns s))) (exact_ns s)).
  - rewrite arith_in; [|exact I64|unfold in_range; cbn; lia]. cbn [bind]. rewrite C. rewrite arith_in; [reflexivity|exact I64|unfold in_range; cbn; lia].
  - cbn [bind]. rewrite C. rewrite arith_in; [reflexivity|exact I64|unfold in_range; cbn; lia].
Qed.
(** A sleep of zero or fewer seconds ends at once, in the sense that its end is not after the call *)
Theorem C96_not_positive (s : double) (now t : Z) : is_finite s = true -> (Rabs (exact_ns s) < IZR (2 ^ 53))%R ->
  in_range i64 now -> now < 2 ^ 62 -> - 2 ^ 62 < now -> (B2R s <= 0)%R -> wake_up now s = Ok t -> t <= now.
Proof.
  intros Hs Hx Hnow H1 H2 H E. destruct (C96_wake_up s now Hs Hx Hnow H1 H2) as (n & En & _ & Hn). rewrite En in E. injection E as <-.
  assert (K : (exact_ns s <= 0)%R).
  { rewrite <- (rnd_0 53 1024). apply rnd_le; try exact _. lra. }
  assert (L : (IZR n < 1)%R) by lra. apply (lt_IZR n 1) in L. lia.
Qed.
(** A sleep that starts later ends later, and a longer one does not end earlier *)
Theorem C96_monotone (s1 s2 : double) (now t1 t2 : Z) : is_finite s1 = true -> is_finite s2 = true ->
  (Rabs (exact_ns s1) < IZR (2 ^ 53))%R -> (Rabs (exact_ns s2) < IZR (2 ^ 53))%R ->
  in_range i64 now -> now < 2 ^ 62 -> - 2 ^ 62 < now -> (B2R s1 <= B2R s2)%R ->
  wake_up now s1 = Ok t1 -> wake_up now s2 = Ok t2 -> t1 <= t2.
Proof.
  intros F1 F2 X1 X2 Hnow H1 H2 L E1 E2.
  destruct (C96_wake_up s1 now F1 X1 Hnow H1 H2) as (n1 & En1 & _ & A1). destruct (C96_wake_up s2 now F2 X2 Hnow H1 H2) as (n2 & En2 & A2 & _).
  rewrite En1 in E1. rewrite En2 in E2. injection E1 as <-. injection E2 as <-.
  assert (K : (exact_ns s1 <= exact_ns s2)%R) by (apply (rnd_le 53 1024); lra).
  assert (M : (IZR n1 < IZR (n2 + 1))%R) by (rewrite plus_IZR; lra). apply lt_IZR in M. lia.
Qed.
(** Finding: infinity, NaN and every number of seconds from 9223372037 on (292 years) are undefined
    behaviour, though they could mean to wait for the trigger without a limit *)
Theorem C96_long_finding (s : double) (now : Z) :
  is_finite s = false \/ (9223372037 <= B2R s)%R -> wake_up now s = UB.
Proof.
  intros H. assert (G : is_finite (nanos s) = false \/ 2 ^ 63 <= Btrunc (nanos s)).
  { destruct H as [H|H].
    - left. destruct s as [ | b | | ]; try discriminate; [destruct b|]; vm_compute; reflexivity.
    - assert (Hs : is_finite s = true) by (destruct s; cbn in H; try reflexivity; exfalso; lra).
      destruct (is_finite (nanos s)) eqn:F; [right|left; reflexivity].
      destruct billion as [FB VB]. pose proof (rep_mult 53 1024 s (f_of_Z 1000000000) Hs FB) as R. unfold rep in R. rewrite VB in R.
      destruct (Rlt_bool (Rabs (exact_ns s)) (bpow radix2 1024)).
      + destruct R as [_ R]. change (fmul s (f_of_Z 1000000000)) with (nanos s) in R. rewrite trunc_value, R.
        assert (K : (bpow radix2 63 <= exact_ns s)%R).
        { rewrite <- (rnd_id 53 1024 (bpow radix2 63)) by (apply generic_format_bpow; cbv; discriminate).
          apply (rnd_le 53 1024). change (bpow radix2 63) with 9223372036854775808%R. lra. }
        change (bpow radix2 63) with (IZR (2 ^ 63)) in K. rewrite Ztrunc_floor by (apply Rle_trans with (2 := K); apply IZR_le; lia). apply Zfloor_lub. exact K.
      + change (fmul s (f_of_Z 1000000000)) with (nanos s) in R. rewrite R in F. discriminate. }
  unfold wake_up, ceil_nanos, cast_nanos.
  destruct G as [-> | G]; [reflexivity|].
  replace (in_rangeb i64 (Btrunc (nanos s))) with false; [rewrite andb_false_r; reflexivity|].
  symmetry. unfold in_rangeb. apply andb_false_iff. right. apply Z.leb_gt. cbn. lia.
Qed.
(** 0.1 seconds, and 1.5 ns *)
Example C96_example :
  wake_up 5 (@B754_finite 53 1024 false 7205759403792794 (-56) eq_refl) = Ok 100000005 /\
  wake_up 5 (fdiv (f_of_Z 3) (f_of_Z 2000000000)) = Ok 7 /\
  wake_up 5 (B754_infinity false) = UB /\ wake_up 5 (f_of_Z 10000000000) = UB.
Proof. repeat split; vm_compute; reflexivity. Qed.
Print Assumptions C96_wake_up.
