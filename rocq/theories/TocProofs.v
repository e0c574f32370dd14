(** Proofs about toc *)
From Coq Require Import ZArith Reals Lia Lra.
From Flocq Require Import Core.Core IEEE754.BinarySingleNaN Relative.
From Verif Require Import Base IntModel IntProofs FloatModel FloatProofs ToNumProofs3 TocModel TocSpec.
Local Open Scope Z_scope.

Lemma cf_unit p k : unit_ns p k -> cf_num p = 1 /\ cf_den p = k.
Proof.
  intros (Hd & Hn & Hk & E). unfold cf_num, cf_den. rewrite E.
  replace (Z.gcd (den p) (k * den p)) with (den p) by (rewrite Z.mul_comm, Z.gcd_mul_diag_l; lia).
  split; [apply Z.div_same; lia|]. apply Z.div_mul. lia.
Qed.
Lemma quot_unit k d : 0 < k -> 0 <= d -> whole_units k d (Z.quot d k).
Proof. intros Hk Hd. rewrite Z.quot_div_nonneg by lia. unfold whole_units. pose proof (Z.div_mod d k). pose proof (Z.mod_pos_bound d k). nia. Qed.
Lemma whole_unique k d q r : 0 < k -> whole_units k d q -> whole_units k d r -> q = r.
Proof. unfold whole_units. nia. Qed.

Lemma toc_units : forall (t : ity) (p : period) (k t0 now q : Z), is_ity t -> unit_ns p k -> readings t0 now ->
  whole_units k (now - t0) q -> in_range t q -> toc_int t p t0 now = Ok q.
Proof.
  intros t p k t0 now q Ht Hp (R0 & R1 & Hle & Hm) Hq Hr. destruct (cf_unit p k Hp) as [En Ed]. destruct Hp as (_ & _ & Hk & _).
  unfold toc_int. assert (I64 : is_ity i64) by (unfold is_ity; cbn; tauto).
  assert (Hd : in_range i64 (now - t0)) by (unfold in_range in *; cbn in *; lia).
  rewrite arith_in by assumption. cbn [bind]. unfold cast_int. rewrite En, Ed.
  assert (Ec : conv (cr t) (now - t0) = now - t0).
  { apply conv_id; unfold cr; destruct (negb (sgn t) && (wid t =? 64))%bool eqn:E; auto.
    unfold in_range in *. cbn in *. apply andb_true_iff in E. destruct E as [E1 E2]. apply negb_true_iff in E1. apply Z.eqb_eq in E2.
    unfold imin, imax. rewrite E1, E2. lia. }
  rewrite Ec. assert (U : forall r, whole_units k (now - t0) r -> r = q) by (intros r; intros H; eapply whole_unique; eauto).
  destruct (Z.eqb_spec k 1) as [K1|K1]; cbn [andb Z.eqb Pos.eqb bind].
  - rewrite (U (now - t0)) by (unfold whole_units; lia). rewrite conv_id by assumption. reflexivity.
  - rewrite (U _ (quot_unit k (now - t0) Hk ltac:(lia))). rewrite conv_id by assumption. reflexivity.
Qed.

(** * double *)
Notation rnd := (round radix2 (SpecFloat.fexp 53 1024) ZnearestE).
Local Open Scope R_scope.
#[local] Instance v53 : Valid_exp (SpecFloat.fexp 53 1024) := fexp_correct 53 1024 _.
Lemma rnd_d d : (0 <= d < 2 ^ 63)%Z -> 0 <= rnd (IZR d) <= bpow radix2 63.
Proof.
  intros H. split.
  - rewrite <- (rnd_0 53 1024). apply rnd_le; try exact _. apply IZR_le. lia.
  - rewrite <- (rnd_id 53 1024 (bpow radix2 63)) by (apply generic_format_bpow; cbv; discriminate).
    apply rnd_le; try exact _. rewrite <- IZR_Zpower by lia. apply IZR_le. cbn. lia.
Qed.
Lemma toc_value t0 now : readings t0 now ->
  exists r, toc t0 now = Ok r /\ is_finite r = true /\ B2R r = rnd (rnd (IZR (now - t0)) / 1000000000).
Proof.
  intros (R0 & R1 & Hle & Hm). assert (I64 : is_ity i64) by (unfold is_ity; cbn; tauto).
  assert (Hd : in_range i64 (now - t0)) by (unfold in_range in *; cbn in *; lia).
  unfold toc, toc_double. rewrite arith_in by assumption. cbn [bind]. eexists. split; [reflexivity|].
  change (cast_double seconds (now - t0)) with (fdiv (f_of_Z (now - t0) : double) (f_of_Z 1000000000)).
  assert (D : (0 <= now - t0 < 2 ^ 63)%Z) by (cbn in Hm; lia). pose proof (rnd_d _ D) as B.
  assert (BB : bpow radix2 63 < bpow radix2 1024) by (apply bpow_lt; lia).
  pose proof (rep_of_Z 53 1024 (now - t0)) as X. unfold rep in X. rewrite Rlt_bool_true in X by (rewrite Rabs_pos_eq; lra).
  destruct X as [X1 X2]. destruct (of_Z_small 53 1024 1000000000 ltac:(lia)) as [Y1 Y2].
  pose proof (rep_div 53 1024 _ _ X1 Y1 ltac:(rewrite Y2; lra)) as Q. rewrite X2, Y2 in Q. unfold rep in Q. rewrite Rlt_bool_true in Q; [exact Q|].
  assert (P : 0 <= rnd (IZR (now - t0)) / 1000000000 <= bpow radix2 63) by lra.
  rewrite Rabs_pos_eq.
  - apply Rle_lt_trans with (bpow radix2 63); [|exact BB]. rewrite <- (rnd_id 53 1024 (bpow radix2 63)) by (apply generic_format_bpow; cbv; discriminate).
    apply rnd_le; try exact _. lra.
  - rewrite <- (rnd_0 53 1024). apply rnd_le; try exact _. lra.
Qed.
Lemma rnd_rel x : bpow radix2 (-1000) <= x -> Rabs (rnd x - x) <= / 2 ^ 53 * x.
Proof.
  intros H. assert (0 < x) by (eapply Rlt_le_trans; [apply bpow_gt_0|exact H]).
  pose proof (relative_error_N_FLT radix2 (-1074) 53 ltac:(lia) (fun x => negb (Z.even x)) x) as E. rewrite Rabs_pos_eq in E by lra.
  change (FLT_exp (-1074) 53) with (SpecFloat.fexp 53 1024) in E.
  eapply Rle_trans; [apply E|].
  - eapply Rle_trans; [|exact H]. apply bpow_le. lia.
  - apply Rmult_le_compat_r; [lra|]. change (/ 2) with (bpow radix2 (-1)). rewrite <- bpow_plus.
    replace (/ 2 ^ 53) with (bpow radix2 (-53)) by (cbn; lra). apply bpow_le. lia.
Qed.
Lemma seconds_error d (r : double) : (0 <= d)%Z -> B2R r = rnd (rnd (IZR d) / 1000000000) ->
  Rabs (B2R r - IZR d / 1000000000) <= 3 / 2 ^ 53 * (IZR d / 1000000000).
Proof.
  intros Hd ->. destruct (Z.eq_dec d 0) as [->|N].
  - rewrite (rnd_0 53 1024). unfold Rdiv. rewrite Rmult_0_l, (rnd_0 53 1024). rewrite Rminus_0_r, Rabs_R0. lra.
  - assert (D : 1 <= IZR d) by (apply IZR_le; lia). set (x := IZR d) in *.
    assert (S : bpow radix2 (-1000) <= / 4 / 1000000000).
    { apply Rle_trans with (bpow radix2 (-40)); [apply bpow_le; lia|]. cbn. lra. }
    pose proof (rnd_rel x ltac:(lra)) as E1. set (y := rnd x) in *. apply Rabs_le_inv in E1.
    assert (Y : x / 2 <= y <= 2 * x) by lra. pose proof (rnd_rel (y / 1000000000) ltac:(lra)) as E2. apply Rabs_le_inv in E2.
    apply Rabs_le. lra.
Qed.
Lemma rnd_small d : (0 <= d <= 2 ^ 53)%Z -> rnd (IZR d) = IZR d.
Proof.
  intros H. apply rnd_id; try exact _. destruct (Z.eq_dec d (2 ^ 53)) as [->|N].
  - change (IZR (2 ^ 53)) with (bpow radix2 53). apply generic_format_bpow. cbv. discriminate.
  - destruct (of_Z_small 53 1024 d ltac:(lia)) as [_ <-]. apply generic_format_B2R.
Qed.
Lemma seconds_mono d e : (0 <= d <= e)%Z -> 0 <= rnd (rnd (IZR d) / 1000000000) <= rnd (rnd (IZR e) / 1000000000).
Proof.
  intros H. assert (0 <= rnd (IZR d)) by (rewrite <- (rnd_0 53 1024); apply rnd_le; try exact _; apply IZR_le; lia).
  assert (rnd (IZR d) <= rnd (IZR e)) by (apply rnd_le; try exact _; apply IZR_le; lia).
  split; [rewrite <- (rnd_0 53 1024); apply rnd_le; try exact _; lra|apply rnd_le; try exact _; lra].
Qed.
