(** C84: toc in units shorter than a nanosecond *)
From Coq Require Import ZArith Lia Bool.
From Verif Require Import Base IntModel IntProofs FloatModel TocModel TocSpec.
Local Open Scope Z_scope.

Lemma cf_fraction p m : unit_of_ns p m -> cf_num p = m /\ cf_den p = 1.
Proof.
  intros (Hn & Hm & E). unfold cf_num, cf_den. rewrite E.
  replace (Z.gcd (m * (1000000000 * num p)) (1000000000 * num p)) with (1000000000 * num p)
    by (rewrite Z.gcd_comm, (Z.mul_comm m), Z.gcd_mul_diag_l; lia).
  split; [apply Z.div_mul; lia|]. apply Z.div_same. lia.
Qed.
Lemma cr_range t z : is_ity t -> 0 <= z -> in_range t z -> is_ity (cr t) /\ in_range (cr t) z.
Proof.
  intros Ht Hz H. unfold cr. destruct (negb (sgn t) && (wid t =? 64)) eqn:E; [split; assumption|].
  split; [unfold is_ity; cbn; tauto|]. unfold in_range, imin, imax in *. cbn [sgn wid i64].
  apply andb_false_iff in E. destruct Ht as [Hw|[Hw|[Hw|Hw]]]; rewrite Hw in *; destruct (sgn t); cbn [negb] in E; destruct E as [E|E]; try discriminate; lia.
Qed.

(** m units make up a nanosecond: the result is exact if it can be represented, in any integer type *)
Theorem C84_fractions : forall (t : ity) (p : period) (m t0 now : Z), is_ity t -> unit_of_ns p m -> readings t0 now ->
  in_range t ((now - t0) * m) -> toc_int t p t0 now = Ok ((now - t0) * m).
Proof.
  intros t p m t0 now Ht Hp (R0 & R1 & Hle & Hx) Hr. destruct (cf_fraction p m Hp) as [En Ed]. destruct Hp as (_ & Hm & _).
  assert (I64 : is_ity i64) by (unfold is_ity; cbn; tauto).
  assert (Hd : in_range i64 (now - t0)) by (unfold in_range in *; cbn in *; lia).
  unfold toc_int. rewrite arith_in by assumption. cbn [bind]. unfold cast_int. rewrite En, Ed.
  assert (P0 : 0 <= (now - t0) * m) by (apply Z.mul_nonneg_nonneg; lia). assert (P1 : 0 <= now - t0) by lia.
  destruct (cr_range t _ Ht P0 Hr) as [Hc Hcr].
  assert (Hdr : in_range t (now - t0)).
  { unfold in_range in *. split; [|nia]. unfold imin. destruct (sgn t); [|lia]. assert (0 <= 2 ^ (wid t - 1)) by (apply Z.pow_nonneg; lia). lia. }
  destruct (cr_range t (now - t0) Ht P1 Hdr) as [_ Hc1].
  rewrite (conv_id (cr t) (now - t0)) by assumption. cbn [Z.eqb Pos.eqb andb].
  destruct (Z.eqb_spec m 1) as [->|Hm1]; cbn [bind].
  - rewrite Z.mul_1_r in *. rewrite conv_id by assumption. reflexivity.
  - rewrite arith_in by assumption. cbn [bind]. rewrite conv_id by assumption. reflexivity.
Qed.
(** If the number of units exceeds 64 bits, then the multiplication overflows: undefined behaviour
    in every type except unsigned 64-bit integers, where the result wraps around *)
Theorem C84_fractions_overflow : forall (t : ity) (p : period) (m t0 now : Z), is_ity t -> unit_of_ns p m -> 1 < m -> readings t0 now ->
  (t <> IT false 64 -> imax i64 < (now - t0) * m -> toc_int t p t0 now = UB) /\
  (t = IT false 64 -> toc_int t p t0 now = Ok (((now - t0) * m) mod 2 ^ 64)).
Proof.
  intros t p m t0 now Ht Hp Hm (R0 & R1 & Hle & Hx). destruct (cf_fraction p m Hp) as [En Ed].
  assert (I64 : is_ity i64) by (unfold is_ity; cbn; tauto).
  assert (Hd : in_range i64 (now - t0)) by (unfold in_range in *; cbn in *; lia).
  unfold toc_int. rewrite arith_in by assumption. cbn [bind]. unfold cast_int. rewrite En, Ed. cbn [Z.eqb Pos.eqb andb].
  destruct (Z.eqb_spec m 1) as [Hm1|_]; [lia|]. split.
  - intros Hne Ho. assert (Ec : cr t = i64).
    { unfold cr. destruct t as [s w]. cbn [sgn wid]. destruct s; [reflexivity|]. destruct (Z.eqb_spec w 64) as [->|_]; [congruence|reflexivity]. }
    rewrite Ec, conv_id by assumption. unfold arith. cbn [sgn i64].
    replace (in_rangeb i64 ((now - t0) * m)) with false; [reflexivity|].
    symmetry. unfold in_rangeb. apply andb_false_iff. right. apply Z.leb_gt. exact Ho.
  - intros ->. cbn [cr sgn wid negb andb Z.eqb Pos.eqb]. rewrite conv_id by (unfold is_ity, in_range in *; cbn in *; lia).
    unfold arith. cbn [sgn wid bind]. rewrite conv_id; [reflexivity|unfold is_ity; cbn; lia|].
    unfold in_range. cbn [imin imax sgn wid]. pose proof (Z.mod_pos_bound ((now - t0) * m) (2 ^ 64) ltac:(lia)). unfold imin, imax. cbn [sgn wid]. lia.
Qed.

(** Picoseconds: ten minutes, and 200 days in an unsigned type and in a signed one *)
Example C84_fractions_example : let ps := Ratio 1 1000000000000 in
  unit_of_ns ps 1000 /\ readings 7 600000000007 /\ in_range i64 600000000000000 /\
  toc_int i64 ps 7 600000000007 = Ok 600000000000000 /\
  toc_int (IT false 64) ps 0 (200 * 86400 * 10 ^ 9) = Ok (200 * 86400 * 10 ^ 12) /\
  toc_int i64 ps 0 (200 * 86400 * 10 ^ 9) = UB.
Proof. repeat split; try (vm_compute; congruence). Qed.
Print Assumptions C84_fractions.
Print Assumptions C84_fractions_overflow.
