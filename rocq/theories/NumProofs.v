(** Proofs about the integer model. *)
From Verif Require Import Base IntModel IntProofs NumModel.
Local Open Scope Z_scope.
Local Open Scope outcome_scope.

Lemma abs_ok t n : is_ity t -> in_range t n -> Z.abs n <= imax t -> abs t n = Ok (Z.abs n).
Proof.
  intros Ht Hn Ha. unfold abs. destruct (sgn t) eqn:Es.
  - rewrite arith_in; [|now apply promote_ity|].
    + cbn [bind]. rewrite conv_id; auto. revert Hn Ha Es. unfold in_range, imin, imax.
      destruct (sgn t); [|discriminate]. ity_cases t; cbn; lia.
    + apply promote_range; auto. revert Hn Ha Es. unfold in_range, imin, imax.
      destruct (sgn t); [|discriminate]. ity_cases t; cbn; lia.
  - revert Hn. unfold in_range, imin. rewrite Es. intros Hn. f_equal. lia.
Qed.

Lemma abs_overflow t n : is_ity t -> sgn t = true -> 32 <= wid t -> n = imin t -> abs t n = UB.
Proof.
  intros Ht Hs Hw ->. unfold abs. ity_cases t; cbn in Hs, Hw; try discriminate; try lia; reflexivity.
Qed.

(** ** gcd *)

Lemma gcd_loop_ok t : is_ity t -> forall fuel c d,
  0 <= c -> in_range t c -> 0 <= d -> in_range t d -> (Z.to_nat d < fuel)%nat ->
  gcd_loop fuel t c d = Ok (Z.gcd c d).
Proof.
  intros Ht. induction fuel as [|fuel IH]; intros c d Hc Hcr Hd Hdr Hf; [lia|].
  cbn [gcd_loop]. destruct (Z.eqb_spec d 0) as [->|Hd0].
  - rewrite Z.gcd_0_r, Z.abs_eq by lia. reflexivity.
  - unfold rem_op. destruct (Z.eqb_spec d 0); [lia|].
    assert (Hr : (d =? -1) = false) by (apply Z.eqb_neq; lia).
    rewrite Hr, andb_false_r. cbn [bind].
    rewrite Z.rem_mod_nonneg by lia.
    pose proof (Z.mod_pos_bound c d ltac:(lia)) as Hb.
    assert (Hrr : in_range t (c mod d)).
    { revert Hdr. unfold in_range, imin. ity_cases t; cbn [sgn wid]; lia. }
    rewrite conv_id by auto. rewrite IH; auto; try lia.
    f_equal. rewrite Z.gcd_comm, Z.gcd_mod by lia. apply Z.gcd_comm.
Qed.

Lemma gcd_ok ta tb a b : is_ity ta -> is_ity tb -> sgn ta = sgn tb ->
  in_range ta a -> in_range tb b ->
  Z.abs a <= imax (common_type ta tb) -> Z.abs b <= imax (common_type ta tb) ->
  gcd ta tb a b = Ok (Z.gcd a b).
Proof.
  intros Hta Htb Hs Ha Hb Haa Hba. unfold gcd.
  pose proof (common_ity ta tb Hta Htb) as Ht.
  destruct (common_range ta tb a b) as [Ha' Hb']; auto.
  set (t := common_type ta tb) in *.
  rewrite !conv_id by auto. rewrite !abs_ok by auto. cbn [bind].
  assert (Hr : forall z, Z.abs z <= imax t -> in_range t (Z.abs z)).
  { intros z. revert Ht. clearbody t. clear. intros Ht. unfold in_range, imin.
    ity_cases t; cbn [sgn wid]; lia. }
  rewrite gcd_loop_ok; auto; try lia.
  now rewrite Z.gcd_abs_l, Z.gcd_abs_r.
Qed.

(** ** lcm *)

Lemma quot_exact a g : g <> 0 -> (g | a) -> Z.quot a g = a / g.
Proof.
  intros Hg [k ->]. rewrite Z.quot_mul by auto. now rewrite Z.div_mul.
Qed.

Lemma gcd_le_imax ta tb a b :
  Z.abs a <= imax (common_type ta tb) -> Z.abs b <= imax (common_type ta tb) ->
  Z.gcd a b <= imax (common_type ta tb).
Proof.
  intros Ha Hb. destruct (Z.eq_dec a 0) as [->|Hn].
  - rewrite Z.gcd_0_l. exact Hb.
  - enough (Z.gcd a b <= Z.abs a) by lia. apply Z.divide_pos_le; [lia|].
    apply Z.divide_abs_r, Z.gcd_divide_l.
Qed.

Lemma lcm_ok ta tb a b : is_ity ta -> is_ity tb -> sgn ta = sgn tb ->
  in_range ta a -> in_range tb b ->
  Z.abs a <= imax (common_type ta tb) -> Z.abs b <= imax (common_type ta tb) ->
  Z.lcm a b <= imax (common_type ta tb) ->
  lcm ta tb a b = Ok (Z.lcm a b).
Proof.
  intros Hta Htb Hs Ha Hb Haa Hba Hl. unfold lcm.
  destruct (Z.eqb_spec a 0) as [->|Hna]; [destruct (Z.eqb_spec b 0) as [->|Hnb]|];
    cbn [andb]; [reflexivity| |];
    rewrite gcd_ok by auto; cbn [bind].
  - (* a = 0, b <> 0 *)
    pose proof (common_ity ta tb Hta Htb) as Ht.
    assert (Hg : 0 < Z.gcd 0 b) by (rewrite Z.gcd_0_l; lia).
    pose proof (gcd_le_imax ta tb 0 b Haa Hba) as Hgm.
    set (t := common_type ta tb) in *.
    assert (Hin : forall z, Z.abs z <= imax t -> 0 <= z -> in_range t z).
    { intros z. revert Ht. clearbody t. clear. intros Ht. unfold in_range, imin.
      ity_cases t; cbn [sgn wid]; lia. }
    destruct (usual_chain ta tb 0 Hta Htb Hs) as [C1 C2]; [apply Hin; lia|].
    destruct (usual_chain ta tb (Z.gcd 0 b) Hta Htb Hs) as [C3 C4]; [apply Hin; lia|].
    destruct (usual_chain ta tb b Hta Htb Hs) as [C5 C6]; [now apply (common_range ta tb 0 b)|].
    fold t in C1, C2, C3, C4, C5, C6.
    assert (I1 : is_ity (usual ta t)) by now apply usual_ity.
    assert (I2 : is_ity (usual (usual ta t) tb)) by now apply usual_ity.
    rewrite !(conv_id (usual ta t)) by auto. unfold div_op.
    destruct (Z.eqb_spec (Z.gcd 0 b) 0); [lia|].
    rewrite Z.quot_0_l by lia. rewrite arith_in by auto. cbn [bind].
    rewrite !(conv_id (usual (usual ta t) tb)) by auto. rewrite Z.mul_0_l.
    rewrite arith_in by auto. cbn [bind].
    rewrite abs_ok; auto.
    + cbn [bind Z.abs]. rewrite conv_id; auto. apply Hin; lia.
    + revert C2. unfold in_range. lia.
  - (* a <> 0 *)
    pose proof (common_ity ta tb Hta Htb) as Ht.
    assert (Hg : 0 < Z.gcd a b).
    { pose proof (Z.gcd_nonneg a b). destruct (Z.eq_dec (Z.gcd a b) 0) as [E|]; [|lia].
      apply Z.gcd_eq_0_l in E. lia. }
    pose proof (gcd_le_imax ta tb a b Haa Hba) as Hgm.
    set (g := Z.gcd a b) in *.
    assert (Hda : (g | a)) by apply Z.gcd_divide_l.
    assert (Hlcm : Z.lcm a b = Z.abs (a / g * b)).
    { unfold Z.lcm. fold g. destruct Hda as [k Hk].
      destruct (Z.gcd_divide_r a b) as [m Hm]. fold g in Hm.
      assert (Ea : a / g = k) by (rewrite Hk; apply Z.div_mul; lia).
      assert (Eb : b / g = m) by (rewrite Hm; apply Z.div_mul; lia).
      f_equal. rewrite Ea, Eb. rewrite Hk, Hm at 1. ring. }
    assert (Hq : Z.abs (a / g) <= Z.abs a).
    { destruct Hda as [k Hk].
      assert (Ea : a / g = k) by (rewrite Hk; apply Z.div_mul; lia).
      assert (Eab : Z.abs a = Z.abs k * g).
      { rewrite Hk at 1. rewrite Z.abs_mul. f_equal. lia. }
      rewrite Ea, Eab. clear - Hg. nia. }
    set (t := common_type ta tb) in *.
    assert (Hin : forall z, Z.abs z <= imax t -> sgn t = true \/ 0 <= z -> in_range t z).
    { intros z. revert Ht. clearbody t. clear. intros Ht. unfold in_range, imin, imax.
      ity_cases t; cbn [sgn wid]; intros ? [?|?]; try discriminate; lia. }
    assert (Hsg : sgn t = true \/ (0 <= a /\ 0 <= b)).
    { destruct (sgn ta) eqn:Es.
      - left. revert Es Hs Hta Htb. unfold t. clear. intros. ity_cases ta; ity_cases tb; cbn in *; congruence.
      - right. revert Ha Hb. unfold in_range, imin. rewrite <- Hs, Es. lia. }
    assert (Hqs : sgn t = true \/ 0 <= a / g).
    { destruct Hsg as [?|[? ?]]; auto. right. apply Z.div_pos; lia. }
    destruct (usual_chain ta tb a Hta Htb Hs) as [C1 C2]; [now apply (common_range ta tb a b)|].
    destruct (usual_chain ta tb g Hta Htb Hs) as [C3 C4]; [apply Hin; lia|].
    destruct (usual_chain ta tb b Hta Htb Hs) as [C5 C6]; [now apply (common_range ta tb a b)|].
    destruct (usual_chain ta tb (a / g) Hta Htb Hs) as [C7 C8]; [apply Hin; auto; lia|].
    assert (Hps : sgn t = true \/ 0 <= a / g * b).
    { destruct Hsg as [?|[? ?]]; auto. right. apply Z.mul_nonneg_nonneg; [|lia]. apply Z.div_pos; lia. }
    assert (Hpm : in_range t (a / g * b)) by (apply Hin; auto; lia).
    destruct (usual_chain ta tb (a / g * b) Hta Htb Hs Hpm) as [C9 C10].
    destruct (usual_chain ta tb (Z.lcm a b) Hta Htb Hs) as [_ C12].
    { apply Hin; [rewrite Z.abs_eq; auto; apply Z.lcm_nonneg | right; apply Z.lcm_nonneg]. }
    fold t in C1, C2, C3, C4, C5, C6, C7, C8, C9, C10, C12.
    assert (I1 : is_ity (usual ta t)) by now apply usual_ity.
    assert (I2 : is_ity (usual (usual ta t) tb)) by now apply usual_ity.
    rewrite !(conv_id (usual ta t)) by auto. unfold div_op.
    destruct (Z.eqb_spec g 0); [lia|].
    rewrite quot_exact by (auto; lia). rewrite arith_in by auto. cbn [bind].
    rewrite !(conv_id (usual (usual ta t) tb)) by auto.
    rewrite arith_in by auto. cbn [bind].
    rewrite abs_ok; auto.
    + cbn [bind]. rewrite <- Hlcm. rewrite conv_id; auto. apply Hin.
      * rewrite Z.abs_eq; auto. apply Z.lcm_nonneg.
      * right. apply Z.lcm_nonneg.
    + rewrite <- Hlcm. apply C12.
Qed.

(** ** bits *)

Lemma conv_testbit t z i : is_ity t -> 0 <= i < wid t -> Z.testbit (conv t z) i = Z.testbit z i.
Proof.
  intros Ht Hi. unfold conv.
  assert (Hw : 0 <= wid t) by lia.
  assert (E : Z.testbit (z mod 2 ^ wid t) i = Z.testbit z i) by (apply Z.mod_pow2_bits_low; lia).
  destruct (_ && _); [|exact E].
  rewrite <- E. clear E. set (m := z mod 2 ^ wid t).
  rewrite <- (Z.mod_pow2_bits_low (m - 2 ^ wid t) (wid t) i) by lia.
  rewrite <- (Z.mod_pow2_bits_low m (wid t) i) by lia. f_equal.
  replace (m - 2 ^ wid t) with (m + (-1) * 2 ^ wid t) by ring.
  apply Z.mod_add. lia.
Qed.

Lemma bit_set1_ok t n : is_ity t -> 0 <= n < wid t -> bit_set1 t n = Ok (conv t (2 ^ n)).
Proof.
  intros Ht Hn. unfold bit_set1. destruct (Z.ltb_spec n (wid t)); [|lia].
  rewrite Z.shiftl_1_l. rewrite arith_in; [reflexivity| |].
  - apply promote_ity. revert Ht. unfold is_ity. cbn. auto.
  - assert (H2 : 2 ^ n < 2 ^ wid t) by (apply Z.pow_lt_mono_r; lia).
    assert (H3 : 0 < 2 ^ n) by lia.
    revert H2 H3. generalize (2 ^ n). intros p. clear Hn H.
    unfold in_range, imin, imax. ity_cases t; cbn; lia.
Qed.

Lemma mask_testbit t n i : is_ity t -> 0 <= n < wid t -> 0 <= i < wid t ->
  Z.testbit (conv t (2 ^ n)) i = (i =? n).
Proof.
  intros Ht Hn Hi. rewrite conv_testbit by auto. rewrite Z.pow2_bits_eqb by lia. apply Z.eqb_sym.
Qed.

Lemma bit_set_ok t v n : is_ity t -> 0 <= n < wid t -> exists r, bit_set t v n = Ok r /\
  in_range t r /\ forall i, 0 <= i < wid t -> Z.testbit r i = if i =? n then true else Z.testbit v i.
Proof.
  intros Ht Hn. unfold bit_set. rewrite bit_set1_ok by auto. cbn [bind]. eexists. split; [reflexivity|].
  split; [now apply conv_range|]. intros i Hi. rewrite conv_testbit by auto.
  rewrite Z.lor_spec, mask_testbit by auto. destruct (i =? n); [apply orb_true_r | apply orb_false_r].
Qed.

Lemma bit_flip_ok t v n : is_ity t -> 0 <= n < wid t -> exists r, bit_flip t v n = Ok r /\
  in_range t r /\ forall i, 0 <= i < wid t ->
  Z.testbit r i = if i =? n then negb (Z.testbit v i) else Z.testbit v i.
Proof.
  intros Ht Hn. unfold bit_flip. rewrite bit_set1_ok by auto. cbn [bind]. eexists. split; [reflexivity|].
  split; [now apply conv_range|]. intros i Hi. rewrite conv_testbit by auto.
  rewrite Z.lxor_spec, mask_testbit by auto. destruct (i =? n); [apply xorb_true_r | apply xorb_false_r].
Qed.

Lemma promote_wid t : is_ity t -> wid t <= wid (promote t).
Proof. intros Ht. ity_cases t; cbn; lia. Qed.

Lemma bit_reset_ok t v n : is_ity t -> 0 <= n < wid t -> exists r, bit_reset t v n = Ok r /\
  in_range t r /\ forall i, 0 <= i < wid t -> Z.testbit r i = if i =? n then false else Z.testbit v i.
Proof.
  intros Ht Hn. unfold bit_reset, bit_not. rewrite bit_set1_ok by auto. cbn [bind]. eexists. split; [reflexivity|].
  split; [now apply conv_range|]. intros i Hi. rewrite conv_testbit by auto.
  pose proof (promote_wid t Ht).
  rewrite Z.land_spec, conv_testbit by (auto using promote_ity; lia).
  rewrite Z.lnot_spec, mask_testbit by (auto; lia).
  destruct (i =? n); [apply andb_false_r | apply andb_true_r].
Qed.

(** A value in range is zero iff all its bits are. *)
Lemma range_testbit_high t v i : is_ity t -> in_range t v -> wid t <= i ->
  Z.testbit v i = Z.testbit v (wid t - 1) && sgn t.
Proof.
  intros Ht Hv Hi. unfold in_range, imin, imax in Hv.
  assert (Hw : 1 < wid t) by (unfold is_ity in Ht; lia).
  destruct (sgn t).
  - rewrite andb_true_r. destruct (Z.ltb_spec v 0) as [Hneg|Hpos].
    + assert (E : forall j, wid t - 1 <= j -> Z.testbit v j = true).
      { intros j Hj. rewrite <- (Z.lnot_involutive v), Z.lnot_spec by lia.
        rewrite Z.bits_above_log2; [reflexivity| |].
        - unfold Z.lnot. lia.
        - destruct (Z.eq_dec (Z.lnot v) 0) as [->|]; [simpl; lia|].
          apply Z.log2_lt_pow2; [unfold Z.lnot in *; lia|].
          assert (2 ^ (wid t - 1) <= 2 ^ j) by (apply Z.pow_le_mono_r; lia).
          unfold Z.lnot. lia. }
      rewrite !E by lia. reflexivity.
    + assert (E : forall j, wid t - 1 <= j -> Z.testbit v j = false).
      { intros j Hj. destruct (Z.eq_dec v 0) as [->|]; [apply Z.bits_0|].
        apply Z.bits_above_log2; [lia|]. apply Z.log2_lt_pow2; [lia|].
        assert (2 ^ (wid t - 1) <= 2 ^ j) by (apply Z.pow_le_mono_r; lia). lia. }
      rewrite !E by lia. reflexivity.
  - rewrite andb_false_r. destruct (Z.eq_dec v 0) as [->|]; [apply Z.bits_0|].
    apply Z.bits_above_log2; [lia|]. apply Z.log2_lt_pow2; [lia|].
    assert (2 ^ wid t <= 2 ^ i) by (apply Z.pow_le_mono_r; lia). lia.
Qed.

Lemma bit_test_ok t v n : is_ity t -> in_range t v -> 0 <= n < wid t ->
  bit_test t v n = Ok (Z.testbit v n).
Proof.
  intros Ht Hv Hn. unfold bit_test. rewrite bit_set1_ok by auto. cbn [bind]. f_equal.
  assert (Hm : in_range t (conv t (2 ^ n))) by now apply conv_range.
  destruct (Z.testbit v n) eqn:E.
  - apply negb_true_iff, Z.eqb_neq. intros H0.
    assert (Z.testbit (Z.land v (conv t (2 ^ n))) n = true).
    { rewrite Z.land_spec, E, mask_testbit by auto. now rewrite Z.eqb_refl. }
    rewrite H0, Z.bits_0 in H. discriminate.
  - apply negb_false_iff, Z.eqb_eq. apply Z.bits_inj'. intros i Hi.
    rewrite Z.land_spec, Z.bits_0.
    assert (Hlow : forall j, 0 <= j < wid t -> Z.testbit v j && Z.testbit (conv t (2 ^ n)) j = false).
    { intros j Hj. rewrite mask_testbit by auto. destruct (Z.eqb_spec j n) as [->|].
      - now rewrite E.
      - apply andb_false_r. }
    destruct (Z.ltb_spec i (wid t)); [apply Hlow; lia|].
    rewrite (range_testbit_high t v i), (range_testbit_high t (conv t (2 ^ n)) i) by auto.
    specialize (Hlow (wid t - 1) ltac:(lia)).
    destruct (Z.testbit v (wid t - 1)), (Z.testbit (conv t (2 ^ n)) (wid t - 1)), (sgn t);
      cbn in *; congruence.
Qed.

Lemma bit_set1_value t n : is_ity t -> 0 <= n < wid t -> (sgn t = true -> n < wid t - 1) ->
  bit_set1 t n = Ok (2 ^ n).
Proof.
  intros Ht Hn Hs. rewrite bit_set1_ok by auto. f_equal. apply conv_id; auto.
  unfold in_range, imin, imax. destruct (sgn t).
  - specialize (Hs eq_refl). assert (2 ^ n < 2 ^ (wid t - 1)) by (apply Z.pow_lt_mono_r; lia). lia.
  - assert (2 ^ n < 2 ^ wid t) by (apply Z.pow_lt_mono_r; lia). lia.
Qed.

(** ** within_abs *)

Lemma within_abs_ok t a b tol : is_ity t -> in_range t a -> in_range t b -> in_range t tol ->
  Z.abs tol <= imax t -> Z.abs (a - b) <= imax (promote t) ->
  within_abs t a b tol = Ok (Z.abs (a - b) <=? Z.abs tol).
Proof.
  intros Ht Ha Hb Htol Htm Hd. unfold within_abs. rewrite abs_ok by auto. cbn [bind].
  pose proof (promote_ity t Ht) as Hp.
  assert (Hin : forall z, 0 <= z <= imax (promote t) -> in_range (promote t) z).
  { intros z Hz. unfold in_range. revert Hz. clear -Ht. unfold imin. ity_cases t; cbn; lia. }
  destruct (Z.ltb_spec b a).
  - rewrite arith_in by (auto; apply Hin; lia). cbn [bind]. replace (Z.abs (a - b)) with (a - b) by lia. reflexivity.
  - rewrite arith_in by (auto; apply Hin; lia). cbn [bind].
    replace (Z.abs (a - b)) with (b - a) by lia. reflexivity.
Qed.
