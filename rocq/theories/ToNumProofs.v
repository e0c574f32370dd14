(** Proofs about to_number for integers and bool. *)
From Verif Require Import Base StrSearch StrModel StrProofs1 StrProofs2 IntModel IntProofs FloatModel ToNumModel ToNumSpec.
Local Open Scope Z_scope.

Lemma is_digit_iff c : is_digit c = true <-> dec_digit c.
Proof.
  unfold is_digit, dec_digit, sc. change (uc "0") with 48. change (uc "9") with 57. cbn [Z.ltb].
  rewrite andb_true_iff, !Z.leb_le.
  pose proof (uc_range c). destruct (Z.ltb_spec (uc c) 128); simpl; lia.
Qed.
Lemma is_digit_sc c : is_digit c = true -> sc c - sc "0" = digit_value c.
Proof.
  intros H. apply is_digit_iff in H. unfold dec_digit in H. unfold sc, digit_value.
  change (uc "0") with 48. destruct (Z.ltb_spec (uc c) 128); simpl; lia.
Qed.

Definition dv_from (r : Z) (s : str) : Z := fold_left (fun v c => 10 * v + digit_value c) s r.

Lemma dv_from_mono s : all_digits s -> forall r, 0 <= r -> r * 10 ^ zlen s <= dv_from r s.
Proof.
  unfold dv_from, zlen. induction s as [|c s IH]; intros Hs r Hr; cbn [fold_left length].
  - simpl. lia.
  - assert (Hc : dec_digit c) by (apply Hs; now left). unfold dec_digit in Hc. unfold digit_value at 1.
    assert (Hd : all_digits s) by (intros x Hx; apply Hs; now right).
    specialize (IH Hd (10 * r + (uc c - 48)) ltac:(lia)).
    rewrite Nat2Z.inj_succ, Z.pow_succ_r by lia.
    assert (0 < 10 ^ Z.of_nat (length s)) by (apply Z.pow_pos_nonneg; lia).
    unfold digit_value in *. nia.
Qed.
Lemma dv_from_ge s r : all_digits s -> 0 <= r -> r <= dv_from r s.
Proof.
  intros Hs Hr. pose proof (dv_from_mono s Hs r Hr).
  assert (0 < 10 ^ zlen s) by (apply Z.pow_pos_nonneg; unfold zlen; lia). nia.
Qed.
Lemma dv_from_app r s t : dv_from r (s ++ t) = dv_from (dv_from r s) t.
Proof. unfold dv_from. apply fold_left_app. Qed.
Lemma dv_from_split r s : dv_from r s = r * 10 ^ zlen s + digits_value s.
Proof.
  unfold digits_value, zlen. fold (dv_from 0 s). revert r.
  induction s as [|c s IH] using rev_ind; intros r.
  - simpl. lia.
  - rewrite !dv_from_app. cbn [dv_from fold_left]. rewrite (IH r), (IH 0).
    rewrite app_length. simpl length. rewrite Nat2Z.inj_add. simpl (Z.of_nat 1).
    rewrite Z.pow_add_r by lia. lia.
Qed.
Lemma digits_value_range s : all_digits s -> 0 <= digits_value s < 10 ^ zlen s.
Proof.
  unfold digits_value. fold (dv_from 0 s). induction s as [|c s IH] using rev_ind; intros Hs.
  - simpl. lia.
  - rewrite dv_from_app. cbn [dv_from fold_left].
    assert (Hc : dec_digit c) by (apply Hs, in_or_app; right; now left).
    specialize (IH ltac:(intros x Hx; apply Hs, in_or_app; now left)).
    unfold zlen. rewrite app_length. simpl length. rewrite Nat2Z.inj_add. simpl (Z.of_nat 1).
    rewrite Z.pow_add_r by lia. fold (zlen s). unfold dec_digit, digit_value in *. lia.
Qed.
Lemma digits_value_app s t : digits_value (s ++ t) = digits_value s * 10 ^ zlen t + digits_value t.
Proof. unfold digits_value at 1. fold (dv_from 0 (s ++ t)). rewrite dv_from_app, dv_from_split. reflexivity. Qed.
Lemma digits_value_cons c s : digits_value (c :: s) = digit_value c * 10 ^ zlen s + digits_value s.
Proof. change (c :: s) with ([c] ++ s). rewrite digits_value_app. f_equal. Qed.

Lemma checked_ok t z : in_range t z -> checked t z = Some z.
Proof. unfold checked, in_rangeb, in_range. intros H. destruct (Z.leb_spec (imin t) z), (Z.leb_spec z (imax t)); try lia; reflexivity. Qed.
Lemma checked_no t z : imax t < z -> checked t z = None.
Proof. unfold checked, in_rangeb. intros H. destruct (Z.leb_spec z (imax t)); [lia|]. now rewrite andb_false_r. Qed.

Lemma ity_bounds t : is_ity t -> imin t <= 0 /\ 127 <= imax t.
Proof. intros H. ity_cases t; cbn; lia. Qed.

Fixpoint conv_mag (t : ity) (n : nat) (m : Z) : Z :=
  match n with O => m | S n' => conv_mag t n' (conv t (m * 10)) end.

Lemma tui_loop_digits t : is_ity t -> forall s r m, 0 <= r <= imax t -> all_digits s ->
  tui_loop t r m s = if dv_from r s <=? imax t then Some (dv_from r s, conv_mag t (length s) m) else None.
Proof.
  intros Ht. induction s as [|c s IH]; intros r m Hr Hs.
  - simpl. destruct (Z.leb_spec r (imax t)); [reflexivity|lia].
  - cbn [tui_loop length conv_mag].
    assert (Hc : dec_digit c) by (apply Hs; now left).
    assert (Hd : all_digits s) by (intros x Hx; apply Hs; now right).
    assert (E : is_digit c = true) by now apply is_digit_iff. rewrite E. cbn [negb].
    pose proof (ity_bounds t Ht) as [B1 B2].
    unfold dv_from. cbn [fold_left]. fold (dv_from (10 * r + digit_value c) s).
    rewrite is_digit_sc by auto. unfold dec_digit in Hc.
    assert (Hdv : 0 <= digit_value c <= 9) by (unfold digit_value; lia).
    rewrite (conv_id t (digit_value c)) by (auto; unfold in_range; lia).
    pose proof (dv_from_ge s (10 * r + digit_value c) Hd ltac:(lia)) as Hge.
    destruct (Z_le_gt_dec (r * 10) (imax t)) as [L|L].
    + rewrite checked_ok by (unfold in_range; lia).
      destruct (Z_le_gt_dec (r * 10 + digit_value c) (imax t)) as [L2|L2].
      * rewrite checked_ok by (unfold in_range; lia).
        rewrite IH by (auto; lia). replace (r * 10 + digit_value c) with (10 * r + digit_value c) by ring. reflexivity.
      * rewrite checked_no by lia. destruct (Z.leb_spec (dv_from (10 * r + digit_value c) s) (imax t)); [lia|reflexivity].
    + rewrite checked_no by lia. destruct (Z.leb_spec (dv_from (10 * r + digit_value c) s) (imax t)); [lia|reflexivity].
Qed.

Lemma tui_loop_some t : forall s r m x, tui_loop t r m s = Some x -> all_digits s.
Proof.
  induction s as [|c s IH]; intros r m x H; cbn [tui_loop] in H.
  - intros y Hy. destruct Hy.
  - destruct (is_digit c) eqn:E; [|discriminate]. cbn [negb] in H.
    destruct (checked t (r * 10)); [|discriminate]. destruct (checked t _); [|discriminate].
    intros y [<-|Hy]; [now apply is_digit_iff | eapply IH; eauto].
Qed.

Lemma tui_m_spec t s m : is_ity t -> s <> [] -> all_digits s ->
  to_unsigned_integer_m t s m = if digits_value s <=? imax t then Some (digits_value s, conv_mag t (length s) m) else None.
Proof.
  intros Ht Hn Hs. unfold to_unsigned_integer_m. destruct s; [congruence|].
  rewrite tui_loop_digits by (auto; pose proof (ity_bounds t Ht); lia). reflexivity.
Qed.

Lemma tui_iff t s v : is_ity t ->
  (to_unsigned_integer t s = Some v <-> s <> [] /\ all_digits s /\ v = digits_value s /\ v <= imax t).
Proof.
  intros Ht. unfold to_unsigned_integer. split.
  - intros H. unfold to_unsigned_integer_m in H. destruct s as [|c s]; [discriminate|].
    destruct (tui_loop t 0 1 (c :: s)) as [[x y]|] eqn:E; [|discriminate].
    pose proof (tui_loop_some _ _ _ _ _ E) as Hd.
    rewrite tui_loop_digits in E by (auto; pose proof (ity_bounds t Ht); lia).
    destruct (Z.leb_spec (dv_from 0 (c :: s)) (imax t)); [|discriminate].
    inversion E; subst. simpl in H. inversion H; subst.
    split; [discriminate|]. split; [exact Hd|]. split; [reflexivity|]. assumption.
  - intros (Hn & Hd & -> & Hm). rewrite tui_m_spec by auto.
    destruct (Z.leb_spec (digits_value s) (imax t)); [reflexivity|lia].
Qed.

Lemma not_minus_digit c s : all_digits (c :: s) -> Ascii.eqb c "-" = false.
Proof.
  intros H. specialize (H c (or_introl eq_refl)). unfold dec_digit in H.
  destruct (Ascii.eqb_spec c "-"); auto. subst. change (uc "-") with 45 in H. lia.
Qed.

Lemma to_number_signed_iff t s v : is_ity t -> sgn t = true ->
  (to_number_signed t s = Ok (Some v) <->
   in_range t v /\
   ((s <> [] /\ all_digits s /\ v = digits_value s) \/
    (exists d, s = "-"%char :: d /\ d <> [] /\ all_digits d /\ v = - digits_value d))).
Proof.
  intros Ht Hs. assert (Hu : is_ity (IT false (wid t))) by (destruct t; exact Ht).
  assert (Him : imin t = - (imax t + 1)) by (unfold imin, imax; rewrite Hs; lia).
  pose proof (ity_bounds t Ht) as [B1 B2].
  assert (Hmu : imax t < imax (IT false (wid t)))
    by (clear -Ht Hs; ity_cases t; try discriminate; cbn; lia).
  destruct s as [|c s].
  - simpl. split; [discriminate|]. intros [_ [[H _]|(d & H & _)]]; congruence.
  - unfold to_number_signed. destruct (Ascii.eqb_spec c "-") as [->|Hc].
    + destruct (to_unsigned_integer (IT false (wid t)) s) as [r|] eqn:E.
      * apply tui_iff in E; auto. destruct E as (En & Ed & Er & Em).
        pose proof (digits_value_range s Ed) as Hr. rewrite <- Er in Hr.
        assert (Hpos : forall v, in_range t v /\
            (("-"%char :: s <> [] /\ all_digits ("-"%char :: s) /\ v = digits_value ("-"%char :: s)) \/
             (exists d, "-"%char :: s = "-"%char :: d /\ d <> [] /\ all_digits d /\ v = - digits_value d)) <->
            v = - r /\ - r >= imin t).
        { intros w. split.
          - intros [Hw [(_ & Hd & _)|(d & Heq & _ & _ & Hv)]].
            + exfalso. apply not_minus_digit in Hd. discriminate.
            + inversion Heq; subst. unfold in_range in Hw. lia.
          - intros [-> Hge]. split; [unfold in_range; lia|]. right. exists s. subst r. auto. }
        rewrite Hpos.
        destruct (Z.eqb_spec r (imax t + 1)).
        { split; [intros H; inversion H; lia | intros [-> H]; f_equal; f_equal; lia]. }
        destruct (Z.ltb_spec (imax t + 1) r).
        { split; [discriminate | lia]. }
        rewrite (conv_id t r) by (auto; unfold in_range; lia).
        rewrite arith_in; [|now apply promote_ity | apply promote_range; auto; unfold in_range; lia].
        cbn [bind]. rewrite conv_id by (auto; unfold in_range; lia).
        split; [intros Hx; inversion Hx; lia | intros [-> Hx]; reflexivity].
      * split; [discriminate|]. intros [Hv [(_ & Hd & _)|(d & Heq & Hn & Hd & Hv')]].
        { exfalso. apply not_minus_digit in Hd. discriminate. }
        inversion Heq; subst d. exfalso.
        assert (to_unsigned_integer (IT false (wid t)) s = Some (digits_value s)) as E'; [|congruence].
        apply tui_iff; auto. unfold in_range in Hv. do 3 (split; auto). lia.
    + split.
      * intros H. inversion H as [H']. clear H. apply tui_iff in H'; auto. destruct H' as (Hn & Hd & Hv & Hm).
        pose proof (digits_value_range _ Hd). split; [unfold in_range; lia|]. left. auto.
      * intros [Hv [(Hn & Hd & Hv')|(d & Heq & _)]]; [|congruence].
        f_equal. apply tui_iff; auto. unfold in_range in Hv. do 3 (split; auto). lia.
Qed.
Lemma to_number_signed_total t s : is_ity t -> sgn t = true -> exists r, to_number_signed t s = Ok r.
Proof.
  intros Ht Hs. assert (Hu : is_ity (IT false (wid t))) by (destruct t; exact Ht).
  assert (Him : imin t = - (imax t + 1)) by (unfold imin, imax; rewrite Hs; lia).
  pose proof (ity_bounds t Ht) as [B1 B2].
  destruct s as [|c s]; [eexists; reflexivity|]. unfold to_number_signed.
  destruct (Ascii.eqb c "-"); [|eexists; reflexivity].
  destruct (to_unsigned_integer _ s) as [r|] eqn:E; [|eexists; reflexivity].
  apply tui_iff in E; auto. destruct E as (En & Ed & Er & Em).
  pose proof (digits_value_range s Ed) as Hr. rewrite <- Er in Hr.
  destruct (Z.eqb_spec r (imax t + 1)); [eexists; reflexivity|].
  destruct (Z.ltb_spec (imax t + 1) r); [eexists; reflexivity|].
  rewrite (conv_id t r) by (auto; unfold in_range; lia).
  rewrite arith_in; [|now apply promote_ity | apply promote_range; auto; unfold in_range; lia].
  eexists; reflexivity.
Qed.

(** ** Decimal printing *)
Lemma uc_chr_digit d : 0 <= d <= 9 -> uc (chr (48 + d)) = 48 + d.
Proof. intros H. rewrite uc_chr. rewrite Z.mod_small; lia. Qed.

Lemma digits_of_ok fuel : forall n, 0 <= n < 10 ^ Z.of_nat fuel -> (0 < fuel)%nat ->
  digits_of fuel n <> [] /\ all_digits (digits_of fuel n) /\ digits_value (digits_of fuel n) = n.
Proof.
  induction fuel as [|fuel IH]; intros n Hn Hf; [lia|]. cbn [digits_of].
  destruct (Z.ltb_spec n 10) as [L|L].
  - split; [discriminate|]. split.
    + intros c [<-|[]]. unfold dec_digit. rewrite uc_chr_digit; lia.
    + unfold digits_value. cbn [fold_left]. unfold digit_value. rewrite uc_chr_digit; lia.
  - rewrite Nat2Z.inj_succ, Z.pow_succ_r in Hn by lia.
    assert (Hd : 0 <= n / 10 < 10 ^ Z.of_nat fuel).
    { split; [apply Z.div_pos; lia|]. apply Z.div_lt_upper_bound; lia. }
    assert (Hf' : (0 < fuel)%nat).
    { destruct fuel; [|lia]. simpl in Hd. assert (1 <= n / 10) by (apply Z.div_le_lower_bound; lia). lia. }
    destruct (IH (n / 10) Hd Hf') as (I1 & I2 & I3).
    pose proof (Z.mod_pos_bound n 10 ltac:(lia)). split; [|split].
    + intros E. apply app_eq_nil in E. destruct E; discriminate.
    + intros c Hc. apply in_app_or in Hc. destruct Hc as [Hc|[<-|[]]]; auto.
      unfold dec_digit. rewrite uc_chr_digit; lia.
    + rewrite digits_value_app, I3. unfold digits_value, zlen. cbn [fold_left length].
      unfold digit_value. rewrite uc_chr_digit by lia. change (10 ^ Z.of_nat 1) with 10.
      pose proof (Z.div_mod n 10). lia.
Qed.
Lemma decimal_of_nonneg_ok n : 0 <= n ->
  decimal_of_nonneg n <> [] /\ all_digits (decimal_of_nonneg n) /\ digits_value (decimal_of_nonneg n) = n.
Proof.
  intros Hn. unfold decimal_of_nonneg. apply digits_of_ok; [|lia]. split; auto.
  rewrite Nat2Z.inj_succ, Z2Nat.id by apply Z.log2_nonneg.
  destruct (Z.eq_dec n 0) as [->|H0]; [cbn; lia|].
  pose proof (Z.log2_spec n ltac:(lia)) as [_ H]. eapply Z.lt_le_trans; [exact H|].
  apply Z.pow_le_mono_l. pose proof (Z.log2_nonneg n). lia.
Qed.

(** ** Portable variant *)
Lemma mod_over x m : m <= x < 2 * m -> x mod m = x - m.
Proof. intros H. symmetry. apply (Z.mod_unique x m 1); lia. Qed.
Lemma over_wrap t x : is_ity t -> sgn t = false \/ wid t < 32 -> imax t < x <= imax t + 9 ->
  exists q, arith (promote t) x = Ok q /\ conv t q = x - 2 ^ wid t.
Proof.
  intros Ht Hn Hx.
  assert (HC : conv t x = x - 2 ^ wid t).
  { unfold conv. destruct (sgn t) eqn:Hs.
    - rewrite Z.mod_small by (clear -Ht Hs Hx; ity_cases t; try discriminate; cbn in *; lia).
      destruct (Z.leb_spec (2 ^ (wid t - 1)) x) as [|L]; [reflexivity|].
      exfalso. unfold imax in Hx. rewrite Hs in Hx. lia.
    - cbn [andb]. apply mod_over. clear -Ht Hs Hx; ity_cases t; try discriminate; cbn in *; lia. }
  destruct (Z_lt_ge_dec (wid t) 32) as [L|L].
  - exists x. split; auto. apply arith_in; [now apply promote_ity|].
    clear -Ht L Hx. ity_cases t; cbn [wid] in L; try lia; unfold in_range; cbn in *; lia.
  - destruct Hn as [Hs|]; [|lia]. exists (x - 2 ^ wid t). split.
    + clear HC. unfold promote. destruct (Z.ltb_spec (wid t) 32); [lia|]. unfold arith. rewrite Hs. f_equal.
      apply mod_over. clear -Ht Hs Hx; ity_cases t; try discriminate; cbn in *; lia.
    + rewrite conv_id; auto. clear -Ht Hs Hx; ity_cases t; try discriminate; unfold in_range; cbn in *; lia.
Qed.
Lemma portable_same t : is_ity t -> sgn t = false \/ wid t < 32 -> forall s r, 0 <= r <= imax t ->
  tui_loop_portable t r s = Ok (option_map fst (tui_loop t r 1 s)) /\
  forall m, option_map fst (tui_loop t r m s) = option_map fst (tui_loop t r 1 s).
Proof.
  intros Ht Hn.
  assert (HM : forall s r m m', option_map fst (tui_loop t r m s) = option_map fst (tui_loop t r m' s)).
  { induction s as [|c s IH]; intros r m m'; cbn [tui_loop]; auto.
    destruct (negb (is_digit c)); auto. destruct (checked t (r * 10)); auto. destruct (checked t _); auto. }
  induction s as [|c s IH]; intros r Hr; (split; [|intros; apply HM]).
  - reflexivity.
  - cbn [tui_loop tui_loop_portable]. destruct (is_digit c) eqn:E; [|reflexivity]. cbn [negb].
    pose proof (ity_bounds t Ht) as [B1 B2].
    rewrite is_digit_sc by auto. apply is_digit_iff in E. unfold dec_digit in E.
    assert (Hdv : 0 <= digit_value c <= 9) by (unfold digit_value; lia).
    rewrite (conv_id t (digit_value c)) by (auto; unfold in_range; lia).
    pose proof (Z.div_mod (imax t) 10 ltac:(lia)). pose proof (Z.mod_pos_bound (imax t) 10 ltac:(lia)).
    destruct (Z.ltb_spec (imax t / 10) r) as [L|L].
    + rewrite checked_no by lia. reflexivity.
    + rewrite (checked_ok t (r * 10)) by (unfold in_range; lia).
      rewrite arith_in; [|now apply promote_ity | apply promote_range; auto; unfold in_range; lia].
      cbn [bind]. rewrite (conv_id t (r * 10)) by (auto; unfold in_range; lia).
      destruct (Z_le_gt_dec (r * 10 + digit_value c) (imax t)) as [L2|L2].
      * rewrite checked_ok by (unfold in_range; lia).
        rewrite arith_in; [|now apply promote_ity | apply promote_range; auto; unfold in_range; lia].
        cbn [bind]. rewrite conv_id by (auto; unfold in_range; lia).
        destruct (Z.ltb_spec (r * 10 + digit_value c) (r * 10)); [lia|].
        destruct (IH (r * 10 + digit_value c) ltac:(lia)) as [IH1 _]. rewrite IH1. f_equal. apply HM.
      * rewrite checked_no by lia. cbn [option_map].
        set (x := r * 10 + digit_value c) in *.
        assert (Hx : imax t < x <= imax t + 9) by (unfold x; lia).
        assert (Hlast : imax t - 18 <= r * 10) by (unfold x in *; lia).
        assert (E2 : exists q, arith (promote t) x = Ok q /\ conv t q = x - 2 ^ wid t).
        { apply over_wrap; auto. }
        destruct E2 as (q & Eq & Ec). rewrite Eq. cbn [bind]. rewrite Ec.
        destruct (Z.ltb_spec (x - 2 ^ wid t) (r * 10)) as [|G]; [reflexivity|exfalso].
        assert (256 <= 2 ^ wid t) by (clear -Ht; ity_cases t; cbn; lia). unfold x in *. lia.
Qed.
Lemma portable_signed t : is_ity t -> forall s r v, 0 <= r <= imax t ->
  option_map fst (tui_loop t r 1 s) = Some v -> tui_loop_portable t r s = Ok (Some v).
Proof.
  intros Ht.
  assert (HM : forall s r m m', option_map fst (tui_loop t r m s) = option_map fst (tui_loop t r m' s)).
  { induction s as [|c s IH]; intros r m m'; cbn [tui_loop]; auto.
    destruct (negb (is_digit c)); auto. destruct (checked t (r * 10)); auto. destruct (checked t _); auto. }
  induction s as [|c s IH]; intros r v Hr; cbn [tui_loop tui_loop_portable].
  - simpl. congruence.
  - destruct (is_digit c) eqn:E; [|discriminate]. cbn [negb].
    pose proof (ity_bounds t Ht) as [B1 B2].
    rewrite is_digit_sc by auto. apply is_digit_iff in E. unfold dec_digit in E.
    assert (Hdv : 0 <= digit_value c <= 9) by (unfold digit_value; lia).
    rewrite (conv_id t (digit_value c)) by (auto; unfold in_range; lia).
    pose proof (Z.div_mod (imax t) 10 ltac:(lia)). pose proof (Z.mod_pos_bound (imax t) 10 ltac:(lia)).
    destruct (Z_le_gt_dec (r * 10) (imax t)) as [L|L]; [|rewrite checked_no by lia; discriminate].
    rewrite (checked_ok t (r * 10)) by (unfold in_range; lia).
    destruct (Z_le_gt_dec (r * 10 + digit_value c) (imax t)) as [L2|L2]; [|rewrite checked_no by lia; discriminate].
    rewrite checked_ok by (unfold in_range; lia). intros Hv.
    destruct (Z.ltb_spec (imax t / 10) r); [lia|].
    rewrite arith_in; [|now apply promote_ity | apply promote_range; auto; unfold in_range; lia].
    cbn [bind]. rewrite (conv_id t (r * 10)) by (auto; unfold in_range; lia).
    rewrite arith_in; [|now apply promote_ity | apply promote_range; auto; unfold in_range; lia].
    cbn [bind]. rewrite conv_id by (auto; unfold in_range; lia).
    destruct (Z.ltb_spec (r * 10 + digit_value c) (r * 10)); [lia|].
    apply IH; [lia|]. rewrite <- Hv. apply HM.
Qed.
