(** Decimal numbers in formatted dates. *)
From Verif Require Import Base IntModel DateModel DateSpec DateProofs DateProofs2 FmtModel FmtSpec StrProofs2.
Local Open Scope Z_scope.

(** * Decimal digits *)
Lemma digit_chr_uc d : 0 <= d <= 9 -> uc (digit_chr d) = 48 + d.
Proof. intros H. unfold digit_chr. rewrite uc_chr, Z.mod_small; lia. Qed.
Lemma digit_chr_dig d : 0 <= d <= 9 -> is_dig (digit_chr d).
Proof. intros H. unfold is_dig. rewrite digit_chr_uc; lia. Qed.
Lemma dig_digit_chr c : is_dig c -> c = digit_chr (uc c - 48).
Proof. intros H. unfold is_dig in H. apply uc_inj. rewrite digit_chr_uc; lia. Qed.

Lemma dec_loop_fuel f : forall g n acc, (1 <= f)%nat -> (1 <= g)%nat ->
  0 <= n < 10 ^ Z.of_nat f -> n < 10 ^ Z.of_nat g ->
  dec_loop f n acc = dec_loop g n acc.
Proof.
  induction f as [|f IH]; intros g n acc F1 G1 F G; [lia|].
  destruct g as [|g]; [lia|].
  cbn [dec_loop]. destruct (Z.ltb_spec n 10); [reflexivity|].
  destruct f as [|f]; [change (10 ^ Z.of_nat 1) with 10 in F; lia|].
  destruct g as [|g]; [change (10 ^ Z.of_nat 1) with 10 in G; lia|].
  rewrite Nat2Z.inj_succ, Z.pow_succ_r in F, G by lia. apply IH; try lia.
  - split; [apply Z.div_pos; lia|apply Z.div_lt_upper_bound; lia].
  - apply Z.div_lt_upper_bound; lia.
Qed.
Lemma dec_loop_app f : forall n acc, dec_loop f n acc = dec_loop f n [] ++ acc.
Proof.
  induction f as [|f IH]; intros n acc; [reflexivity|]. cbn [dec_loop].
  destruct (n <? 10); [reflexivity|]. rewrite IH. rewrite (IH _ [_]). rewrite <- app_assoc. reflexivity.
Qed.
Lemma log2_fuel n : 0 <= n -> n < 10 ^ Z.of_nat (S (Z.to_nat (Z.log2 n))).
Proof.
  intros Hn. rewrite Nat2Z.inj_succ, Z2Nat.id by apply Z.log2_nonneg.
  destruct (Z.eq_dec n 0) as [->|]; [reflexivity|].
  apply Z.lt_le_trans with (2 ^ Z.succ (Z.log2 n)); [apply Z.log2_spec; lia|].
  apply Z.pow_le_mono_l. lia.
Qed.
Lemma dec_u_eq n : 0 <= n ->
  dec_u n = if n <? 10 then [digit_chr n] else dec_u (n / 10) ++ [digit_chr (n mod 10)].
Proof.
  intros Hn. unfold dec_u at 1. cbn [dec_loop]. destruct (Z.ltb_spec n 10).
  - rewrite Z.mod_small by lia. reflexivity.
  - rewrite dec_loop_app. f_equal. pose proof (log2_fuel n Hn) as L.
    assert (Q : 0 <= n / 10) by (apply Z.div_pos; lia). pose proof (log2_fuel (n / 10) Q).
    unfold dec_u. assert (L1 : 1 <= Z.log2 n) by (change 1 with (Z.log2 2); apply Z.log2_le_mono; lia).
    apply dec_loop_fuel; try lia. split; [exact Q|]. apply Z.div_lt_upper_bound; [lia|].
    rewrite Nat2Z.inj_succ, Z.pow_succ_r in L by lia. exact L.
Qed.

Lemma value_app s c : value (s ++ [c]) = 10 * value s + (uc c - 48).
Proof. unfold value. rewrite fold_left_app. reflexivity. Qed.
Lemma value_cons_gen s : forall a, fold_left (fun a c => 10 * a + (uc c - 48)) s a
  = a * 10 ^ zlen s + value s.
Proof.
  induction s as [|c s IH]; intros a; [unfold value, zlen; cbn; lia|]. unfold value. cbn [fold_left].
  rewrite IH. rewrite (IH (10 * 0 + (uc c - 48))). unfold zlen. cbn [length].
  rewrite Nat2Z.inj_succ, Z.pow_succ_r by lia. ring.
Qed.
Lemma value_cons c s : value (c :: s) = (uc c - 48) * 10 ^ zlen s + value s.
Proof. unfold value at 1. cbn [fold_left]. rewrite value_cons_gen. f_equal. Qed.
Lemma value_bound s : Forall is_dig s -> 0 <= value s < 10 ^ zlen s.
Proof.
  induction 1 as [|c s D F IH]; [unfold value, zlen; cbn; lia|].
  rewrite value_cons. unfold zlen in *. cbn [length]. rewrite Nat2Z.inj_succ, Z.pow_succ_r by lia.
  unfold is_dig in D. nia.
Qed.
Lemma value_zeros k s : value (repeat "0"%char k ++ s) = value s.
Proof.
  induction k as [|k IH]; [reflexivity|]. cbn [repeat app]. rewrite value_cons, IH.
  change (uc "0" - 48) with 0. lia.
Qed.
Lemma zeros_dig k : Forall is_dig (repeat "0"%char k).
Proof. induction k; constructor; auto. unfold is_dig. change (uc "0") with 48. lia. Qed.

Lemma dec_ind (Pr : Z -> Prop) : (forall n, 0 <= n < 10 -> Pr n) ->
  (forall n, 10 <= n -> Pr (n / 10) -> Pr n) -> forall n, 0 <= n -> Pr n.
Proof.
  intros A B n Hn. apply (Z_lt_induction (fun n => 0 <= n -> Pr n)); [|lia|lia].
  intros m IH Hm. destruct (Z_lt_le_dec m 10); [apply A; lia|]. apply B; [lia|].
  apply IH; [split; [apply Z.div_pos|apply Z.div_lt]; lia|apply Z.div_pos; lia].
Qed.
Lemma dec_u_dig n : 0 <= n -> Forall is_dig (dec_u n) /\ value (dec_u n) = n /\ dec_u n <> [] /\
  (0 < n -> hd "0"%char (dec_u n) <> "0"%char).
Proof.
  revert n. apply dec_ind.
  - intros n Hn. rewrite dec_u_eq by lia. destruct (Z.ltb_spec n 10); [|lia].
    split; [constructor; [apply digit_chr_dig; lia|constructor]|]. split.
    + unfold value. cbn [fold_left]. rewrite digit_chr_uc by lia. lia.
    + split; [discriminate|]. intros P E. cbn [hd] in E. apply (f_equal uc) in E.
      rewrite digit_chr_uc in E by lia. change (uc "0") with 48 in E. lia.
  - intros n Hn (F & V & NE & HD). rewrite dec_u_eq by lia. destruct (Z.ltb_spec n 10); [lia|].
    pose proof (Z.mod_pos_bound n 10 ltac:(lia)).
    split; [apply Forall_app; split; [exact F|constructor; [apply digit_chr_dig; lia|constructor]]|]. split.
    + rewrite value_app, V, digit_chr_uc by lia. pose proof (Z.div_mod n 10). lia.
    + split; [destruct (dec_u (n / 10)); discriminate|]. intros _.
      destruct (dec_u (n / 10)) as [|c s]; [now destruct NE|]. apply HD. apply Z.div_str_pos. lia.
Qed.

(** Digit strings with the same value differ in leading zeros only. *)
Lemma digits_dec_u s : Forall is_dig s -> s <> [] ->
  exists j, s = repeat "0"%char j ++ dec_u (value s).
Proof.
  induction s as [|c s IH] using rev_ind; intros F NE; [now destruct NE|].
  apply Forall_app in F. destruct F as [F C]. inversion C as [|? ? D _]; subst.
  rewrite value_app. assert (V := value_bound s F). unfold is_dig in D.
  destruct s as [|c0 s0].
  - exists O. cbn [app repeat]. change (value []) with 0. rewrite dec_u_eq by lia.
    destruct (Z.ltb_spec (10 * 0 + (uc c - 48)) 10); [|lia].
    replace (10 * 0 + (uc c - 48)) with (uc c - 48) by lia. rewrite <- dig_digit_chr by exact D. reflexivity.
  - destruct (IH F ltac:(discriminate)) as [j E]. set (s := c0 :: s0) in *. clearbody s.
    set (v := value s) in *. rewrite (dec_u_eq (10 * v + (uc c - 48))) by lia.
    destruct (Z.ltb_spec (10 * v + (uc c - 48)) 10).
    + assert (v = 0) by lia. rewrite H0 in E. change (dec_u 0) with ["0"%char] in E.
      exists (S j). rewrite E. rewrite H0.
      replace (10 * 0 + (uc c - 48)) with (uc c - 48) by lia. rewrite <- dig_digit_chr by exact D.
      replace (repeat "0"%char (S j)) with (repeat "0"%char j ++ ["0"%char]) by (symmetry; apply repeat_cons).
      rewrite <- !app_assoc. reflexivity.
    + exists j. rewrite E at 1. replace ((10 * v + (uc c - 48)) / 10) with v by (apply (Z.div_unique _ _ _ (uc c - 48)); lia).
      replace ((10 * v + (uc c - 48)) mod 10) with (uc c - 48) by (apply (Z.mod_unique _ _ v); lia).
      rewrite <- dig_digit_chr by exact D. now rewrite app_assoc.
Qed.

(** * Padded numbers *)
Definition pad (k : nat) (n : Z) : str := repeat "0"%char (k - length (dec_u n)) ++ dec_u n.
Lemma pad_padded k n : (1 <= k)%nat -> 0 <= n -> padded k n (pad k n).
Proof.
  intros K Hn. destruct (dec_u_dig n Hn) as (F & V & NE & HD). unfold padded, pad. split; [|split].
  - apply Forall_app. split; [apply zeros_dig|exact F].
  - now rewrite value_zeros.
  - rewrite app_length, repeat_length. destruct (Nat.le_gt_cases (length (dec_u n)) k); [left; lia|right].
    split; [lia|]. replace (k - length (dec_u n))%nat with O by lia. cbn [repeat app]. apply HD.
    destruct (Z.eq_dec n 0) as [->|]; [|lia]. change (length (dec_u 0)) with 1%nat in *. lia.
Qed.
Lemma padded_pad k n s : (1 <= k)%nat -> padded k n s -> s = pad k n.
Proof.
  intros K (F & V & L). assert (NE : s <> []) by (intros ->; cbn in L; lia).
  destruct (digits_dec_u s F NE) as [j E]. rewrite V in E. unfold pad.
  assert (LE : length s = (j + length (dec_u n))%nat) by (rewrite E at 1; now rewrite app_length, repeat_length).
  destruct L as [L|[L H]].
  - rewrite E at 1. do 2 f_equal. lia.
  - destruct j as [|j]; [|exfalso; apply H; rewrite E; reflexivity]. cbn [Nat.add] in LE.
    replace (k - length (dec_u n))%nat with O by lia. exact E.
Qed.
Lemma padded_fun k n s t : (1 <= k)%nat -> padded k n s -> padded k n t -> s = t.
Proof. intros K A B. rewrite (padded_pad k n s K A). symmetry. now apply padded_pad. Qed.
Lemma padded_nonneg k n s : padded k n s -> 0 <= n.
Proof. intros (F & V & _). pose proof (value_bound s F). lia. Qed.
Lemma signed_fun k n s t : (1 <= k)%nat -> signed k n s -> signed k n t -> s = t.
Proof.
  intros K [[A P]|[A (u & -> & P)]] [[B Q]|[B (v & -> & Q)]]; try lia.
  - exact (padded_fun _ _ _ _ K P Q).
  - f_equal. exact (padded_fun _ _ _ _ K P Q).
Qed.

Lemma dec_nonneg n : 0 <= n -> dec n = dec_u n.
Proof. intros H. unfold dec. destruct (Z.ltb_spec n 0); [lia|reflexivity]. Qed.
Lemma put_right_pad k n : 0 <= n -> put_right "0" k n = pad k n.
Proof. intros H. unfold put_right. now rewrite dec_nonneg. Qed.
Lemma put_two_pad n : 0 <= n -> put_two n = pad 2 n.
Proof.
  intros H. unfold put_two, pad. rewrite dec_nonneg by lia. rewrite dec_u_eq by lia.
  destruct (Z.ltb_spec n 10); [reflexivity|]. rewrite app_length. cbn [length].
  assert (Q : 0 <= n / 10) by (apply Z.div_pos; lia). destruct (dec_u_dig (n / 10) Q) as (_ & _ & NE & _).
  destruct (dec_u (n / 10)) as [|c s]; [now destruct NE|]. cbn [length].
  replace (2 - (S (length s) + 1))%nat with O by lia. reflexivity.
Qed.
Lemma dec_pad n : 0 <= n -> dec n = pad 1 n.
Proof.
  intros H. rewrite dec_nonneg by lia. unfold pad.
  destruct (dec_u_dig n H) as (_ & _ & NE & _). destruct (dec_u n); [now destruct NE|]. cbn [length].
  rewrite Nat.sub_succ. reflexivity.
Qed.
Lemma put_internal_signed y : signed 4 y (put_internal "0" (if y <? 0 then 5 else 4) y).
Proof.
  unfold put_internal, signed. destruct (Z.ltb_spec y 0).
  - right. split; [lia|]. eexists. split; [reflexivity|].
    unfold dec. destruct (Z.ltb_spec y 0); [|lia]. cbn [length]. rewrite Nat.sub_succ.
    apply (pad_padded 4 (- y)); lia.
  - left. split; [lia|]. rewrite put_right_pad by lia. apply pad_padded; lia.
Qed.
