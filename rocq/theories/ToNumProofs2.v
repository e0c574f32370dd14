(** Parsing of floating-point numbers. *)
From Coq Require Import Reals.
From Flocq Require Import Core.Core IEEE754.BinarySingleNaN.
From Verif Require Import Base StrSearch StrSpec StrModel StrProofs1 StrProofs2 IntModel IntProofs FloatModel
  ToNumModel ToNumSpec ToNumProofs.
Local Open Scope Z_scope.

Lemma all_digits_app s t : all_digits (s ++ t) <-> all_digits s /\ all_digits t.
Proof.
  unfold all_digits. split.
  - intros H. split; intros c Hc; apply H, in_or_app; auto.
  - intros [H1 H2] c Hc. apply in_app_or in Hc. destruct Hc; auto.
Qed.
Lemma all_digits_nil : all_digits [].
Proof. intros c []. Qed.
Lemma all_digits_cons c s : all_digits (c :: s) <-> dec_digit c /\ all_digits s.
Proof.
  split; [intros H; split; [apply H; now left | intros x Hx; apply H; now right] | intros [H1 H2] x [<-|Hx]; auto].
Qed.
Lemma all_digits_firstn n s : all_digits s -> all_digits (firstn n s).
Proof. intros H c Hc. apply H. rewrite <- (firstn_skipn n s). apply in_or_app. now left. Qed.

(** find_if *)
Lemma find_if_none p t : find_if p t = None <-> forall c, In c t -> p c = false.
Proof.
  induction t as [|a t IH]; simpl; [split; [intros _ c []|auto]|].
  destruct (p a) eqn:E.
  - split; [discriminate|]. intros H. rewrite (H a) in E by auto. discriminate.
  - destruct (find_if p t); simpl.
    + split; [discriminate|]. intros H. exfalso. assert (None = Some n) as X; [|discriminate X].
      symmetry. apply IH. auto.
    + split; auto. intros _ c [<-|Hc]; auto. now apply IH.
Qed.
Lemma find_if_some p t n : find_if p t = Some n <->
  exists c, t = firstn n t ++ c :: skipn (S n) t /\ (n < length t)%nat /\ p c = true /\
            forall d, In d (firstn n t) -> p d = false.
Proof.
  revert n. induction t as [|a t IH]; intros n; simpl.
  - split; [discriminate|]. intros (c & _ & H & _). lia.
  - destruct (p a) eqn:E.
    + split.
      * intros [= <-]. exists a. simpl. repeat split; auto; try lia.
      * intros (c & H1 & H2 & H3 & H4). destruct n; auto. simpl in H4. rewrite (H4 a) in E by auto. discriminate.
    + split.
      * intros H. destruct (find_if p t) as [m|] eqn:Em; [|discriminate]. simpl in H. inversion H; subst.
        destruct (proj1 (IH m) eq_refl) as (c & H1 & H2 & H3 & H4). exists c. simpl.
        repeat split; auto; try lia.
        -- f_equal. exact H1.
        -- intros d [<-|Hd]; auto.
      * intros (c & H1 & H2 & H3 & H4). destruct n as [|n].
        -- simpl in H1. inversion H1; subst. congruence.
        -- simpl in *. inversion H1 as [H1']. rewrite <- H1'.
           rewrite (proj2 (IH n)); auto. exists c. repeat split; auto; try lia.
Qed.
Lemma find_if_app p m c x : (forall d, In d m -> p d = false) -> p c = true ->
  find_if p (m ++ c :: x) = Some (length m).
Proof.
  intros H Hc. induction m as [|a m IH]; simpl; [now rewrite Hc|].
  rewrite (H a) by (now left). rewrite IH; auto. intros d Hd. apply H. now right.
Qed.
Lemma find_char_if c s : find s [c] 0 = find_if (Ascii.eqb c) s.
Proof.
  unfold find. simpl Nat.leb. simpl skipn. cbn iota.
  replace (find0 s [c]) with (find_if (Ascii.eqb c) s).
  - destruct (find_if (Ascii.eqb c) s); reflexivity.
  - induction s as [|a s IH]; simpl; auto. destruct (Ascii.eqb c a); simpl; auto. now rewrite IH.
Qed.
Lemma find_first_of_if s ds : find_first_of s ds 0 = find_if (fun c => memb c ds) s.
Proof. unfold find_first_of, find_if_from. simpl. destruct (find_if _ s); reflexivity. Qed.

(** ** Exponent *)
Definition is_e (c : ascii) : bool := memb c (!"eE").
Lemma is_e_iff c : is_e c = true <-> c = "e"%char \/ c = "E"%char.
Proof.
  unfold is_e, memb. simpl. rewrite orb_false_r, orb_true_iff, !Ascii.eqb_eq. tauto.
Qed.

Lemma t_i32_ity : is_ity t_i32. Proof. unfold is_ity; cbn; auto. Qed.
Lemma t_u64_ity : is_ity t_u64. Proof. unfold is_ity; cbn; auto. Qed.

Ltac ranges := unfold in_range in *;
  change (imin t_i32) with (-2147483648) in *; change (imax t_i32) with 2147483647 in *;
  change (imin t_u64) with 0 in *; change (imax t_u64) with 18446744073709551615 in *;
  change (10 ^ 19) with 10000000000000000000 in *; change (2 ^ 64) with 18446744073709551616 in *;
  change (2 ^ 30) with 1073741824 in *; change (2 ^ 29) with 536870912 in *.
Lemma parse_exponent_some s e : parse_exponent s = Ok (Some e) <->
  exists sign ds, s = sign ++ ds /\ ds <> [] /\ all_digits ds /\ digits_value ds <= imax t_i32 /\
    ((sign = [] /\ e = digits_value ds) \/ (sign = ["+"%char] /\ e = digits_value ds) \/
     (sign = ["-"%char] /\ e = - digits_value ds)).
Proof.
  unfold parse_exponent. destruct s as [|c s].
  - split; [discriminate|]. intros (sign & ds & H & Hn & _). symmetry in H. apply app_eq_nil in H. tauto.
  - assert (HA : forall ds, ds <> [] -> all_digits ds -> digits_value ds <= imax t_i32 ->
        arith t_i32 (- digits_value ds) = Ok (- digits_value ds)).
    { intros ds _ Hd Hm. apply arith_in; [apply t_i32_ity|]. pose proof (digits_value_range ds Hd).
      ranges; lia. }
    split.
    + destruct (Ascii.eqb_spec c "-") as [->|Nm].
      * change (Ascii.eqb "-" "+") with false. cbn [orb].
        destruct (to_unsigned_integer t_i32 s) as [r|] eqn:E; [|discriminate].
        apply tui_iff in E; [|apply t_i32_ity]. destruct E as (En & Ed & -> & Em).
        rewrite HA by auto. cbn [bind]. intros [= <-]. exists ["-"%char], s. auto 10.
      * destruct (Ascii.eqb_spec c "+") as [->|Np]; cbn [orb].
        -- destruct (to_unsigned_integer t_i32 s) as [r|] eqn:E; [|discriminate].
           apply tui_iff in E; [|apply t_i32_ity]. destruct E as (En & Ed & -> & Em).
           intros [= <-]. exists ["+"%char], s. auto 10.
        -- destruct (to_unsigned_integer t_i32 (c :: s)) as [r|] eqn:E; [|discriminate].
           apply tui_iff in E; [|apply t_i32_ity]. destruct E as (En & Ed & -> & Em).
           intros [= <-]. exists [], (c :: s). auto 10.
    + intros (sign & ds & H & Hn & Hd & Hm & HS).
      assert (ET : to_unsigned_integer t_i32 ds = Some (digits_value ds)).
      { apply tui_iff; [apply t_i32_ity|]. do 3 (split; auto). }
      destruct HS as [[-> ->]|[[-> ->]|[-> ->]]]; simpl app in H.
      * subst ds. assert (Hc : dec_digit c) by (apply Hd; now left). unfold dec_digit in Hc.
        destruct (Ascii.eqb_spec c "-") as [->|_]; [cbn in Hc; lia|].
        destruct (Ascii.eqb_spec c "+") as [->|_]; [cbn in Hc; lia|]. cbn [orb].
        rewrite ET. reflexivity.
      * inversion H; subst. change (Ascii.eqb "+" "-") with false. change (Ascii.eqb "+" "+") with true. cbn [orb].
        rewrite ET. reflexivity.
      * inversion H; subst. change (Ascii.eqb "-" "+") with false. change (Ascii.eqb "-" "-") with true. cbn [orb].
        rewrite ET. rewrite HA by auto. reflexivity.
Qed.
Lemma parse_exponent_total c s : exists r, parse_exponent (c :: s) = Ok r.
Proof.
  unfold parse_exponent. destruct (to_unsigned_integer t_i32 _) as [r|] eqn:E; [|eauto].
  apply tui_iff in E; [|apply t_i32_ity]. destruct E as (En & Ed & -> & Em).
  destruct (Ascii.eqb c "-"); [|eauto].
  rewrite arith_in; [cbn [bind]; eauto|apply t_i32_ity|]. pose proof (digits_value_range _ Ed).
  ranges; lia.
Qed.

Definition exp_digits_ok (x : str) : Prop :=
  forall (e : ascii) sign ds, x = e :: sign ++ ds -> all_digits ds -> (sign = [] \/ sign = ["+"%char] \/ sign = ["-"%char]) ->
    digits_value ds <= imax t_i32.

Lemma split_exponent_some s mant ex : split_exponent s = Ok (Some (mant, ex)) ->
  exists x, s = mant ++ x /\ exponent_part ex x /\ (forall d, In d mant -> is_e d = false).
Proof.
  unfold split_exponent. rewrite find_first_of_if. intros H.
  destruct (find_if (fun c => memb c (!"eE")) s) as [n|] eqn:E.
  - apply find_if_some in E. destruct E as (c & E1 & E2 & E3 & E4).
    destruct (Nat.eqb_spec (n + 1) (length s)) as [|Hl]; [discriminate H|].
    rewrite Nat.add_1_r in *.
    destruct (parse_exponent (skipn (S n) s)) as [[x|]| | |] eqn:P; try discriminate H.
    cbn [bind] in H. inversion H; subst; clear H.
    apply parse_exponent_some in P. destruct P as (sign & ds & P1 & P2 & P3 & P4 & P5).
    exists (c :: sign ++ ds). split; [now rewrite <- P1|]. split; auto.
    right. exists c, sign, ds. repeat split; auto; try apply P3; auto. now apply is_e_iff.
  - inversion H; subst. exists []. rewrite app_nil_r. split; auto. split; [left; auto|].
    now apply find_if_none.
Qed.
Lemma split_exponent_ok mant x ex : (forall d, In d mant -> is_e d = false) -> exponent_part ex x ->
  Z.abs ex <= imax t_i32 ->
  split_exponent (mant ++ x) = Ok (Some (mant, ex)).
Proof.
  intros Hm Hx Hb. unfold split_exponent. rewrite find_first_of_if.
  destruct Hx as [[-> ->]|(e & sign & ds & -> & He & Hn & Hd & HS)].
  - rewrite app_nil_r. rewrite (proj2 (find_if_none _ mant)) by exact Hm. reflexivity.
  - rewrite (find_if_app (fun c => memb c (!"eE")) mant e (sign ++ ds)); [|exact Hm|now apply is_e_iff].
    rewrite app_length. cbn [length]. destruct (Nat.eqb_spec (length mant + 1) (length mant + S (length (sign ++ ds)))) as [El|_].
    { exfalso. rewrite app_length in El. destruct ds; [congruence|]. simpl in El. lia. }
    rewrite skipn_app. rewrite skipn_all2 by lia.
    replace (length mant + 1 - length mant)%nat with 1%nat by lia. cbn [skipn app].
    assert (P : parse_exponent (sign ++ ds) = Ok (Some ex)).
    { apply parse_exponent_some. exists sign, ds. pose proof (digits_value_range ds Hd). repeat split; auto; try apply Hd; auto.
      destruct HS as [[-> ->]|[[-> ->]|[-> ->]]]; lia. }
    rewrite P. cbn [bind]. rewrite firstn_app, firstn_all, Nat.sub_diag. cbn [firstn]. now rewrite app_nil_r.
Qed.
Lemma split_exponent_total s : exists r, split_exponent s = Ok r.
Proof.
  unfold split_exponent. rewrite find_first_of_if.
  destruct (find_if _ s) as [n|] eqn:E; [|eauto]. apply find_if_some in E.
  destruct E as (c & E1 & E2 & E3 & E4).
  destruct (Nat.eqb_spec (n + 1) (length s)) as [|Hl]; [eauto|].
  destruct (skipn (n + 1) s) as [|y t] eqn:Es.
  { exfalso. apply (f_equal (@length _)) in Es. rewrite skipn_length in Es. simpl in Es. lia. }
  destruct (parse_exponent_total y t) as [r Hr]. rewrite Hr. cbn [bind]. destruct r; eauto.
Qed.

(** ** Point *)
Lemma split_point_spec s b a : split_point s = (b, a) ->
  exists p, s = b ++ p /\ point_part a p /\ ~ In "."%char b.
Proof.
  unfold split_point. rewrite find_char_if. destruct (find_if _ s) as [n|] eqn:E.
  - apply find_if_some in E. destruct E as (c & E1 & E2 & E3 & E4). apply Ascii.eqb_eq in E3. subst c.
    rewrite Nat.add_1_r. intros [= <- <-]. exists ("."%char :: skipn (S n) s).
    split; auto. split; [right; auto|]. intros Hin. apply E4 in Hin. rewrite Ascii.eqb_refl in Hin. discriminate.
  - intros [= <- <-]. exists []. rewrite app_nil_r. split; auto. split; [left; auto|].
    intros Hin. rewrite find_if_none in E. apply E in Hin. rewrite Ascii.eqb_refl in Hin. discriminate.
Qed.
Lemma split_point_ok d1 d2 p : point_part d2 p -> ~ In "."%char d1 -> split_point (d1 ++ p) = (d1, d2).
Proof.
  intros Hp Hd. unfold split_point. rewrite find_char_if.
  assert (HF : forall d, In d d1 -> Ascii.eqb "." d = false).
  { intros d Hin. destruct (Ascii.eqb_spec "." d); auto. subst. contradiction. }
  destruct Hp as [[-> ->]| ->].
  - rewrite app_nil_r. now rewrite (proj2 (find_if_none _ d1)).
  - rewrite find_if_app; auto. rewrite firstn_app, firstn_all, Nat.sub_diag, skipn_app, skipn_all2 by lia.
    replace (length d1 + 1 - length d1)%nat with 1%nat by lia. simpl. now rewrite app_nil_r.
Qed.

(** ** Normalization *)
Lemma strip_drop s : strip_zeros s = drop_zeros s.
Proof. induction s as [|c s IH]; simpl; auto; destruct (Ascii.eqb c "0"); auto. Qed.
Lemma drop_zeros_suffix s : exists z, s = z ++ drop_zeros s /\ all_digits z /\ (forall c, In c z -> c = "0"%char).
Proof.
  induction s as [|c s IH]; simpl.
  - exists []. do 2 (split; auto); try apply all_digits_nil; intros c [].
  - destruct (Ascii.eqb_spec c "0") as [->|].
    + destruct IH as (z & E & H1 & H2). exists ("0"%char :: z). split; [simpl; now rewrite <- E|]. split.
      * apply all_digits_cons. split; auto. unfold dec_digit. cbn. lia.
      * intros c0 [<-|Hc]; auto.
    + exists []. do 2 (split; auto); try apply all_digits_nil; intros x [].
Qed.
Lemma drop_zeros_app s t : drop_zeros (s ++ t) =
  match drop_zeros s with [] => drop_zeros t | r => r ++ t end.
Proof.
  induction s as [|c s IH]; simpl; auto. destruct (Ascii.eqb c "0"); auto.
Qed.
Lemma drop_zeros_head s c t : drop_zeros s = c :: t -> c <> "0"%char.
Proof.
  induction s as [|a s IH]; simpl; [discriminate|].
  destruct (Ascii.eqb_spec a "0"); auto. intros [= -> _]; auto.
Qed.
Lemma int_of_size_small n : Z.of_nat n <= imax t_i32 -> int_of_size n = Z.of_nat n.
Proof. intros H. unfold int_of_size. apply conv_id; [apply t_i32_ity|]. ranges; lia. Qed.

Lemma normalize_ok before after ex : zlen before + zlen after <= 2 ^ 30 -> Z.abs ex <= 2 ^ 30 ->
  exists r, normalize_number before after ex = Ok r /\
  match r with
  | None => drop_zeros (before ++ after) = []
  | Some (b, a, e) => b <> [] /\ b ++ a = drop_zeros (before ++ after) /\
                      e = ex + zlen (drop_zeros (before ++ after)) - 1 - zlen after
  end.
Proof.
  intros Hl He. unfold normalize_number; cbv zeta; rewrite (strip_drop before), (strip_drop after), drop_zeros_app. unfold zlen in *.
  destruct (drop_zeros_suffix before) as (zb & Eb & _). destruct (drop_zeros_suffix after) as (za & Ea & _).
  assert (Lb : (length (drop_zeros before) <= length before)%nat)
    by (rewrite Eb at 2; rewrite app_length; lia).
  assert (La : (length (drop_zeros after) <= length after)%nat)
    by (rewrite Ea at 2; rewrite app_length; lia).
  destruct (drop_zeros before) as [|c b] eqn:Db.
  - destruct (drop_zeros after) as [|c a] eqn:Da.
    + exists None. split; reflexivity.
    + simpl in La. rewrite int_of_size_small by (ranges; lia).
      rewrite arith_in; [|apply t_i32_ity|ranges; lia]. cbn [bind].
      eexists. split; [reflexivity|]. split; [discriminate|]. split; auto. simpl length. lia.
  - simpl in Lb. rewrite int_of_size_small by (cbn [length]; ranges; lia).
    rewrite arith_in; [|apply t_i32_ity|cbn [length]; ranges; lia]. cbn [bind].
    eexists. split; [reflexivity|]. split; [discriminate|]. split; auto.
    rewrite app_length. simpl length. lia.
Qed.

(** ** Significand *)
Lemma conv_mag_small n : forall m, 0 < m -> m * 10 ^ Z.of_nat n < 2 ^ 64 -> conv_mag t_u64 n m = m * 10 ^ Z.of_nat n.
Proof.
  induction n as [|n IH]; intros m Hm H.
  - simpl. lia.
  - rewrite Nat2Z.inj_succ, Z.pow_succ_r in H |- * by lia. cbn [conv_mag].
    assert (0 < 10 ^ Z.of_nat n) by (apply Z.pow_pos_nonneg; lia).
    rewrite conv_id; [|apply t_u64_ity|ranges; nia].
    rewrite IH; lia.
Qed.

Section Norm.
Context {p e : Z} {H : Prec_gt_0 p} {H' : Prec_lt_emax p e}.
Lemma firstn_min {A} n (l : list A) : firstn (Nat.min (length l) n) l = firstn n l.
Proof.
  destruct (Nat.le_ge_cases (length l) n).
  - rewrite Nat.min_l, firstn_all by auto. symmetry. now apply firstn_all2.
  - now rewrite Nat.min_r by auto.
Qed.

Lemma norm_float_ok b a : b <> [] ->
  (all_digits (firstn 19 (b ++ a)) ->
   to_normalized_float (p := p) (e := e) b a =
   Some (fdiv (f_of_Z (digits_value (firstn 19 (b ++ a)))) (f_of_Z (10 ^ (zlen (firstn 19 (b ++ a)) - 1))))) /\
  (to_normalized_float (p := p) (e := e) b a <> None -> all_digits (firstn 19 (b ++ a))).
Proof.
  intros Hb. unfold to_normalized_float. cbv zeta. rewrite !firstn_min.
  set (i1 := firstn 19 b). set (i2 := firstn (19 - length i1) a).
  assert (E12 : firstn 19 (b ++ a) = i1 ++ i2).
  { rewrite firstn_app. unfold i2, i1. rewrite firstn_length. f_equal. f_equal. lia. }
  rewrite E12. assert (Hi1 : i1 <> []).
  { unfold i1. destruct b; [congruence|]. discriminate. }
  assert (L1 : (length i1 <= 19)%nat) by (unfold i1; rewrite firstn_length; lia).
  assert (L2 : (length i1 + length i2 <= 19)%nat) by (unfold i2; rewrite firstn_length; lia).
  assert (HV : forall i, (length i <= 19)%nat -> all_digits i -> 0 <= digits_value i < 10 ^ 19).
  { intros i Hl Hd. pose proof (digits_value_range i Hd) as R. unfold zlen in R.
    assert (10 ^ Z.of_nat (length i) <= 10 ^ 19) by (apply Z.pow_le_mono_r; lia). lia. }
  assert (HP : forall n, (n <= 19)%nat -> 0 < 10 ^ Z.of_nat n <= 10 ^ 19).
  { intros n Hn. split; [apply Z.pow_pos_nonneg; lia | apply Z.pow_le_mono_r; lia]. }
  assert (HT : forall i m, i <> [] -> (length i <= 19)%nat -> all_digits i ->
      to_unsigned_integer_m t_u64 i m = Some (digits_value i, conv_mag t_u64 (length i) m)).
  { intros i m Hi Hl Hd. rewrite tui_m_spec by (auto; apply t_u64_ity).
    pose proof (HV i Hl Hd). destruct (Z.leb_spec (digits_value i) (imax t_u64)); [reflexivity|].
    ranges. lia. }
  assert (HI2 : all_digits i2 ->
     (match i2 with [] => Some (0, 1) | _ => to_unsigned_integer_m t_u64 i2 1 end) =
     Some (digits_value i2, 10 ^ zlen i2)).
  { intros Hd. destruct i2 as [|c i] eqn:E; [reflexivity|]. rewrite <- E in *.
    rewrite HT by (auto; try (rewrite E; discriminate); lia).
    rewrite conv_mag_small; [unfold zlen; do 2 f_equal; lia|lia|].
    pose proof (HP (length i2) ltac:(lia)). ranges. lia. }
  split.
  - intros Hd. apply all_digits_app in Hd. destruct Hd as [Hd1 Hd2].
    rewrite (HI2 Hd2). destruct i1 as [|c i] eqn:E; [congruence|]. rewrite <- E in *.
    rewrite HT by auto.
    assert (HM : 10 ^ zlen i2 * 10 ^ Z.of_nat (length i1) = 10 ^ zlen (i1 ++ i2)).
    { unfold zlen. rewrite app_length, Nat2Z.inj_add, Z.pow_add_r by lia. ring. }
    assert (H1 : 0 < 10 ^ zlen (i1 ++ i2) <= 10 ^ 19) by (unfold zlen; rewrite app_length; apply HP; lia).
    assert (H2 : 0 < 10 ^ zlen i2 <= 10 ^ 19) by (unfold zlen; apply HP; lia).
    rewrite conv_mag_small by (ranges; lia). rewrite HM.
    assert (HD : 0 <= digits_value (i1 ++ i2) < 10 ^ 19).
    { apply HV; [rewrite app_length; lia|now apply all_digits_app]. }
    rewrite digits_value_app in HD.
    pose proof (HV i1 L1 Hd1). pose proof (HV i2 ltac:(lia) Hd2).
    assert (E64 : forall z, 0 <= z < 10 ^ 19 -> conv t_u64 z = z).
    { intros z Hz. apply conv_id; [apply t_u64_ity|]. ranges; lia. }
    rewrite (E64 (digits_value i1 * 10 ^ zlen i2)) by nia.
    rewrite E64 by nia. rewrite Z.add_comm. rewrite <- digits_value_app.
    do 3 f_equal. unfold zlen. rewrite app_length.
    assert (Hz : (0 < length i1)%nat) by (rewrite E; simpl; lia).
    replace (Z.of_nat (length i1 + length i2)) with (Z.of_nat (length i1 + length i2) - 1 + 1) at 1 by lia.
    rewrite Z.pow_add_r by lia. rewrite Z.pow_1_r. now apply Z.div_mul.
  - intros Hs. apply all_digits_app.
    assert (HD : forall i m x, to_unsigned_integer_m t_u64 i m = Some x -> all_digits i).
    { intros i m x Hx. unfold to_unsigned_integer_m in Hx. destruct i; [discriminate|]. eapply tui_loop_some; eauto. }
    destruct i2 as [|c2 j2] eqn:E2.
    + split; [|apply all_digits_nil]. destruct i1 as [|c1 j1] eqn:E1; [apply all_digits_nil|]. rewrite <- E1 in *.
      destruct (to_unsigned_integer_m t_u64 i1 1) as [[f m]|] eqn:T; [eapply HD; eauto | congruence].
    + rewrite <- E2 in *. destruct (to_unsigned_integer_m t_u64 i2 1) as [[ac mg]|] eqn:T2; [|congruence].
      split; [|eapply HD; eauto]. destruct i1 as [|c1 j1] eqn:E1; [apply all_digits_nil|]. rewrite <- E1 in *.
      destruct (to_unsigned_integer_m t_u64 i1 mg) as [[f m]|] eqn:T; [eapply HD; eauto | congruence].
Qed.
End Norm.

(** ** Infinity and NaN *)
Lemma lower_length s : length (lower s) = length s.
Proof. unfold lower. apply map_length. Qed.
Lemma starts_nocase_len s p : starts_with_nocase s p = true -> length s = length p -> lower s = lower p.
Proof.
  intros Hs Hl. apply starts_with_nocase_spec in Hs. destruct Hs as [b Hb].
  assert (length (lower s) = length (lower p ++ b)) by now rewrite Hb.
  rewrite app_length, !lower_length in H. destruct b; [|simpl in H; lia]. now rewrite app_nil_r in Hb.
Qed.
Lemma lower_app s t : lower (s ++ t) = lower s ++ lower t.
Proof. unfold lower. apply map_app. Qed.
Lemma starts_nocase_firstn s p : starts_with_nocase s p = true <-> lower (firstn (length p) s) = lower p.
Proof.
  rewrite starts_with_nocase_spec. split.
  - intros [b Hb]. unfold lower in *. rewrite <- firstn_map, Hb, firstn_app.
    rewrite map_length. rewrite Nat.sub_diag. cbn [firstn]. rewrite app_nil_r.
    apply firstn_all2. now rewrite map_length.
  - intros Hp. exists (lower (skipn (length p) s)). rewrite <- Hp, <- lower_app. now rewrite firstn_skipn.
Qed.
Lemma nan_spec_iff c : is_nan_specifier c = true <-> nan_char c.
Proof.
  unfold is_nan_specifier, nan_char, sc.
  change (uc "0") with 48. change (uc "9") with 57. change (uc "a") with 97. change (uc "z") with 122.
  change (uc "A") with 65. change (uc "Z") with 90. cbn [Z.ltb Z.compare].
  rewrite !orb_true_iff, !andb_true_iff, !Z.leb_le, Ascii.eqb_eq.
  pose proof (uc_range c). destruct (Z.ltb_spec (uc c) 128); simpl; intuition lia.
Qed.

Section InfNan.
Context {p e : Z}.
Lemma parse_inf_nan_spec (s : str) (v : binary_float p e) :
  parse_inf_nan s = Some (Some v) <-> (inf_form s /\ v = B754_infinity false) \/ (nan_form s /\ v = B754_nan).
Proof.
  unfold parse_inf_nan. destruct (Nat.eqb_spec (length s) 0) as [E0|E0].
  { destruct s; [|discriminate]. split; [discriminate|].
    intros [[[H|H] _]|[[H|(n & cs & H & _)] _]]; try discriminate.
    destruct n; discriminate. }
  assert (Hinf3 : inf_form s -> lower (firstn 3 s) = lower (!"inf")).
  { intros [H|H]; unfold same_nocase in H.
    - rewrite firstn_all2; auto. apply (f_equal (@length _)) in H. rewrite !lower_length in H. simpl in H. lia.
    - unfold lower in *. rewrite <- firstn_map, H. reflexivity. }
  assert (Hnan3 : nan_form s -> lower (firstn 3 s) = lower (!"nan")).
  { intros [H|(n & cs & H & Hn & _)]; unfold same_nocase in *.
    - rewrite firstn_all2; auto. apply (f_equal (@length _)) in H. rewrite !lower_length in H. simpl in H. lia.
    - assert (Ln : length n = 3%nat) by (apply (f_equal (@length _)) in Hn; rewrite !lower_length in Hn; exact Hn).
      rewrite H, firstn_app, Ln, Nat.sub_diag, firstn_O, app_nil_r, firstn_all2 by lia. exact Hn. }
  destruct (starts_with_nocase s (!"inf")) eqn:Ei.
  - assert (Hnn : ~ nan_form s).
    { intros Hn. apply Hnan3 in Hn. apply starts_nocase_firstn in Ei. cbn [length] in Ei.
      change (length (!"inf")) with 3%nat in Ei. rewrite Hn in Ei. discriminate. }
    destruct (Nat.eqb_spec (length s) 3) as [E3|E3].
    + split.
      * intros [= <-]. left. split; auto. left. now apply starts_nocase_len.
      * intros [[_ ->]|[Hn _]]; [reflexivity|contradiction].
    + destruct (Nat.eqb (length s) 8 && starts_with_nocase (skipn 3 s) (!"inity")) as [|] eqn:E8.
      * apply andb_true_iff in E8. destruct E8 as [E8 E9]. 
        split.
        -- intros H. assert (Hv : v = B754_infinity false) by (inversion H; auto).
           left. split; auto. right. unfold same_nocase. rewrite <- (firstn_skipn 3 s).
           rewrite lower_app. apply starts_nocase_firstn in Ei. change (length (!"inf")) with 3%nat in Ei.
           rewrite Ei. apply starts_nocase_len in E9; [|rewrite skipn_length; simpl; apply Nat.eqb_eq in E8; lia].
           rewrite E9. reflexivity.
        -- intros [[_ ->]|[Hn _]]; [reflexivity|contradiction].
      * split; [discriminate|].
        intros [[[Hf|Hf] _]|[Hn _]]; [| |contradiction].
        -- apply (f_equal (@length _)) in Hf. rewrite !lower_length in Hf. simpl in Hf. lia.
        -- exfalso. unfold same_nocase in Hf.
           assert (L8 : length s = 8%nat) by (apply (f_equal (@length _)) in Hf; rewrite !lower_length in Hf; exact Hf).
           rewrite L8 in E8. cbn [Nat.eqb andb] in E8.
           assert (starts_with_nocase (skipn 3 s) (!"inity") = true); [|congruence].
           apply starts_nocase_firstn. unfold lower in *. rewrite <- firstn_map.
           rewrite <- skipn_map. rewrite Hf. reflexivity.
  - assert (Hni : ~ inf_form s).
    { intros Hi. apply Hinf3 in Hi. assert (starts_with_nocase s (!"inf") = true); [|congruence].
      now apply starts_nocase_firstn. }
    destruct (starts_with_nocase s (!"nan")) eqn:En.
    + pose proof En as En'. apply starts_nocase_firstn in En'. change (length (!"nan")) with 3%nat in En'.
      assert (L3 : (3 <= length s)%nat).
      { apply (f_equal (@length _)) in En'. rewrite !lower_length, firstn_length in En'. change (length (!"nan")) with 3%nat in En'. lia. }
      destruct (Nat.eqb_spec (length s) 3) as [E3|E3].
      * split.
        -- intros [= <-]. right. split; auto. left. now apply starts_nocase_len.
        -- intros [[Hi _]|[_ ->]]; [contradiction|reflexivity].
      * destruct (Nat.ltb_spec (length s) 5) as [L5|L5]; cbn [orb].
        { split; [discriminate|]. intros [[Hi _]|[[Hn|(n & cs & Hs & Hn & _)] _]]; [contradiction| |].
          - apply (f_equal (@length _)) in Hn. rewrite !lower_length in Hn. simpl in Hn. lia.
          - exfalso. apply (f_equal (@length _)) in Hn. rewrite !lower_length in Hn. simpl in Hn.
            rewrite Hs, app_length in L5. simpl in L5. rewrite app_length in L5. simpl in L5. lia. }
        assert (Es : s = firstn 3 s ++ nth 3 s "000"%char :: skipn 4 s).
        { clear - L5. destruct s as [|a [|b [|c [|d s]]]]; simpl in *; try lia. reflexivity. }
        assert (Es4 : skipn 4 s = removelast (skipn 4 s) ++ [last s "000"%char]).
        { assert (Hne : skipn 4 s <> []).
          { intros E. apply (f_equal (@length _)) in E. rewrite skipn_length in E. simpl in E. lia. }
          rewrite (app_removelast_last "000"%char Hne) at 1. do 2 f_equal.
          rewrite <- (firstn_skipn 4 s) at 2. clear -Hne. revert Hne. generalize (firstn 4 s) (skipn 4 s).
          intros l m Hm. induction l as [|a l IH]; auto. simpl. rewrite IH.
          destruct (l ++ m) eqn:E; auto. apply app_eq_nil in E. destruct E. contradiction. }
        destruct (Ascii.eqb_spec (nth 3 s "000"%char) "(") as [Ep|Ep]; cbn [negb orb].
        2:{ split; [discriminate|]. intros [[Hi _]|[[Hn|(n & cs & Hs & Hn & _)] _]]; [contradiction| |].
            - apply (f_equal (@length _)) in Hn. rewrite !lower_length in Hn. simpl in Hn. lia.
            - exfalso. apply Ep. assert (Ln : length n = 3%nat) by (apply (f_equal (@length _)) in Hn; rewrite !lower_length in Hn; exact Hn).
              rewrite Hs, app_nth2 by lia. rewrite Ln. reflexivity. }
        destruct (Ascii.eqb_spec (last s "000"%char) ")") as [Ec|Ec]; cbn [negb].
        2:{ split; [discriminate|]. intros [[Hi _]|[[Hn|(n & cs & Hs & Hn & _)] _]]; [contradiction| |].
            - apply (f_equal (@length _)) in Hn. rewrite !lower_length in Hn. simpl in Hn. lia.
            - exfalso. apply Ec. rewrite Hs. replace (n ++ "("%char :: cs ++ [")"%char]) with ((n ++ "("%char :: cs) ++ [")"%char])
                by (rewrite <- app_assoc; reflexivity). apply last_last. }
        rewrite Ep in Es. rewrite Ec in Es4.
        destruct (forallb is_nan_specifier (removelast (skipn 4 s))) eqn:Ef.
        -- split.
           ++ intros [= <-]. right. split; auto. right. exists (firstn 3 s), (removelast (skipn 4 s)).
              rewrite <- Es4. split; auto. split; auto. intros c Hc. apply nan_spec_iff.
              rewrite forallb_forall in Ef. auto.
           ++ intros [[Hi _]|[_ ->]]; [contradiction|reflexivity].
        -- split; [discriminate|]. intros [[Hi _]|[[Hn|(n & cs & Hs & Hn & Hc)] _]]; [contradiction| |].
           ++ apply (f_equal (@length _)) in Hn. rewrite !lower_length in Hn. simpl in Hn. lia.
           ++ exfalso. assert (Ln : length n = 3%nat) by (apply (f_equal (@length _)) in Hn; rewrite !lower_length in Hn; exact Hn).
              assert (Er : removelast (skipn 4 s) = cs).
              { rewrite Hs, skipn_app, skipn_all2 by lia. rewrite Ln. cbn [Nat.sub skipn app]. apply removelast_last. }
              rewrite Er in Ef. assert (forallb is_nan_specifier cs = true); [|congruence].
              apply forallb_forall. intros c Hin. apply nan_spec_iff. auto.
    + split; [discriminate|]. intros [[Hi _]|[Hn _]]; [contradiction|].
      apply Hnan3 in Hn. assert (starts_with_nocase s (!"nan") = true); [|congruence]. now apply starts_nocase_firstn.
Qed.
(** Numbers are not taken for infinities or NaN. *)
Lemma parse_inf_nan_number (c : ascii) s : uc c < 65 -> parse_inf_nan (p := p) (e := e) (c :: s) = None.
Proof.
  intros Hc. unfold parse_inf_nan. cbn [length Nat.eqb].
  assert (Hl : forall x y t, uc x = uc c -> starts_with_nocase (c :: s) (y :: t) = true -> lower_char y = c).
  { intros x y t _ H. apply starts_with_nocase_spec in H. destruct H as [b Hb]. unfold lower in Hb. simpl in Hb.
    apply (f_equal (hd c)) in Hb. cbn [hd] in Hb. rewrite <- Hb. unfold lower_char.
    destruct (Z.leb_spec 65 (uc c)); [lia|reflexivity]. }
  destruct (starts_with_nocase (c :: s) (!"inf")) eqn:E1.
  { apply (Hl c) in E1; auto. change (lower_char "i") with "i"%char in E1. subst c. cbn in Hc. lia. }
  destruct (starts_with_nocase (c :: s) (!"nan")) eqn:E2; auto.
  apply (Hl c) in E2; auto. change (lower_char "n") with "n"%char in E2. subst c. cbn in Hc. lia.
Qed.
End InfNan.

(** ** pow10 is defined for every exponent except INT_MIN *)
Lemma pow10_total ex : in_range t_i32 ex -> ex <> imin t_i32 -> exists r, pow10 ex = Ok r.
Proof.
  intros Hr Hm. unfold pow10. destruct (Z.ltb_spec ex 0).
  - rewrite arith_in; [cbn [bind]; eauto|apply t_i32_ity|]. ranges; lia.
  - cbn [bind]. eauto.
Qed.

Section Conv.
Context (p e : Z) {H : Prec_gt_0 p} {H' : Prec_lt_emax p e}.
Context (pc ec : Z) {Hc : Prec_gt_0 pc} {Hc' : Prec_lt_emax pc ec}.

(** The result computed for significant digits [sig] (at most 19) and exponent [ex] *)
Definition float_result (sig : str) (ex : Z) : outcome (option (binary_float p e)) :=
  bind (pow10 ex) (fun pw =>
    Ok (Some (fconv p e (fmul pw (fconv 64 16384
      (fdiv (f_of_Z (digits_value sig)) (f_of_Z (10 ^ (zlen sig - 1))) : binary_float pc ec)))))).

Lemma digit_small c : dec_digit c -> uc c < 65.
Proof. unfold dec_digit. lia. Qed.
Lemma digits_not_e d : all_digits d -> forall c, In c d -> is_e c = false.
Proof.
  intros Hd c Hin. apply Hd in Hin. unfold dec_digit in Hin.
  destruct (is_e c) eqn:E; auto. apply is_e_iff in E. destruct E; subst; cbn in Hin; lia.
Qed.
Lemma digits_not_point d : all_digits d -> ~ In "."%char d.
Proof. intros Hd Hin. apply Hd in Hin. unfold dec_digit in Hin. cbn in Hin. lia. Qed.

Lemma zlen_app {A} (a b : list A) : zlen (a ++ b) = zlen a + zlen b.
Proof. unfold zlen. rewrite app_length. lia. Qed.

(** Completeness: every number in the documented format of moderate length is converted. *)
Lemma to_unsigned_float_ok d1 d2 ex s : decimal_number d1 d2 ex s ->
  zlen s <= 2 ^ 29 -> Z.abs ex <= 2 ^ 29 ->
  to_unsigned_float p e pc ec s =
  match drop_zeros (d1 ++ d2) with
  | [] => Ok (Some (f_of_Z 0))
  | _ => float_result (firstn 19 (drop_zeros (d1 ++ d2)))
           (ex + zlen (drop_zeros (d1 ++ d2)) - 1 - zlen d2)
  end.
Proof.
  intros (pt & x & Es & Hp & Hx & Hd1 & Hd2 & Hne) Hl Hex. unfold to_unsigned_float.
  assert (Hl12 : zlen d1 + zlen d2 <= 2 ^ 29).
  { subst s. rewrite !zlen_app in Hl. destruct Hp as [[-> ->]| ->]; unfold zlen in *; simpl length in *; lia. }
  assert (E : parse_inf_nan (p := p) (e := e) s = None).
  { destruct s as [|c s'].
    - exfalso. symmetry in Es. apply app_eq_nil in Es. destruct Es as [-> Es]. apply app_eq_nil in Es.
      destruct Es as [-> _]. destruct Hp as [[_ ->]|Hp]; [now apply Hne|discriminate Hp].
    - apply parse_inf_nan_number. destruct d1 as [|c1 d1].
      + destruct Hp as [[-> ->]| ->]; [now elim Hne|]. simpl in Es. inversion Es. cbn. lia.
      + simpl in Es. inversion Es; subst. apply digit_small. apply Hd1. now left. }
  rewrite E. rewrite Es. rewrite app_assoc. rewrite (split_exponent_ok (d1 ++ pt) x ex); auto.
  2:{ intros c Hin. apply in_app_or in Hin. destruct Hin as [Hin|Hin]; [apply (digits_not_e d1); auto|].
      destruct Hp as [[-> ->]| ->]; [destruct Hin|]. destruct Hin as [<-|Hin]; [reflexivity|].
      apply (digits_not_e d2); auto. }
  2:{ ranges. lia. }
  cbn [bind]. unfold convert_mantissa. rewrite (split_point_ok d1 d2 pt); auto using digits_not_point.
  destruct (normalize_ok d1 d2 ex) as (r & Er & Hr); try lia.
  assert (G : bind (normalize_number d1 d2 ex) (fun n =>
      match n with
      | None => Ok (Some (f_of_Z 0))
      | Some (b, a, ex) =>
          match to_normalized_float (p := pc) (e := ec) b a with
          | None => Ok None
          | Some norm_val =>
              bind (pow10 ex) (fun pw => Ok (Some (fconv p e (fmul pw (fconv 64 16384 norm_val)))))
          end
      end) = match drop_zeros (d1 ++ d2) with
  | [] => Ok (Some (f_of_Z 0))
  | _ => float_result (firstn 19 (drop_zeros (d1 ++ d2)))
           (ex + zlen (drop_zeros (d1 ++ d2)) - 1 - zlen d2)
  end).
  { rewrite Er. cbn [bind]. destruct r as [[[b a] ex']|].
    - destruct Hr as (Hb & Hba & ->). rewrite <- Hba.
      destruct (b ++ a) as [|c0 l0] eqn:Eba; [apply app_eq_nil in Eba; tauto|].
      destruct (norm_float_ok (p := pc) (e := ec) b a Hb) as [N _]. rewrite Eba in N. rewrite N.
      + reflexivity.
      + apply all_digits_firstn. rewrite Hba. destruct (drop_zeros_suffix (d1 ++ d2)) as (z & Ez & _).
        assert (Had : all_digits (d1 ++ d2)) by now apply all_digits_app. rewrite Ez in Had. now apply all_digits_app in Had.
    - rewrite Hr. reflexivity. }
  destruct d1 as [|c1 d1']; [destruct d2 as [|c2 d2']; [now elim Hne|]|]; exact G.
Qed.

(** Soundness: whatever is accepted is an infinity, a NaN or a number of which the first 19
    significant characters are digits. *)
Lemma to_unsigned_float_some s v : zlen s <= 2 ^ 29 ->
  to_unsigned_float p e pc ec s = Ok (Some v) ->
  (inf_form s /\ v = B754_infinity false) \/ (nan_form s /\ v = B754_nan) \/
  exists b a ex, lenient_number b a ex s.
Proof.
  intros Hl. unfold to_unsigned_float. destruct (parse_inf_nan (p := p) (e := e) s) as [r|] eqn:E.
  - intros [= ->]. apply parse_inf_nan_spec in E. tauto.
  - destruct (split_exponent s) as [[[mant ex]|]| | |] eqn:S; try discriminate. cbn [bind].
    apply split_exponent_some in S. destruct S as (x & Es & Hx & He).
    unfold convert_mantissa. destruct (split_point mant) as [b a] eqn:P.
    apply split_point_spec in P. destruct P as (pt & Em & Hp & Hb).
    intros Hv. right. right. exists b, a, ex, pt, x.
    assert (Hba : b ++ a <> []).
    { destruct b; [destruct a; [discriminate Hv|]|]; discriminate. }
    split; [subst; now rewrite <- app_assoc|]. split; auto. split; auto. split; auto.
    assert (Hl12 : zlen b + zlen a <= 2 ^ 29).
    { subst s mant. rewrite !zlen_app in Hl. destruct Hp as [[-> ->]| ->]; unfold zlen in *; simpl length in *; lia. }
    assert (G : bind (normalize_number b a ex) (fun n =>
      match n with
      | None => Ok (Some (f_of_Z 0))
      | Some (b, a, ex) =>
          match to_normalized_float (p := pc) (e := ec) b a with
          | None => Ok None
          | Some norm_val =>
              bind (pow10 ex) (fun pw => Ok (Some (fconv p e (fmul pw (fconv 64 16384 norm_val)))))
          end
      end) = Ok (Some v)).
    { destruct b; [destruct a; [discriminate Hv|]|]; exact Hv. }
    clear Hv.
    assert (GN : forall b' a' ex', normalize_number b a ex = Ok (Some (b', a', ex')) ->
        b' <> [] /\ b' ++ a' = drop_zeros (b ++ a)).
    { intros b' a' ex'. unfold normalize_number; cbv zeta; rewrite (strip_drop b), (strip_drop a), drop_zeros_app.
      destruct (drop_zeros b) as [|c0 b0] eqn:D.
      - destruct (drop_zeros a) as [|c0 a0]; [discriminate|].
        destruct (arith t_i32 _); try discriminate. cbn [bind]. intros [= <- <- _]. split; [discriminate|reflexivity].
      - destruct (arith t_i32 _); try discriminate. cbn [bind]. intros [= <- <- _]. split; [discriminate|reflexivity]. }
    destruct (normalize_number b a ex) as [[[[b' a'] ex']|]| | |] eqn:N; try discriminate; cbn [bind] in G.
    + destruct (GN b' a' ex' eq_refl) as [Hb' Hba']. rewrite <- Hba'.
      apply (norm_float_ok (p := pc) (e := ec) b' a' Hb').
      destruct (to_normalized_float b' a'); [discriminate|discriminate G].
    + clear GN. unfold normalize_number in N; cbv zeta in N; rewrite (strip_drop b), (strip_drop a) in N. rewrite drop_zeros_app.
      destruct (drop_zeros b) as [|c0 b0] eqn:D; [destruct (drop_zeros a) as [|c0 a0] eqn:D2|].
      * apply all_digits_nil.
      * destruct (arith t_i32 _); discriminate N.
      * destruct (arith t_i32 _); discriminate N.
Qed.
Lemma lenient_short b a ex s : lenient_number b a ex s -> zlen (drop_zeros (b ++ a)) <= 19 ->
  decimal_number b a ex s.
Proof.
  intros (pt & x & Es & Hp & Hx & Hne & Hd) Hl. exists pt, x. split; auto. split; auto. split; auto.
  rewrite firstn_all2 in Hd by (unfold zlen in Hl; lia).
  destruct (drop_zeros_suffix (b ++ a)) as (z & Ez & Hz & _).
  assert (Had : all_digits (b ++ a)) by (rewrite Ez; now apply all_digits_app).
  apply all_digits_app in Had. tauto.
Qed.
End Conv.
