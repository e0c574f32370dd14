(** Reading back what was written: numbers and names. *)
From Verif Require Import Base IntModel ToNumModel DateModel DateSpec DateProofs DateProofs2 StrProofs2 FmtModel FmtSpec FmtProofs FmtProofs2 FmtProofs3 FmtProofs4 FmtProofs6 ParModel ParSpec.
Local Open Scope Z_scope.

(** * Numbers *)
Lemma dig_is_digit c : is_dig c -> is_digit c = true /\ sc c - sc "0" = uc c - 48.
Proof.
  unfold is_dig, is_digit. change (sc "0") with 48. change (sc "9") with 57. intros H. unfold sc.
  destruct (Z.ltb_spec (uc c) 128); [|lia]. split; [|reflexivity]. apply andb_true_intro. rewrite !Z.leb_le. lia.
Qed.
Lemma is_digit_dig c : is_digit c = true -> is_dig c.
Proof.
  unfold is_dig, is_digit. change (sc "0") with 48. change (sc "9") with 57. intros H. apply andb_prop in H.
  rewrite !Z.leb_le in H. unfold sc in H. pose proof (uc_range c). destruct (Z.ltb_spec (uc c) 128); lia.
Qed.
Lemma not_digit c : ~ is_dig c -> is_digit c = false.
Proof. intros H. destruct (is_digit c) eqn:E; [|reflexivity]. now apply is_digit_dig in E. Qed.

Lemma ru_loop_digits a : forall M r count x, Forall is_dig a -> a <> [] -> 0 <= count -> 0 <= x ->
  count + zlen a = M -> M <= 9 -> x < 10 ^ count ->
  ru_loop M (a ++ r) count x = (M, x * 10 ^ zlen a + value a, r, false).
Proof.
  induction a as [|c a IH]; intros M r count x F NE C X L B XB; [now destruct NE|]. clear NE.
  inversion F as [|? ? D F']; subst. destruct (dig_is_digit c D) as [E1 E2]. cbn [app ru_loop]. rewrite E1, E2.
  unfold is_dig in D. unfold zlen in *. cbn [length] in *.
  assert (P9 : 10 ^ count <= 10 ^ 8) by (apply Z.pow_le_mono_r; lia). change (10 ^ 8) with 100000000 in P9.
  rewrite (uns_id (count + 1)) by lia. rewrite (uns_id (10 * x)) by lia. rewrite (uns_id (10 * x + (uc c - 48))) by lia.
  destruct a as [|c' a].
  - cbn [length] in *. replace (count + 1 =? count + Z.of_nat 1) with true by (symmetry; apply Z.eqb_eq; lia).
    change (10 ^ Z.of_nat 1) with 10. unfold value. cbn [fold_left app]. do 3 f_equal; lia.
  - destruct (Z.eqb_spec (count + 1) (count + Z.of_nat (S (length (c' :: a))))) as [E|_]; [cbn [length] in E; lia|].
    rewrite IH; auto; try (cbn [length]; lia); try discriminate.
    + rewrite (value_cons c). unfold zlen. rewrite Nat2Z.inj_succ, Z.pow_succ_r by lia. do 3 f_equal. lia.
    + rewrite Z.pow_add_r by lia. lia.
Qed.
Lemma pad_len k n : (1 <= k)%nat -> 0 <= n < 10 ^ Z.of_nat k -> length (pad k n) = k.
Proof.
  intros K N. destruct (pad_padded k n K ltac:(lia)) as (_ & V & LL). destruct LL as [L|[L H]]; [exact L|].
  pose proof (pad_dig k n ltac:(lia)) as F. destruct (pad k n) as [|c s] eqn:E; [cbn in L; lia|].
  apply Forall_cons_iff in F; destruct F as [D F']. cbn [hd] in H. cbn [length] in L. exfalso.
  rewrite value_cons in V. pose proof (value_bound s F') as VB.
  assert (48 < uc c).
  { unfold is_dig in D. destruct (Z.eq_dec (uc c) 48) as [U|U]; [|lia]. exfalso. apply H. apply uc_inj. rewrite U. reflexivity. }
  assert (10 ^ Z.of_nat k <= 10 ^ zlen s) by (apply Z.pow_le_mono_r; unfold zlen; lia). nia.
Qed.
Lemma ru_pad k n r : (1 <= k <= 9)%nat -> 0 <= n < 10 ^ Z.of_nat k ->
  ru_loop (Z.of_nat k) (pad k n ++ r) 0 0 = (Z.of_nat k, n, r, false).
Proof.
  intros K N. assert (L : length (pad k n) = k) by (apply pad_len; lia).
  rewrite ru_loop_digits; auto; try lia.
  - rewrite pad_value by lia. do 3 f_equal; lia.
  - apply pad_dig; lia.
  - intros E. rewrite E in L. cbn in L. lia.
  - unfold zlen. lia.
Qed.
(** The stream holds [r] and is good *)
Definition str_is (r : str) : ist := IS r false false.
Lemma read_u_pad k n r m : (1 <= k <= 9)%nat -> 0 <= n < 10 ^ Z.of_nat k -> m <= Z.of_nat k ->
  read_unsigned m (Z.of_nat k) (str_is (pad k n ++ r)) = (n, str_is r).
Proof.
  intros K N M. unfold read_unsigned. cbn [good str_is eofb failb negb andb rest]. rewrite ru_pad by assumption.
  destruct (Z.ltb_spec (Z.of_nat k) m); [lia|]. reflexivity.
Qed.
Lemma conv_small n : 0 <= n < 1000000000 -> conv int_t n = n.
Proof. intros H. apply conv_int. lia. Qed.
Lemma pow9 k : (k <= 9)%nat -> 10 ^ Z.of_nat k <= 1000000000.
Proof. intros K. change 1000000000 with (10 ^ 9). apply Z.pow_le_mono_r; lia. Qed.
Lemma read_s_pad k n r m : (1 <= k <= 9)%nat -> 0 <= n < 10 ^ Z.of_nat k -> m <= Z.of_nat k ->
  read_signed m (Z.of_nat k) (str_is (pad k n ++ r)) = Ok (n, str_is r).
Proof.
  intros K N M. destruct (pad_ne k n ltac:(lia)) as (c & s & E & D). unfold read_signed, peek.
  cbn [good str_is eofb failb negb andb rest]. rewrite E. cbn [app]. destruct (dig_is_digit c D) as [E1 _].
  assert (N1 : Ascii.eqb c "-" = false) by (apply Ascii.eqb_neq; intros ->; unfold is_dig in D; vm_compute in D; destruct D; now apply H).
  assert (N2 : Ascii.eqb c "+" = false) by (apply Ascii.eqb_neq; intros ->; unfold is_dig in D; vm_compute in D; destruct D; now apply H).
  rewrite E1, N1, N2. cbn [orb]. fold (str_is (c :: s ++ r)). change (c :: s ++ r) with ((c :: s) ++ r). rewrite <- E.
  rewrite read_u_pad by lia. cbn [failb str_is]. rewrite conv_small; [reflexivity|]. pose proof (pow9 k). lia.
Qed.
Lemma read_s_neg k n r m : (1 <= k <= 9)%nat -> 0 < n < 10 ^ Z.of_nat k -> m <= Z.of_nat k ->
  read_signed m (Z.of_nat k) (str_is ("-"%char :: pad k n ++ r)) = Ok (- n, str_is r).
Proof.
  intros K N M. unfold read_signed, peek. cbn [good str_is eofb failb negb andb rest Ascii.eqb Bool.eqb orb get].
  change (is_digit "-") with false. cbn [orb]. fold (str_is (pad k n ++ r)).
  rewrite read_u_pad by lia. cbn [failb str_is]. pose proof (pow9 k). rewrite conv_small by lia.
  rewrite int_ok by lia. reflexivity.
Qed.
Lemma read_s_sgn k n r m : (1 <= k <= 9)%nat -> - 10 ^ Z.of_nat k < n < 10 ^ Z.of_nat k -> m <= Z.of_nat k ->
  read_signed m (Z.of_nat k) (str_is (sgn_str k n ++ r)) = Ok (n, str_is r).
Proof.
  intros K N M. unfold sgn_str. destruct (Z.ltb_spec n 0).
  - cbn [app]. rewrite read_s_neg by lia. do 2 f_equal. lia.
  - apply read_s_pad; lia.
Qed.
Lemma read_c_ok c r : c <> NUL -> read_c c (str_is (c :: r)) = str_is r.
Proof.
  intros H. unfold read_c. destruct (Ascii.eqb_spec c NUL); [contradiction|]. unfold peek, get.
  cbn [good str_is eofb failb negb andb rest]. rewrite Ascii.eqb_refl. reflexivity.
Qed.

(** * Names *)
Fixpoint kw_pre (s : str) (idx : nat) (ks : list (str * kst)) : option (nat * list (str * kst)) :=
  match s with
  | [] => Some (idx, ks)
  | c :: s' =>
      if existsb is_might ks then
        let c' := to_upper c in
        let ks' := map (kw_step c' idx) ks in
        if existsb (kw_hit c' idx) ks
        then kw_pre s' (S idx) (if Nat.ltb 1 (length (filter (fun k => is_might k || is_does k) ks')) then map (kw_demote idx) ks' else ks')
        else None
      else None
  end.
Lemma kw_pre_loop s : forall r idx ks n ks', kw_pre s idx ks = Some (n, ks') -> kw_loop (s ++ r) idx ks = kw_loop r n ks'.
Proof.
  induction s as [|c s IH]; intros r idx ks n ks' H; cbn [kw_pre app] in *; [now injection H as <- <-|].
  destruct (existsb is_might ks) eqn:E; [|discriminate]. cbn [kw_loop]. rewrite E.
  destruct (existsb (kw_hit (to_upper c) idx) ks); [|discriminate]. now apply IH.
Qed.
Definition letterb (c : ascii) : bool := ((65 <=? uc c) && (uc c <=? 90)) || ((97 <=? uc c) && (uc c <=? 122)).
Lemma letterb_spec c : letterb c = true <-> letter c.
Proof. unfold letterb, letter. rewrite orb_true_iff, !andb_true_iff, !Z.leb_le. tauto. Qed.
Definition all_letters (idx : nat) (ks : list (str * kst)) : bool :=
  forallb (fun k => negb (is_might k) || letterb (nth idx (fst k) NUL)) ks.
Lemma upper_letter c : letter (to_upper c) <-> letter c.
Proof.
  unfold to_upper. destruct ((97 <=? uc c) && (uc c <=? 122)) eqn:E; [|tauto].
  apply andb_prop in E. rewrite !Z.leb_le in E. unfold letter. rewrite uc_chr, Z.mod_small by lia. lia.
Qed.
Lemma no_hit c idx ks : all_letters idx ks = true -> ~ letter c -> existsb (kw_hit (to_upper c) idx) ks = false.
Proof.
  intros A L. induction ks as [|k ks IH]; [reflexivity|]. cbn [all_letters forallb existsb] in *.
  apply andb_prop in A. destruct A as [A1 A2]. rewrite IH by exact A2. rewrite orb_false_r. unfold kw_hit.
  destruct (is_might k); [|reflexivity]. cbn [negb orb andb] in *. apply letterb_spec in A1.
  apply Ascii.eqb_neq. intros E. apply L, upper_letter. rewrite E. now apply upper_letter.
Qed.
Lemma kw_first_step c idx ks : existsb (kw_hit c idx) ks = false -> forall i, kw_first (map (kw_step c idx) ks) i = kw_first ks i.
Proof.
  induction ks as [|k ks IH]; intros H i; [reflexivity|]. cbn [existsb map kw_first] in *.
  apply orb_false_iff in H. destruct H as [H1 H2]. rewrite IH by exact H2.
  assert (is_does (kw_step c idx k) = is_does k) as ->; [|reflexivity].
  unfold kw_hit, kw_step, is_might, is_does in *. destruct k as [s t]. cbn [fst snd] in *. destruct t; try reflexivity.
  cbn [andb] in H1. rewrite H1. reflexivity.
Qed.
(** What follows a name does not start with a letter *)
Definition no_letter (r : str) : Prop := match r with [] => True | c :: _ => ~ letter c end.
Lemma scan_name l s i n ks r : kw_pre s 0 (kw_init l) = Some (n, ks) -> kw_first ks 0 = Some i ->
  existsb is_might ks = false \/ (all_letters n ks = true /\ no_letter r) ->
  exists e, scan_keyword l (str_is (s ++ r)) = (i, IS r e false) /\ (e = true -> r = []).
Proof.
  intros P F H. unfold scan_keyword. cbn [str_is failb good eofb negb andb rest].
  rewrite (kw_pre_loop _ _ _ _ _ _ P).
  destruct (existsb is_might ks) eqn:M.
  - destruct H as [H|[A L]]; [discriminate|]. destruct r as [|c r]; cbn [kw_loop]; rewrite M.
    + rewrite F. eexists. split; [reflexivity|auto].
    + rewrite (no_hit c n ks A L). rewrite kw_first_step by (apply no_hit; assumption). rewrite F.
      eexists. split; [reflexivity|discriminate].
  - assert (E : kw_loop r n ks = (ks, r, false)) by (destruct r; cbn [kw_loop]; rewrite M; reflexivity).
    rewrite E, F. eexists. split; [reflexivity|discriminate].
Qed.
Definition name_check (l : list str) (s : str) (m i : Z) : bool :=
  match kw_pre s 0 (kw_init l) with
  | Some (n, ks) =>
      match kw_first ks 0 with
      | Some j => (j mod m =? i) && (negb (existsb is_might ks) || all_letters n ks)
      | None => false
      end
  | None => false
  end.
Definition full_check (l : list str) (s : str) (m i : Z) : bool :=
  match kw_pre s 0 (kw_init l) with
  | Some (n, ks) =>
      match kw_first ks 0 with
      | Some j => (j mod m =? i) && negb (existsb is_might ks)
      | None => false
      end
  | None => false
  end.
Lemma name_scan l s m i r : name_check l s m i = true -> no_letter r ->
  exists e j, scan_keyword l (str_is (s ++ r)) = (j, IS r e false) /\ (e = true -> r = []) /\ j mod m = i.
Proof.
  unfold name_check. intros H L. destruct (kw_pre s 0 (kw_init l)) as [[n ks]|] eqn:P; [|discriminate].
  destruct (kw_first ks 0) as [j|] eqn:F; [|discriminate]. apply andb_prop in H. destruct H as [H1 H2].
  destruct (scan_name l s j n ks r P F) as (e & A & B).
  { apply orb_prop in H2. destruct H2 as [H2|H2]; [left; now apply negb_true_iff in H2|right; auto]. }
  exists e, j. apply Z.eqb_eq in H1. auto.
Qed.
Lemma full_scan l s m i r : full_check l s m i = true ->
  exists e j, scan_keyword l (str_is (s ++ r)) = (j, IS r e false) /\ (e = true -> r = []) /\ j mod m = i.
Proof.
  unfold full_check. intros H. destruct (kw_pre s 0 (kw_init l)) as [[n ks]|] eqn:P; [|discriminate].
  destruct (kw_first ks 0) as [j|] eqn:F; [|discriminate]. apply andb_prop in H. destruct H as [H1 H2].
  destruct (scan_name l s j n ks r P F) as (e & A & B).
  { left. now apply negb_true_iff in H2. }
  exists e, j. apply Z.eqb_eq in H1. auto.
Qed.
Lemma day_name_full i : (i < 7)%nat -> full_check weekday_names (nth i day_names []) 7 (Z.of_nat i) = true.
Proof. intros H. do 7 (destruct i as [|i]; [vm_compute; reflexivity|]). lia. Qed.
Lemma day_name_short i : (i < 7)%nat -> name_check weekday_names (short (nth i day_names [])) 7 (Z.of_nat i) = true.
Proof. intros H. do 7 (destruct i as [|i]; [vm_compute; reflexivity|]). lia. Qed.
Lemma month_name_full i : (i < 12)%nat -> full_check month_names (nth i months []) 12 (Z.of_nat i) = true.
Proof. intros H. do 12 (destruct i as [|i]; [vm_compute; reflexivity|]). lia. Qed.
Lemma month_name_short i : (i < 12)%nat -> name_check month_names (short (nth i months [])) 12 (Z.of_nat i) = true.
Proof. intros H. do 12 (destruct i as [|i]; [vm_compute; reflexivity|]). lia. Qed.
Lemma half_full h : full_check ampm_names (half h) 0 (if h <? 12 then 0 else 1) = true.
Proof. unfold half. destruct (h <? 12); vm_compute; reflexivity. Qed.
