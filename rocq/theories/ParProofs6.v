(** Reading numbers from an arbitrary text. *)
From Verif Require Import Base IntModel ToNumModel DateModel DateSpec DateProofs DateProofs2 StrProofs2 FmtModel FmtSpec FmtProofs FmtProofs2 FmtProofs3 FmtProofs4 FmtProofs6 ParModel ParSpec ParProofs1.
Local Open Scope Z_scope.
Local Open Scope outcome_scope.

Ltac p4 := match goal with |- (?a, ?b, ?c, ?d) = (?a', ?b', ?c', ?d') =>
  replace a' with a by lia; replace b' with b by (try lia; ring); reflexivity end.
(** The first at most [k] digits and what follows them *)
Fixpoint digs (k : nat) (r : str) : str :=
  match k, r with
  | S k', c :: r' => if is_digit c then c :: digs k' r' else []
  | _, _ => []
  end.
Fixpoint rem (k : nat) (r : str) : str :=
  match k, r with
  | S k', c :: r' => if is_digit c then rem k' r' else r
  | _, _ => r
  end.
Lemma digs_rem k : forall r, r = digs k r ++ rem k r.
Proof.
  induction k as [|k IH]; intros [|c r]; try reflexivity. cbn [digs rem]. destruct (is_digit c); [|reflexivity]. cbn [app]. now rewrite <- IH.
Qed.
Lemma digs_dig k : forall r, Forall is_dig (digs k r).
Proof.
  induction k as [|k IH]; intros [|c r]; cbn [digs]; try constructor. destruct (is_digit c) eqn:E; constructor; auto. now apply is_digit_dig.
Qed.
Lemma digs_len k : forall r, (length (digs k r) <= k)%nat.
Proof.
  induction k as [|k IH]; intros [|c r]; cbn [digs length]; try lia. destruct (is_digit c); cbn [length]; [|lia]. specialize (IH r). lia.
Qed.
Lemma rem_nd k : forall r, (length (digs k r) < k)%nat -> forall c t, rem k r = c :: t -> ~ is_dig c.
Proof.
  induction k as [|k IH]; intros [|c r]; cbn [digs rem length]; intros H c' t E; try lia; try discriminate.
  destruct (is_digit c) eqn:Q.
  - cbn [length] in H. apply (IH r ltac:(lia) _ _ E).
  - injection E as <- <-. intros D. apply dig_is_digit in D. rewrite Q in D. now destruct D.
Qed.
Definition no_dig (r : str) : Prop := match r with c :: _ => ~ is_dig c | [] => True end.
Lemma digs_max k : forall a r, Forall is_dig a -> (length a <= k)%nat -> ((length a < k)%nat -> no_dig r) -> digs k (a ++ r) = a /\ rem k (a ++ r) = r.
Proof.
  induction k as [|k IH]; intros a r F L N.
  - destruct a; [|cbn [length] in L; lia]. destruct r; split; reflexivity.
  - destruct a as [|c a]; cbn [app digs rem].
    + cbn [length] in N. specialize (N ltac:(lia)). destruct r as [|c r]; [split; reflexivity|]. cbn [no_dig] in N. rewrite (not_digit c N). split; reflexivity.
    + apply Forall_cons_iff in F. destruct F as [D F]. destruct (dig_is_digit c D) as [-> _]. cbn [length] in *.
      destruct (IH a r F ltac:(lia) ltac:(intros; apply N; lia)) as [-> ->]. split; reflexivity.
Qed.
Lemma ru_all k : forall r count x, 0 <= count -> 0 <= x < 10 ^ count -> (0 < k)%nat -> count + Z.of_nat k <= 9 ->
  ru_loop (count + Z.of_nat k) r count x =
  (count + zlen (digs k r), x * 10 ^ zlen (digs k r) + value (digs k r), rem k r,
   Nat.ltb (length (digs k r)) k && match rem k r with [] => true | _ => false end).
Proof.
  induction k as [|k IH]; intros r count x C X K B; [lia|]. destruct r as [|c r]; cbn [ru_loop digs rem].
  - unfold zlen. cbn [length]. rewrite Z.pow_0_r. unfold value. cbn [fold_left Nat.ltb Nat.leb andb]. p4.
  - destruct (is_digit c) eqn:E.
    + pose proof (is_digit_dig c E) as D. destruct (dig_is_digit c D) as [_ ->]. unfold is_dig in D.
      assert (P9 : 10 ^ count <= 10 ^ 8) by (apply Z.pow_le_mono_r; lia). change (10 ^ 8) with 100000000 in P9.
      rewrite (uns_id (count + 1)) by lia. rewrite (uns_id (10 * x)) by lia. rewrite (uns_id (10 * x + (uc c - 48))) by lia.
      destruct k as [|k].
      * replace (count + 1 =? count + Z.of_nat 1) with true by (symmetry; apply Z.eqb_eq; lia).
        assert (digs 0 r = []) as -> by (destruct r; reflexivity). assert (rem 0 r = r) as -> by (destruct r; reflexivity).
        unfold zlen, value. cbn [length fold_left Nat.ltb Nat.leb andb]. change (10 ^ Z.of_nat 1) with 10. p4.
      * destruct (Z.eqb_spec (count + 1) (count + Z.of_nat (S (S k)))) as [Q|_]; [lia|].
        replace (count + Z.of_nat (S (S k))) with (count + 1 + Z.of_nat (S k)) by lia.
        rewrite IH by (try (rewrite Z.pow_add_r by lia); lia).
        rewrite (value_cons c). unfold zlen. cbn [length]. rewrite (Nat2Z.inj_succ (length _)), Z.pow_succ_r by lia.
        p4.
    + unfold zlen, value. cbn [length fold_left Nat.ltb Nat.leb andb]. rewrite Z.pow_0_r. p4.
Qed.
(** The streams that occur: eofbit only at the end *)
Definition okst (s : ist) : Prop := failb s = false /\ (eofb s = true -> rest s = []).
Lemma okst_str r : okst (str_is r). Proof. split; [reflexivity|discriminate]. Qed.
Lemma okst_cases s : okst s -> s = str_is (rest s) \/ (rest s = [] /\ eofb s = true).
Proof.
  intros [F E]. destruct s as [r e f]. cbn [failb eofb rest] in *. subst f. destruct e; [right; auto|now left].
Qed.
Definition bool_nil (r : str) : bool := match r with [] => true | _ => false end.
Lemma read_u_all k r : (1 <= k <= 9)%nat -> read_unsigned 1 (Z.of_nat k) (str_is r) =
  (value (digs k r), IS (rem k r) (Nat.ltb (length (digs k r)) k && bool_nil (rem k r)) (match digs k r with [] => true | _ => false end)).
Proof.
  intros K. unfold read_unsigned. cbn [good str_is eofb failb negb andb rest].
  change (Z.of_nat k) with (0 + Z.of_nat k). rewrite ru_all by lia.
  change (0 + zlen (digs k r)) with (zlen (digs k r)). change (0 * 10 ^ zlen (digs k r)) with 0. rewrite Z.add_0_l. cbn [orb].
  destruct (digs k r) as [|c t] eqn:E; unfold zlen; cbn [length]; [reflexivity|].
  destruct (Z.ltb_spec (Z.of_nat (S (length t))) 1); [lia|]. reflexivity.
Qed.

(** * Inversion and bounds *)
Definition nm (k : nat) (ds : str) (n : Z) : Prop := (1 <= length ds <= k)%nat /\ Forall is_dig ds /\ value ds = n.
Definition maxed (k : nat) (ds r : str) : Prop := (length ds < k)%nat -> no_dig r.
Lemma nm_range k ds n : nm k ds n -> 0 <= n < 10 ^ Z.of_nat k.
Proof.
  intros (L & F & <-). pose proof (value_bound ds F) as B. split; [lia|]. assert (10 ^ zlen ds <= 10 ^ Z.of_nat k); [|lia].
  apply Z.pow_le_mono_r; unfold zlen; lia.
Qed.
Lemma value_dig_bound k r : 0 <= value (digs k r) < 10 ^ Z.of_nat k.
Proof.
  pose proof (value_bound _ (digs_dig k r)) as B. pose proof (digs_len k r). split; [lia|].
  assert (10 ^ zlen (digs k r) <= 10 ^ Z.of_nat k); [|lia]. apply Z.pow_le_mono_r; unfold zlen; lia.
Qed.
Lemma read_u_inv k s : (1 <= k <= 9)%nat -> okst s -> exists n s', read_unsigned 1 (Z.of_nat k) s = (n, s') /\ 0 <= n < 10 ^ Z.of_nat k /\
  (failb s' = true \/ (okst s' /\ exists ds, rest s = ds ++ rest s' /\ nm k ds n /\ maxed k ds (rest s'))).
Proof.
  intros K O. destruct (okst_cases s O) as [E|[E1 E2]].
  - replace (read_unsigned 1 (Z.of_nat k) s) with (read_unsigned 1 (Z.of_nat k) (str_is (rest s))) by (now rewrite <- E). rewrite read_u_all by exact K. eexists _, _. split; [reflexivity|]. split; [apply value_dig_bound|].
    destruct (digs k (rest s)) as [|c t] eqn:DG; [left; reflexivity|]. right. split.
    + split; [reflexivity|]. cbn [eofb rest]. intros H. apply andb_prop in H. destruct H as [_ H]. destruct (rem k (rest s)); [reflexivity|discriminate].
    + exists (c :: t). cbn [rest]. rewrite <- DG. split; [apply digs_rem|]. split.
      * split; [|split; [apply digs_dig|reflexivity]]. split; [rewrite DG; cbn [length]; lia|apply digs_len].
      * intros L. unfold no_dig. destruct (rem k (rest s)) as [|b q] eqn:R; [exact I|]. exact (rem_nd k _ L _ _ R).
  - exists 0, (set_fail s). unfold read_unsigned, good. rewrite E2. cbn [negb andb]. split; [reflexivity|]. split; [|left; reflexivity].
    split; [lia|apply Z.pow_pos_nonneg; lia].
Qed.
Lemma read_u_fwd k ds n r : (1 <= k <= 9)%nat -> nm k ds n -> maxed k ds r ->
  exists s', read_unsigned 1 (Z.of_nat k) (str_is (ds ++ r)) = (n, s') /\ okst s' /\ rest s' = r.
Proof.
  intros K (L & F & V) M. rewrite read_u_all by exact K. destruct (digs_max k ds r F ltac:(lia) M) as [-> ->]. rewrite V.
  eexists. split; [reflexivity|]. cbn [rest]. split; [|reflexivity]. destruct ds; [cbn [length] in L; lia|]. split; [reflexivity|]. cbn [eofb rest].
  intros H. apply andb_prop in H. destruct H as [_ H]. destruct r; [reflexivity|discriminate].
Qed.
(** A sign *)
Definition sgd (sg : str) (n z : Z) : Prop := (sg = [] /\ z = n) \/ (sg = ["+"%char] /\ z = n) \/ (sg = ["-"%char] /\ z = - n).
Lemma read_s_inv k s : (1 <= k <= 9)%nat -> okst s -> exists z s', read_signed 1 (Z.of_nat k) s = Ok (z, s') /\ - 10 ^ Z.of_nat k < z < 10 ^ Z.of_nat k /\
  (failb s' = true \/ (okst s' /\ exists sg ds n, rest s = sg ++ ds ++ rest s' /\ sgd sg n z /\ nm k ds n /\ maxed k ds (rest s'))).
Proof.
  intros K O. pose proof (pow9 k ltac:(lia)) as P9. assert (P0 : 0 < 10 ^ Z.of_nat k) by (apply Z.pow_pos_nonneg; lia).
  unfold read_signed. change (Z.max 1 1) with 1. change (1 >? 0) with true. cbv iota.
  destruct (okst_cases s O) as [E|[E1 E2]].
  2:{ unfold peek, good. rewrite E2. cbn [negb andb]. eexists _, _. split; [reflexivity|]. split; [lia|]. left; reflexivity. }
  rewrite E. unfold peek. cbn [good str_is eofb failb negb andb rest]. destruct (rest s) as [|c r].
  { eexists _, _. split; [reflexivity|]. split; [lia|]. left; reflexivity. }
  destruct (is_digit c || Ascii.eqb c "-" || Ascii.eqb c "+") eqn:Q.
  2:{ eexists _, _. split; [reflexivity|]. split; [lia|]. left; reflexivity. }
  set (s2 := if Ascii.eqb c "-" || Ascii.eqb c "+" then get _ else _).
  assert (S2 : exists sg, s2 = str_is (rest s2) /\ c :: r = sg ++ rest s2 /\ (forall n, sgd sg n (if Ascii.eqb c "-" then - n else n))).
  { unfold s2. destruct (Ascii.eqb_spec c "-") as [->|N1]; cbn [orb].
    - exists ["-"%char]. cbn [get good str_is eofb failb negb andb rest app]. split; [reflexivity|]. split; [reflexivity|]. intros n. right; right. auto.
    - destruct (Ascii.eqb_spec c "+") as [->|N2].
      + exists ["+"%char]. cbn [get good str_is eofb failb negb andb rest app]. split; [reflexivity|]. split; [reflexivity|]. intros n. right; left. auto.
      + exists []. cbn [rest]. split; [reflexivity|]. split; [reflexivity|]. intros n. left. auto. }
  destruct S2 as (sg & S1 & S2 & S3). clearbody s2.
  destruct (read_u_inv k s2 K ltac:(rewrite S1; apply okst_str)) as (n & s3 & R & NB & H). rewrite R.
  destruct (failb s3) eqn:F3.
  { eexists _, _. split; [reflexivity|]. split; [lia|]. left; reflexivity. }
  destruct H as [H|(O3 & ds & D1 & D2 & D3)]; [congruence|].
  rewrite conv_small by lia. specialize (S3 n).
  assert (B : - 10 ^ Z.of_nat k < (if Ascii.eqb c "-" then - n else n) < 10 ^ Z.of_nat k) by (destruct (Ascii.eqb c "-"); lia).
  exists (if Ascii.eqb c "-" then - n else n), s3. split.
  { destruct (Ascii.eqb c "-"); [|reflexivity]. rewrite int_ok by lia. reflexivity. }
  split; [exact B|]. right. split; [exact O3|]. exists sg, ds, n. rewrite S2, D1. auto.
Qed.
Lemma read_s_fwd k sg ds n z r : (1 <= k <= 9)%nat -> sgd sg n z -> nm k ds n -> maxed k ds r ->
  exists s', read_signed 1 (Z.of_nat k) (str_is (sg ++ ds ++ r)) = Ok (z, s') /\ okst s' /\ rest s' = r.
Proof.
  intros K SG D M. pose proof (pow9 k ltac:(lia)) as P9. pose proof (nm_range k ds n D) as NB.
  destruct (read_u_fwd k ds n r K D M) as (s' & R & O & RS). exists s'. split; [|auto].
  unfold read_signed. change (Z.max 1 1) with 1. unfold peek. cbn [good str_is eofb failb negb andb rest].
  assert (FB : failb s' = false) by apply O.
  destruct SG as [[-> ->]|[[-> ->]|[-> ->]]]; cbn [app].
  - destruct D as (L & F & V). destruct ds as [|c t]; [cbn [length] in L; lia|]. cbn [app].
    apply Forall_cons_iff in F. destruct F as [DC _]. destruct (dig_is_digit c DC) as [E1 _].
    assert (N1 : Ascii.eqb c "-" = false) by (apply Ascii.eqb_neq; intros ->; unfold is_dig in DC; vm_compute in DC; destruct DC; now apply H).
    assert (N2 : Ascii.eqb c "+" = false) by (apply Ascii.eqb_neq; intros ->; unfold is_dig in DC; vm_compute in DC; destruct DC; now apply H).
    rewrite E1, N1, N2. cbn [orb]. fold (str_is (c :: t ++ r)). change (c :: t ++ r) with ((c :: t) ++ r). rewrite R, FB. rewrite conv_small by lia. reflexivity.
  - change (is_digit "+") with false. change (Ascii.eqb "+" "-") with false. change (Ascii.eqb "+" "+") with true. cbn [orb get good str_is eofb failb negb andb rest]. fold (str_is (ds ++ r)). rewrite R, FB.
    rewrite conv_small by lia. reflexivity.
  - change (is_digit "-") with false. change (Ascii.eqb "-" "-") with true. cbn [orb get good str_is eofb failb negb andb rest]. fold (str_is (ds ++ r)). rewrite R, FB.
    rewrite conv_small by lia. rewrite int_ok by lia. reflexivity.
Qed.
Lemma read_c_inv c s : c <> NUL -> okst s -> failb (read_c c s) = true \/ exists r, rest s = c :: r /\ read_c c s = str_is r.
Proof.
  intros N O. unfold read_c. destruct (Ascii.eqb_spec c NUL); [contradiction|]. destruct (okst_cases s O) as [E|[E1 E2]].
  - rewrite E. unfold peek. cbn [good str_is eofb failb negb andb rest]. destruct (rest s) as [|b r]; [now left|].
    destruct (Ascii.eqb_spec b c) as [->|]; [|now left]. right. exists r. split; reflexivity.
  - unfold peek, good. rewrite E2. cbn [negb andb]. left. reflexivity.
Qed.
