(** Reading arbitrary text never overflows: the loop over the format. *)
From Coq Require Import Reals Lra.
From Flocq Require Import Core.Core IEEE754.BinarySingleNaN.
From Verif Require Import Base IntModel FloatModel FloatProofs ToNumModel ToNumProofs3 DateModel DateSpec DateProofs DateProofs2 StrProofs2 FmtModel FmtSpec FmtProofs FmtProofs2 FmtProofs3 FmtProofs4 FmtProofs6 ParModel ParSpec ParProofs1 ParProofs2 ParProofs6.

Section Long.
Local Open Scope R_scope.
Lemma pow10_R k : (0 <= k <= 18)%Z -> 1 <= IZR (10 ^ k) <= 1000000000000000000.
Proof.
  intros K. assert (1 <= 10 ^ k)%Z by (assert (0 < 10 ^ k)%Z by (apply Z.pow_pos_nonneg; lia); lia).
  assert (10 ^ k <= 10 ^ 18)%Z by (apply Z.pow_le_mono_r; lia). change (10 ^ 18)%Z with 1000000000000000000%Z in H0.
  split; now apply IZR_le.
Qed.
Lemma ld_of_bound i f fc : (0 <= i < 10 ^ 10)%Z -> (0 <= fc <= 10)%Z -> (0 <= f < 10 ^ fc)%Z ->
  is_finite (ld_of i f fc) = true /\ 0 <= B2R (ld_of i f fc) <= 20000000000.
Proof.
  intros HI HC HF. change (10 ^ 10)%Z with 10000000000%Z in HI. set (T := (10 ^ fc)%Z) in *.
  assert (T1 : (1 <= T <= 10000000000)%Z).
  { split; [|change 10000000000%Z with (10 ^ 10)%Z; apply Z.pow_le_mono_r; lia]. assert (0 < T)%Z by (apply Z.pow_pos_nonneg; lia). lia. }
  assert (P64 : (2 ^ 64 = 18446744073709551616)%Z) by reflexivity.
  destruct (of_Z_exact i ltac:(lia)) as [Fi Ei]. destruct (of_Z_exact f ltac:(lia)) as [Ff Ef].
  destruct (of_Z_exact T ltac:(lia)) as [FT ET].
  assert (TR : 1 <= IZR T <= 10000000000) by (split; apply IZR_le; lia).
  assert (IR : 0 <= IZR i <= 9999999999) by (split; apply IZR_le; lia).
  assert (FR : 0 <= IZR f) by (apply IZR_le; lia).
  assert (FR2 : IZR f <= IZR T - 1) by (rewrite <- minus_IZR; apply IZR_le; lia).
  unfold ld_of. change (lit_pos fc) with (f_of_Z T : ldouble).
  set (q := fdiv (f_of_Z f) (f_of_Z T) : ldouble). set (x := fadd (f_of_Z i) q : ldouble).
  pose proof (rep_div 64 16384 (f_of_Z f) (f_of_Z T) Ff FT ltac:(rewrite ET; lra)) as Rq. rewrite Ef, ET in Rq. fold q in Rq.
  assert (Q0 : 0 <= IZR f / IZR T < 1).
  { split; [apply Rmult_le_pos; [lra|left; apply Rinv_0_lt_compat; lra]|]. apply Rmult_lt_reg_r with (IZR T); [lra|].
    unfold Rdiv. rewrite Rmult_assoc, Rinv_l by lra. lra. }
  destruct (rep_err q _ 0 Rq) as [Fq Eq]; [change (bpow radix2 0) with 1; rewrite Rabs_pos_eq; lra|lia|].
  apply Rabs_le_inv in Eq. pose proof (rep_pos _ _ Rq Fq ltac:(lra)) as Pq.
  assert (B65 : bpow radix2 (0 - 65) <= 1) by (apply (bpow_le radix2 (0 - 65) 0); lia).
  pose proof (rep_plus 64 16384 (f_of_Z i) q Fi Fq) as Rx. rewrite Ei in Rx. fold x in Rx.
  destruct (rep_err x _ 34 Rx) as [Fx Ex]; [change (bpow radix2 34) with 17179869184; rewrite Rabs_pos_eq; lra|lia|].
  apply Rabs_le_inv in Ex. pose proof (rep_pos _ _ Rx Fx ltac:(lra)) as Px.
  assert (B59 : bpow radix2 (34 - 65) <= 1) by (apply (bpow_le radix2 (34 - 65) 0); lia).
  split; [exact Fx|]. lra.
Qed.
Lemma ll_range z : (-9223372036854775808 <= z <= 9223372036854775807)%Z -> in_rangeb llong_t z = true.
Proof.
  intros H. unfold in_rangeb, imin, imax, llong_t. cbn [sgn wid]. apply andb_true_intro. rewrite !Z.leb_le.
  change (2 ^ (64 - 1))%Z with 9223372036854775808%Z. lia.
Qed.
Lemma round_sec_bound w (x : ldouble) : (w <= 7)%nat -> is_finite x = true -> 0 <= B2R x <= 20000000000 ->
  exists t, round_sec w x = Ok t /\ (-1 <= t <= 1000000000000000000)%Z.
Proof.
  intros W Fx HX. unfold round_sec, ticks. set (T := (10 ^ Z.of_nat w)%Z).
  assert (T1 : (1 <= T <= 10000000)%Z).
  { split; [|change 10000000%Z with (10 ^ 7)%Z; apply Z.pow_le_mono_r; lia]. assert (0 < T)%Z by (apply Z.pow_pos_nonneg; lia). lia. }
  assert (P64 : (2 ^ 64 = 18446744073709551616)%Z) by reflexivity.
  destruct (of_Z_exact T ltac:(lia)) as [FT ET].
  assert (TR : 1 <= IZR T <= 10000000) by (split; apply IZR_le; lia).
  set (d := fmul x (f_of_Z T) : ldouble). pose proof (rep_mult 64 16384 x (f_of_Z T) Fx FT) as Rd. rewrite ET in Rd. fold d in Rd.
  assert (XT : 0 <= B2R x * IZR T <= 200000000000000000) by nra.
  destruct (rep_err d _ 58 Rd) as [Fd Ed].
  { change (bpow radix2 58) with 288230376151711744. rewrite Rabs_pos_eq; lra. }
  { lia. }
  apply Rabs_le_inv in Ed. pose proof (rep_pos _ _ Rd Fd ltac:(lra)) as Pd.
  assert (B : bpow radix2 (58 - 65) <= 1) by (apply (bpow_le radix2 (58 - 65) 0); lia).
  unfold ld_to_ll. rewrite Fd, Btrunc_Ztrunc, Ztrunc_floor by exact Pd. cbn [andb].
  assert (L0 : (0 <= Zfloor (B2R d))%Z) by (apply Zfloor_lub; exact Pd).
  assert (L1 : (Zfloor (B2R d) <= 300000000000000000)%Z).
  { apply le_IZR. eapply Rle_trans; [apply Zfloor_lb|]. lra. }
  set (t := Zfloor (B2R d)) in *. clearbody t. rewrite ll_range by lia. cbn [bind].
  assert (A : exists t0, (if flt d (f_of_Z t) then arith llong_t (t - 1) else Ok t) = Ok t0 /\ (t - 1 <= t0 <= t)%Z).
  { destruct (flt d (f_of_Z t)); [rewrite ll_ok by lia|]; eexists; (split; [reflexivity|lia]). }
  destruct A as (t0 & -> & T0). cbn [bind]. rewrite ll_ok by lia. cbn [bind].
  destruct (feq _ _); [destruct (_ =? 0)%Z|destruct (flt _ _)]; eexists; (split; [reflexivity|lia]).
Qed.
End Long.

Local Open Scope Z_scope.
Local Open Scope outcome_scope.
Lemma round_sec_zero w : (w <= 7)%nat -> exists t, round_sec w ld_zero = Ok t /\ -1 <= t <= 1000000000000000000.
Proof. intros W. apply round_sec_bound; [exact W|reflexivity|]. cbn [ld_zero B2R]. lra. Qed.

Lemma ld_loop_bound M : 1 <= M <= 10 -> forall r point frac count fc i f, 0 <= fc <= count -> count < M -> 0 <= i < 10 ^ count -> 0 <= f < 10 ^ fc ->
  forall c' fc' i' f' r' e, ld_loop M r point frac count fc i f = (c', fc', i', f', r', e) ->
  0 <= fc' <= 10 /\ 0 <= i' < 10 ^ 10 /\ 0 <= f' < 10 ^ fc' /\ (e = true -> r' = []).
Proof.
  intros HM r. induction r as [|c r IH]; intros point frac count fc i f HC HCM HI HF c' fc' i' f' r' e.
  - cbn [ld_loop]. intros E. injection E as <- <- <- <- <- <-.
    assert (10 ^ count <= 10 ^ 10) by (apply Z.pow_le_mono_r; lia). repeat split; auto; lia.
  - cbn [ld_loop]. rewrite (uns_id (count + 1)) by lia.
    assert (PC : 10 ^ (count + 1) <= 10 ^ 10) by (apply Z.pow_le_mono_r; lia).
    assert (PC' : 10 ^ (count + 1) = 10 * 10 ^ count) by (rewrite Z.add_1_r, Z.pow_succ_r by lia; reflexivity).
    destruct (point && Ascii.eqb c ".").
    + destruct (Z.eqb_spec (count + 1) M) as [E|E].
      * intros H. injection H as <- <- <- <- <- <-. repeat split; auto; try lia; discriminate.
      * apply IH; auto; try lia.
    + destruct (is_digit c) eqn:D.
      * pose proof (is_digit_dig c D) as D'. destruct (dig_is_digit c D') as [_ ->]. unfold is_dig in D'.
        assert (PF : 10 ^ (fc + 1) = 10 * 10 ^ fc) by (rewrite Z.add_1_r, Z.pow_succ_r by lia; reflexivity).
        assert (PF2 : 10 ^ (fc + 1) <= 10 ^ 10) by (apply Z.pow_le_mono_r; lia).
        assert (P10 : 10 ^ 10 = 10000000000) by reflexivity.
        destruct frac.
        -- rewrite (ull_id (10 * f)) by lia. rewrite (ull_id (10 * f + (uc c - 48))) by lia. rewrite (uns_id (fc + 1)) by lia.
           remember (10 * f + (uc c - 48)) as nf eqn:NF.
           destruct (Z.eqb_spec (count + 1) M) as [E|E].
           ++ intros H. injection H as <- <- <- <- <- <-. repeat split; auto; try lia; discriminate.
           ++ apply IH; auto; try lia.
        -- rewrite (ull_id (10 * i)) by lia. rewrite (ull_id (10 * i + (uc c - 48))) by lia.
           remember (10 * i + (uc c - 48)) as nf eqn:NF.
           destruct (Z.eqb_spec (count + 1) M) as [E|E].
           ++ intros H. injection H as <- <- <- <- <- <-. repeat split; auto; try lia; discriminate.
           ++ apply IH; auto; try lia.
      * intros H. injection H as <- <- <- <- <- <-. repeat split; auto; try lia; discriminate.
Qed.

(** * Streams: failed, or eofbit only at the end *)
Definition sok (s : ist) : Prop := failb s = true \/ okst s.
Lemma sok_str r : sok (str_is r). Proof. right. apply okst_str. Qed.
Lemma sok_fail s : sok (set_fail s). Proof. left. reflexivity. Qed.
Lemma sok_str_r s r e : failb s = false -> okst s -> (e = true -> r = []) -> (eofb s = true -> r = []) -> okst (IS r (eofb s || e) (failb s)).
Proof.
  intros F O E1 E2. rewrite F. split; [reflexivity|]. cbn [eofb rest]. destruct (eofb s); cbn [orb]; auto.
Qed.
Lemma good_false s : failb s = true -> good s = false.
Proof. intros F. unfold good. rewrite F. apply andb_false_r. Qed.
Lemma read_u_sok k s : (1 <= k <= 9)%nat -> sok s -> exists n s', read_unsigned 1 (Z.of_nat k) s = (n, s') /\ sok s' /\ 0 <= n < 10 ^ Z.of_nat k.
Proof.
  intros K [F|O].
  - unfold read_unsigned. rewrite (good_false s F). eexists _, _. split; [reflexivity|]. split; [apply sok_fail|]. split; [lia|apply Z.pow_pos_nonneg; lia].
  - destruct (read_u_inv k s K O) as (n & s' & R & B & H). exists n, s'. split; [exact R|]. split; [|exact B]. destruct H as [H|[H _]]; [now left|now right].
Qed.
Lemma read_s_sok k s : (1 <= k <= 9)%nat -> sok s -> exists n s', read_signed 1 (Z.of_nat k) s = Ok (n, s') /\ sok s' /\ - 10 ^ Z.of_nat k < n < 10 ^ Z.of_nat k.
Proof.
  intros K [F|O].
  - unfold read_signed, peek. rewrite (good_false s F). change (1 >? 0) with true. cbv iota. eexists _, _. split; [reflexivity|]. split; [left; reflexivity|].
    assert (0 < 10 ^ Z.of_nat k) by (apply Z.pow_pos_nonneg; lia). lia.
  - destruct (read_s_inv k s K O) as (n & s' & R & B & H). exists n, s'. split; [exact R|]. split; [|exact B]. destruct H as [H|[H _]]; [now left|now right].
Qed.
Lemma read_c_sok c s : sok s -> sok (read_c c s).
Proof.
  intros H. unfold read_c. destruct (Ascii.eqb c NUL); [exact H|]. destruct H as [F|O].
  - unfold peek. rewrite (good_false s F). left. reflexivity.
  - destruct (okst_cases s O) as [E|[E1 E2]].
    + rewrite E. unfold peek. cbn [good str_is eofb failb negb andb rest]. destruct (rest s) as [|b r]; [left; reflexivity|].
      destruct (Ascii.eqb b c); [|left; reflexivity]. cbn [get good eofb failb negb andb rest]. apply sok_str.
    + unfold peek, good. rewrite E2. cbn [negb andb]. left. reflexivity.
Qed.
Lemma read_ld_sok w s : (w <= 7)%nat -> sok s -> exists x s' t, read_long_double 1 (sec_chars w) s = (x, s') /\ sok s' /\
  round_sec w x = Ok t /\ -1 <= t <= 1000000000000000000.
Proof.
  intros W H. destruct (round_sec_zero w W) as (t0 & R0 & T0). unfold read_long_double. destruct H as [F|O].
  { rewrite (good_false s F). eexists _, _, _. split; [reflexivity|]. split; [apply sok_fail|]. split; [exact R0|exact T0]. }
  destruct (okst_cases s O) as [E|[E1 E2]].
  2:{ unfold good. rewrite E2. cbn [negb andb]. eexists _, _, _. split; [reflexivity|]. split; [apply sok_fail|]. split; [exact R0|exact T0]. }
  rewrite E. cbn [good str_is eofb failb negb andb rest orb].
  destruct (ld_loop _ _ _ _ _ _ _ _) as [[[[[c' fc'] i'] f'] r'] e'] eqn:L.
  apply ld_loop_bound in L; try lia; [|unfold sec_chars; destruct w; cbn [Nat.eqb]; lia|unfold sec_chars; destruct w; cbn [Nat.eqb]; lia].
  destruct L as (L1 & L2 & L3 & L4).
  destruct (c' <? 1).
  - eexists _, _, _. split; [reflexivity|]. split; [apply sok_fail|]. split; [exact R0|exact T0].
  - destruct (ld_of_bound i' f' fc' L2 L1 L3) as [FX BX]. destruct (round_sec_bound w _ W FX BX) as (t & Rt & Bt).
    eexists _, _, t. split; [reflexivity|]. split; [right; split; [reflexivity|exact L4]|]. split; [exact Rt|exact Bt].
Qed.

(** * [read]: a list of arguments *)
Definition a_ok (a : rarg) : Prop :=
  match a with
  | RC _ => True
  | RI z => z = -1
  | RS m M | RU m M => m = 1 /\ exists k, (1 <= k <= 4)%nat /\ M = Z.of_nat k
  end.
Definition a_num (a : rarg) : bool := match a with RS _ _ | RU _ _ => true | _ => false end.
Definition a_rng (a : rarg) (x : Z) : Prop :=
  match a with RS _ M => - 10 ^ M < x < 10 ^ M | RU _ M => 0 <= x < 10 ^ M | _ => False end.
Lemma read_sok args : Forall a_ok args -> forall s, sok s -> exists l s', read args s = Ok (l, s') /\ sok s' /\
  (failb s' = false -> (forall z, ~ In (RI z) args) -> Forall2 a_rng (filter a_num args) l).
Proof.
  induction args as [|a args IH]; intros F s H.
  - eexists _, _. split; [reflexivity|]. split; [exact H|]. constructor.
  - apply Forall_cons_iff in F. destruct F as [A F]. specialize (IH F). destruct a as [c|z|m M|m M]; cbn [read a_num filter].
    + pose proof (read_c_sok c s H) as H1. destruct (failb (read_c c s)) eqn:FB.
      * eexists _, _. split; [reflexivity|]. split; [exact H1|]. congruence.
      * destruct (IH _ H1) as (l & s' & R & H2 & Q). exists l, s'. split; [exact R|]. split; [exact H2|]. intros X Y. apply Q; [exact X|]. intros z I. apply (Y z). now right.
    + cbn [a_ok] in A. subst z. change (-1 =? -1) with true. cbv iota. destruct (good s).
      * destruct (IH _ H) as (l & s' & R & H2 & _). exists l, s'. split; [exact R|]. split; [exact H2|]. intros _ Y. destruct (Y (-1)). now left.
      * eexists _, _. split; [reflexivity|]. split; [exact H|]. intros _ Y. destruct (Y (-1)). now left.
    + destruct A as (-> & k & K & ->). destruct (read_s_sok k s ltac:(lia) H) as (n & s1 & R1 & H1 & B). rewrite R1. cbn [bind].
      destruct (failb s1) eqn:FB.
      * eexists _, _. split; [reflexivity|]. split; [exact H1|]. congruence.
      * destruct (IH _ H1) as (l & s' & R & H2 & Q). rewrite R. cbn [bind]. eexists _, _. split; [reflexivity|]. split; [exact H2|].
        intros X Y. constructor; [exact B|]. apply Q; [exact X|]. intros z I. apply (Y z). now right.
    + destruct A as (-> & k & K & ->). destruct (read_u_sok k s ltac:(lia) H) as (n & s1 & R1 & H1 & B). rewrite R1.
      destruct (failb s1) eqn:FB.
      * eexists _, _. split; [reflexivity|]. split; [exact H1|]. congruence.
      * destruct (IH _ H1) as (l & s' & R & H2 & Q). rewrite R. cbn [bind]. eexists _, _. split; [reflexivity|]. split; [exact H2|].
        intros X Y. constructor; [|apply Q; [exact X|]; intros z I; apply (Y z); now right].
        cbn [a_rng]. pose proof (pow9 k ltac:(lia)) as P9. rewrite conv_small by lia. exact B.
Qed.

(** * Keywords *)
Lemma kw_loop_sok r : forall idx ks, let '(ks', r', e) := kw_loop r idx ks in length ks' = length ks /\ (e = true -> r' = []).
Proof.
  induction r as [|c r IH]; intros idx ks; cbn [kw_loop]; destruct (existsb is_might ks).
  - split; [reflexivity|auto].
  - split; [reflexivity|discriminate].
  - destruct (existsb (kw_hit (to_upper c) idx) ks).
    + match goal with |- context [kw_loop r ?i ?k] => specialize (IH i k); destruct (kw_loop r i k) as [[ks' r'] e] end.
      destruct IH as [IH1 IH2]. split; [|exact IH2]. rewrite IH1. destruct (Nat.ltb _ _); now rewrite ?map_length.
    + split; [now rewrite map_length|discriminate].
  - split; [reflexivity|discriminate].
Qed.
Lemma kw_first_range ks : forall i j, kw_first ks i = Some j -> i <= j < i + zlen ks.
Proof.
  induction ks as [|k ks IH]; intros i j; cbn [kw_first]; [discriminate|]. unfold zlen in *. cbn [length]. destruct (is_does k).
  - intros E. injection E as <-. lia.
  - intros E. apply IH in E. lia.
Qed.
Lemma kw_init_len l : length (kw_init l) = length l. Proof. apply map_length. Qed.
Lemma scan_sok l s : sok s -> exists i s', scan_keyword l s = (i, s') /\ sok s' /\ (failb s' = false -> 0 <= i < zlen l).
Proof.
  intros H. unfold scan_keyword.
  set (q := if failb s then _ else _).
  assert (Q : length (fst q) = length l /\ sok (snd q)).
  { unfold q. destruct (failb s) eqn:FB; [cbn [fst snd]; split; [apply kw_init_len|now left]|].
    destruct H as [F|O]; [congruence|]. destruct (okst_cases s O) as [E|[E1 E2]].
    - assert (GS : good s = true) by (rewrite E; reflexivity). rewrite GS.
      pose proof (kw_loop_sok (rest s) 0 (kw_init l)) as K. destruct (kw_loop _ _ _) as [[ks r] e]. destruct K as [K1 K2]. cbn [fst snd].
      split; [rewrite K1; apply kw_init_len|]. right. assert (ES : eofb s = false) by (rewrite E; reflexivity). rewrite ES.
      split; [reflexivity|exact K2].
    - unfold good. rewrite E2. cbn [negb andb fst snd]. split; [apply kw_init_len|apply sok_fail]. }
  destruct q as [ks s1]. cbn [fst snd] in Q. destruct Q as [Q1 Q2].
  destruct (kw_first ks 0) as [i|] eqn:K.
  - exists i, s1. split; [reflexivity|]. split; [exact Q2|]. intros _. apply kw_first_range in K. unfold zlen in *. lia.
  - eexists _, _. split; [reflexivity|]. split; [apply sok_fail|]. discriminate.
Qed.
Lemma skip_ws_end r : snd (skip_ws r) = true -> fst (skip_ws r) = [].
Proof. induction r as [|c r IH]; cbn [skip_ws]; [reflexivity|]. destruct (is_space c); [exact IH|discriminate]. Qed.
Lemma ws_sok s : sok s -> sok (ws s).
Proof.
  intros H. unfold ws. pose proof (skip_ws_end (rest s)) as K. destruct (skip_ws (rest s)) as [r e] eqn:E. cbn [fst snd] in K. destruct H as [F|O].
  - left. exact F.
  - right. destruct O as [F O]. split; [exact F|]. cbn [eofb rest]. intros X. apply orb_prop in X. destruct X as [X|X]; [|auto].
    rewrite (O X) in E. injection E as <- <-. reflexivity.
Qed.

(** * The values of the variables *)
Definition rng (g : fld) (x : Z) : Prop :=
  match g with
  | FY | FG => -9999 <= x <= 9999
  | Fy | FC | Fm | Fd | FI => -99 <= x <= 99
  | Fg | FH | FM | FU | FV | FW => 0 <= x <= 99
  | Fj => 0 <= x <= 999
  | Fwd => 0 <= x <= 6
  | Fp => 0 <= x <= 1
  | Fs => -1 <= x <= 1000000000000000000
  | Foff => False
  end.
Definition vok (v : vals) : Prop := forall g, v g = nav g \/ rng g (v g).
Record pinv (p : pst) : Prop := PInv { i_s : sok (p_is p); i_v : vok (p_v p); i_w : p_w p = -1; i_n : p_inw p = false }.
Lemma fld_eqb_true a b : fld_eqb a b = true -> a = b.
Proof. destruct a, b; try discriminate; reflexivity. Qed.
Lemma with_is_inv p s : pinv p -> sok s -> pinv (with_is p s).
Proof. intros [A B C D] H. now constructor. Qed.
Lemma set_inv f x p : pinv p -> (failb (p_is p) = false -> rng f x) -> pinv (checked_set f x p).
Proof.
  intros [A B C D] H. unfold checked_set. destruct (failb (p_is p)) eqn:FB; [now constructor|]. specialize (H eq_refl).
  destruct (p_v p f =? nav f).
  - constructor; cbn [p_is p_v p_w p_inw]; auto. intros g. unfold upd. destruct (fld_eqb f g) eqn:E; [|apply B].
    apply fld_eqb_true in E. subst g. now right.
  - destruct (p_v p f =? x); [now constructor|]. constructor; cbn [with_is p_is p_v p_w p_inw]; auto. apply sok_fail.
Qed.
Lemma set_fail_mono f x p : failb (p_is p) = true -> checked_set f x p = p.
Proof. intros H. unfold checked_set. now rewrite H. Qed.
Lemma set_is f x p : failb (p_is (checked_set f x p)) = false -> failb (p_is p) = false.
Proof. unfold checked_set. destruct (failb (p_is p)) eqn:E; [congruence|reflexivity]. Qed.
Lemma zone_inv z p : pinv p -> pinv (set_zone z p).
Proof.
  intros [A B C D]. unfold set_zone. destruct (failb (p_is p)); [now constructor|]. destruct (p_zone p); [now constructor|].
  destruct (list_eq_dec _ _ _); constructor; auto. apply sok_fail.
Qed.
Lemma reset_inv p : pinv p -> pinv (reset p). Proof. intros [A B C D]. now constructor. Qed.
Lemma fail_inv p : pinv p -> pinv (fail_p p). Proof. intros [A B C D]. constructor; auto. apply sok_fail. Qed.
Definition fine (o : outcome pst) : Prop := exists p', o = Ok p' /\ pinv p'.
Lemma fine_bind o f : fine o -> (forall p', pinv p' -> fine (f p')) -> fine (p <- o ;; f p).
Proof. intros (p' & -> & H) F. cbn [bind]. auto. Qed.
Lemma fine_ok p : pinv p -> fine (Ok p). Proof. intros H. exists p. auto. Qed.

Ltac aok := repeat first [constructor | (split; [reflexivity|]) | exact I | (now exists 1%nat; split; [lia|reflexivity]) | (now exists 2%nat; split; [lia|reflexivity]) | (now exists 3%nat; split; [lia|reflexivity]) | (now exists 4%nat; split; [lia|reflexivity])].
Lemma verb_fine c p : pinv p -> fine (verb c p).
Proof.
  intros [A B C D]. unfold verb. rewrite C.
  destruct (read_sok [RC "%"; RI (-1); RC (p_md p); RC c] ltac:(repeat constructor) (p_is p) A) as (l & s & -> & S & _).
  cbn [bind]. apply fine_ok, with_is_inv; [now constructor|exact S].
Qed.
(** One number *)
Lemma one_fine f a p : pinv p -> a_ok a -> a_num a = true -> (forall x, a_rng a x -> rng f x) -> fine (one f a p).
Proof.
  intros P A AN R. unfold one. destruct (read_sok [a] ltac:(now repeat constructor) (p_is p) (i_s _ P)) as (l & s & -> & S & Q).
  cbn [bind]. apply fine_ok, set_inv; [now apply with_is_inv|]. cbn [with_is p_is]. intros F. cbn [filter] in Q. rewrite AN in Q.
  assert (L : Forall2 a_rng [a] l).
  { apply Q; [exact F|]. intros z [->|[]]. discriminate. }
  inversion L as [|? x ? l' HX HL]; subst. apply R. exact HX.
Qed.
Definition au k (K : (1 <= k <= 4)%nat) : a_ok (RU 1 (Z.of_nat k)) := conj eq_refl (ex_intro _ k (conj K eq_refl)).
Definition as_ k (K : (1 <= k <= 4)%nat) : a_ok (RS 1 (Z.of_nat k)) := conj eq_refl (ex_intro _ k (conj K eq_refl)).
Lemma one_u f k p : pinv p -> (1 <= k <= 4)%nat -> (forall x, 0 <= x < 10 ^ Z.of_nat k -> rng f x) -> fine (one f (RU 1 (Z.of_nat k)) p).
Proof. intros P K R. apply one_fine; auto. now apply au. Qed.
Lemma one_s f k p : pinv p -> (1 <= k <= 4)%nat -> (forall x, - 10 ^ Z.of_nat k < x < 10 ^ Z.of_nat k -> rng f x) -> fine (one f (RS 1 (Z.of_nat k)) p).
Proof. intros P K R. apply one_fine; auto. now apply as_. Qed.

Section Dir.
Context (w : nat) (W : (w <= 7)%nat).
Lemma clock_fine f p : pinv p -> (f = FH \/ f = FI) -> fine (clock w f p).
Proof.
  intros P HF. unfold clock.
  destruct (read_sok [RU 1 2; RC ":"; RU 1 2; RC ":"] ltac:(repeat constructor; exists 2%nat; split; try lia; reflexivity) (p_is p) (i_s _ P)) as (l & s & -> & S & Q).
  cbn [bind].
  assert (X : exists x s' t, (if failb s then (ld_zero, s) else read_long_double 1 (sec_chars w) s) = (x, s') /\ sok s' /\
     round_sec w x = Ok t /\ -1 <= t <= 1000000000000000000 /\ (failb s' = false -> failb s = false)).
  { destruct (failb s) eqn:F.
    - destruct (round_sec_zero w W) as (t & R & T). exists ld_zero, s, t. split; [reflexivity|]. split; [exact S|]. split; [exact R|]. split; [exact T|]. congruence.
    - destruct (read_ld_sok w s W S) as (x & s' & t & R & S' & Rt & T). exists x, s', t. auto 6. }
  destruct X as (x & s' & t & -> & S' & -> & T & FF). cbn [bind].
  assert (L : failb s' = false -> exists a b, l = [a; b] /\ 0 <= a < 100 /\ 0 <= b < 100).
  { intros F. specialize (Q (FF F) ltac:(intros z [H|[H|[H|[H|[]]]]]; discriminate)). cbn [filter a_num] in Q.
    inversion Q as [|? a ? l1 HA Q1]; subst. inversion Q1 as [|? b ? l2 HB Q2]; subst. inversion Q2; subst. exists a, b. auto. }
  apply fine_ok.
  apply set_inv; [apply set_inv; [apply set_inv; [now apply with_is_inv|]|]|].
  - cbn [with_is p_is]. intros F. destruct (L F) as (a & b & -> & A & B). unfold vof. cbn [nth]. destruct HF as [-> | ->]; cbn [rng]; lia.
  - intros F. apply set_is in F. destruct (L F) as (a & b & -> & A & B). unfold vof. cbn [nth rng]. lia.
  - intros _. exact T.
Qed.
Lemma keyword_fine l p : pinv p -> exists i p', keyword l p = (i, p') /\ pinv p' /\ (failb (p_is p') = false -> 0 <= i < zlen l).
Proof.
  intros P. unfold keyword. destruct (scan_sok l (p_is p) (i_s _ P)) as (i & s & -> & S & R). eexists _, _. split; [reflexivity|].
  split; [now apply with_is_inv|exact R].
Qed.
Lemma ws_inv p : pinv p -> pinv (with_is p (ws (p_is p))).
Proof. intros P. apply with_is_inv; [exact P|]. apply ws_sok, P. Qed.
Lemma mod7 i : rng Fwd (i mod 7). Proof. cbn [rng]. pose proof (Z.mod_pos_bound i 7). lia. Qed.
Lemma mod12 i : rng Fm (i mod 12 + 1). Proof. cbn [rng]. pose proof (Z.mod_pos_bound i 12). lia. Qed.
Lemma read3 args s : sok s -> Forall a_ok args -> (forall z, ~ In (RI z) args) -> exists l s', read args s = Ok (l, s') /\ sok s' /\ (failb s' = false -> Forall2 a_rng (filter a_num args) l).
Proof. intros S F N. destruct (read_sok args F s S) as (l & s' & R & S' & Q). exists l, s'. auto. Qed.

Lemma peek_sok s : sok s -> exists ic s1, peek s = (ic, s1) /\ sok s1 /\ (ic <> None -> s1 = str_is (rest s1) /\ rest s1 <> []) /\ (ic = None -> rest s1 = [] \/ failb s1 = true).
Proof.
  intros [F|O].
  - unfold peek. rewrite (good_false s F). eexists _, _. split; [reflexivity|]. split; [apply sok_fail|]. split; [congruence|]. intros _. right. reflexivity.
  - destruct (okst_cases s O) as [E|[E1 E2]].
    + rewrite E. unfold peek. cbn [good str_is eofb failb negb andb rest]. destruct (rest s) as [|c r].
      * eexists _, _. split; [reflexivity|]. split; [right; split; [reflexivity|reflexivity]|]. split; [congruence|]. intros _. left. reflexivity.
      * eexists _, _. split; [reflexivity|]. split; [apply sok_str|]. split; [|congruence]. intros _. split; [reflexivity|discriminate].
    + unfold peek, good. rewrite E2. cbn [negb andb]. eexists _, _. split; [reflexivity|]. split; [apply sok_fail|]. split; [congruence|]. intros _. right. reflexivity.
Qed.

Definition cmd_ok (c : ascii) : Prop := memb c in_directives = true /\ c <> "z"%char.
(** What a directive leaves: everything reset, or (%t at the end of the input) the command still set *)
Definition after (c : ascii) (p p' : pst) : Prop :=
  (p_cmd p' = false /\ p_md p' = NUL) \/ failb (p_is p') = true \/
  (c = "t"%char /\ p_cmd p' = p_cmd p /\ p_md p' = NUL /\ p_is p' = IS [] true false).
Definition res (c : ascii) (p : pst) (o : outcome pst) : Prop := exists p', o = Ok p' /\ pinv p' /\ after c p p'.
Lemma res_reset c p o : fine o -> res c p (p1 <- o ;; Ok (reset p1)).
Proof. intros (p1 & -> & P). cbn [bind]. exists (reset p1). split; [reflexivity|]. split; [now apply reset_inv|]. left. split; reflexivity. Qed.
Lemma res_ok c p p1 : pinv p1 -> res c p (Ok (reset p1)).
Proof. intros P. exists (reset p1). split; [reflexivity|]. split; [now apply reset_inv|]. left. split; reflexivity. Qed.

Lemma wd_or_inv p n : pinv p -> wd_or p n = n.
Proof. intros P. unfold wd_or. now rewrite (i_w _ P). Qed.
Ltac kw l p P i p1 P1 K := destruct (keyword_fine l p P) as (i & p1 & -> & P1 & K).
Ltac rd := match goal with |- res _ _ (x <- read ?a ?s ;; _) =>
  let l := fresh "l" in let s1 := fresh "s1" in let S1 := fresh "S1" in let Q := fresh "Q" in
  destruct (read3 a s) as (l & s1 & -> & S1 & Q);
  [assumption|repeat (constructor; [first [exact I | apply (au 1); lia | apply (au 2); lia | apply (as_ 2); lia | apply (as_ 4); lia]|]); constructor
  |intros z0 ZI; cbn [In] in ZI; repeat (destruct ZI as [ZI|ZI]; [discriminate|]); contradiction|];
  cbn [bind]; cbn [filter a_num] in Q end.
Lemma f2_1 a l : Forall2 a_rng [a] l -> a_rng a (vof l 0).
Proof. intros H. inversion H as [|? x ? l' HX HL]; subst. exact HX. Qed.
Lemma f2_2 a b l : Forall2 a_rng [a; b] l -> a_rng a (vof l 0) /\ a_rng b (vof l 1).
Proof. intros H. inversion H as [|? x ? l' HX HL]; subst. inversion HL as [|? y ? l2 HY HL2]; subst. auto. Qed.
Lemma f2_3 a b c l : Forall2 a_rng [a; b; c] l -> a_rng a (vof l 0) /\ a_rng b (vof l 1) /\ a_rng c (vof l 2).
Proof. intros H. inversion H as [|? x ? l' HX HL]; subst. inversion HL as [|? y ? l2 HY HL2]; subst. inversion HL2 as [|? z ? l3 HZ HL3]; subst. auto. Qed.
Lemma set3 p s a b c x y z : pinv p -> sok s -> (failb s = false -> rng a x /\ rng b y /\ rng c z) ->
  pinv (checked_set a x (checked_set b y (checked_set c z (with_is p s)))).
Proof.
  intros P S H. apply set_inv; [apply set_inv; [apply set_inv; [now apply with_is_inv|]|]|]; cbn [with_is p_is]; intros F.
  - now apply H.
  - apply set_is in F. now apply H.
  - apply set_is, set_is in F. now apply H.
Qed.
Lemma zone_end r : snd (zone_loop r) = true -> snd (fst (zone_loop r)) = [].
Proof.
  induction r as [|c r IH]; cbn [zone_loop]; [reflexivity|]. destruct (zone_char c); [|discriminate].
  destruct (zone_loop r) as [[z r'] e]. exact IH.
Qed.
Lemma dir_res c p : pinv p -> cmd_ok c -> res c p (in_directive w c p).
Proof.
  intros P [HC NZ]. unfold in_directives in HC. memb_cases HC.
  all: cbn [in_directive]; cbv zeta; rewrite ?(wd_or_inv p _ P).
  all: try (apply res_reset; first [apply verb_fine; exact P | (destruct (Ascii.eqb (p_md p) _); first [apply verb_fine; exact P | apply clock_fine; auto])]).
  all: try (match goal with |- res _ _ (if ?b then (p1 <- verb _ _ ;; _) else _) => destruct b; [apply res_reset, verb_fine, P|] end).
  all: try (match goal with |- res _ _ (if ?b then _ else (p1 <- verb _ _ ;; _)) => let EP := fresh "EP" in destruct b eqn:EP; [apply Ascii.eqb_eq in EP|apply res_reset, verb_fine, P] end).
  all: try (apply res_reset; match goal with |- fine (if ?b then verb _ _ else _) => destruct b; [apply verb_fine, P|] | |- fine (if ?b then _ else verb _ _) => destruct b; [|apply verb_fine, P] | _ => idtac end).
  all: try match goal with
    | |- fine (one _ (RU 1 1) _) => apply (one_u _ 1); [exact P|lia|cbn [rng]; change (10 ^ Z.of_nat 1) with 10; intros; lia]
    | |- fine (one _ (RU 1 2) _) => apply (one_u _ 2); [exact P|lia|cbn [rng]; change (10 ^ Z.of_nat 2) with 100; intros; lia]
    | |- fine (one _ (RU 1 3) _) => apply (one_u _ 3); [exact P|lia|cbn [rng]; change (10 ^ Z.of_nat 3) with 1000; intros; lia]
    | |- fine (one _ (RS 1 2) _) => apply (one_s _ 2); [exact P|lia|cbn [rng]; change (10 ^ Z.of_nat 2) with 100; intros; lia]
    | |- fine (one _ (RS 1 4) _) => apply (one_s _ 4); [exact P|lia|cbn [rng]; change (10 ^ Z.of_nat 4) with 10000; intros; lia]
    end.
  - kw weekday_names p P i p1 P1 K. apply res_ok. destruct (failb (p_is p1)); [exact P1|]. apply set_inv; [exact P1|]. intros _. apply mod7.
  - kw weekday_names p P i p1 P1 K. apply res_ok. destruct (failb (p_is p1)); [exact P1|]. apply set_inv; [exact P1|]. intros _. apply mod7.
  - pose proof (i_s _ P) as S. rd. change (Ascii.eqb "u" "u") with true. cbv iota. destruct (failb s1) eqn:F; [apply res_ok, with_is_inv; assumption|].
    specialize (Q eq_refl). apply f2_1 in Q. cbn [a_rng] in Q.
    destruct (_ =? 8) eqn:E; [apply res_ok, fail_inv, with_is_inv; assumption|]. apply res_ok, set_inv; [now apply with_is_inv|]. intros _. cbn [rng].
    destruct ((1 <=? vof l 0) && (vof l 0 <=? 7)) eqn:R; [|discriminate]. apply andb_prop in R. rewrite !Z.leb_le in R. destruct (Z.eqb_spec (vof l 0) 7); lia.
  - pose proof (i_s _ P) as S. rd. change (Ascii.eqb "w" "u") with false. cbv iota. destruct (failb s1) eqn:F; [apply res_ok, with_is_inv; assumption|].
    specialize (Q eq_refl). apply f2_1 in Q. cbn [a_rng] in Q.
    destruct (_ =? 8) eqn:E; [apply res_ok, fail_inv, with_is_inv; assumption|]. apply res_ok, set_inv; [now apply with_is_inv|]. intros _. cbn [rng].
    destruct ((0 <=? vof l 0) && (vof l 0 <=? 6)) eqn:R; [|discriminate]. apply andb_prop in R. rewrite !Z.leb_le in R. lia.
  - kw month_names p P i p1 P1 K. apply res_ok, set_inv; [exact P1|]. intros F. rewrite F. apply mod12.
  - kw month_names p P i p1 P1 K. apply res_ok, set_inv; [exact P1|]. intros F. rewrite F. apply mod12.
  - kw month_names p P i p1 P1 K. apply res_ok, set_inv; [exact P1|]. intros F. rewrite F. apply mod12.
  - kw weekday_names p P i p1 P1 K.
    assert (P2 : pinv (checked_set Fwd (i mod 7) p1)) by (apply set_inv; [exact P1|intros _; apply mod7]).
    apply ws_inv in P2. set (p3 := with_is (checked_set Fwd (i mod 7) p1) _) in *.
    kw month_names p3 P2 j q4 P4 K4.
    assert (P5 : pinv (checked_set Fm (j mod 12 + 1) q4)) by (apply set_inv; [exact P4|intros _; apply mod12]).
    apply ws_inv in P5. set (p6 := with_is (checked_set Fm _ q4) _) in *.
    destruct (one_s Fd 2 p6 P5 ltac:(lia)) as (p7 & E7 & P7); [cbn [rng]; change (10 ^ Z.of_nat 2) with 100; intros; lia|].
    change (Z.of_nat 2) with 2 in E7. rewrite E7. cbn [bind]. apply ws_inv in P7.
    destruct (clock_fine FH _ P7 ltac:(auto)) as (p9 & -> & P9). cbn [bind]. apply ws_inv in P9.
    apply res_reset. apply (one_s _ 4); [exact P9|lia|cbn [rng]; change (10 ^ Z.of_nat 4) with 10000; intros; lia].
  - pose proof (i_s _ P) as S. rd. apply res_ok, set3; auto. intros F. apply f2_3 in Q; [|exact F]. cbn [a_rng rng] in *. lia.
  - apply clock_fine; auto.
  - pose proof (i_s _ P) as S. rd. apply res_ok, set3; auto. intros F. apply f2_3 in Q; [|exact F]. cbn [a_rng rng] in *. lia.
  - pose proof (i_s _ P) as S. rd. apply res_ok, set3; auto. intros F. apply f2_3 in Q; [|exact F]. cbn [a_rng rng] in *. lia.
  - pose proof (i_s _ P) as S. rd. apply res_ok. destruct ((1 <=? vof l 0) && (vof l 0 <=? 12)) eqn:R.
    + apply set_inv; [now apply with_is_inv|]. intros _. apply andb_prop in R. rewrite !Z.leb_le in R. cbn [rng]. lia.
    + apply set_inv; [now apply fail_inv, with_is_inv|]. discriminate.
  - destruct (peek_sok _ (i_s _ P)) as (ic & s1 & -> & S1 & Q1 & Q2). destruct ic as [b|].
    + apply res_ok, with_is_inv; [exact P|]. destruct (Q1 ltac:(discriminate)) as [E NE]. destruct (is_space b); [|apply sok_fail].
      rewrite E. unfold get. cbn [good str_is eofb failb negb andb rest]. destruct (rest s1); [congruence|]. apply sok_str.
    + eexists. split; [reflexivity|]. split; [apply with_is_inv; [exact P|apply sok_fail]|]. right. left. reflexivity.
  - destruct (peek_sok _ (i_s _ P)) as (ic & s1 & -> & S1 & Q1 & Q2). destruct ic as [b|].
    + apply res_ok, with_is_inv; [exact P|]. destruct (Q1 ltac:(discriminate)) as [E NE]. change ("t" =? "n")%char with false. cbv iota. destruct (is_space b); [|exact S1].
      rewrite E. unfold get. cbn [good str_is eofb failb negb andb rest]. destruct (rest s1); [congruence|]. apply sok_str.
    + change ("t" =? "n")%char with false. cbv iota. destruct (failb s1) eqn:F.
      * eexists. split; [reflexivity|]. split; [apply with_is_inv; [exact P|left; exact F]|]. right. left. exact F.
      * destruct (Q2 eq_refl) as [R|R]; [|congruence].
        eexists. split; [reflexivity|]. split; [apply with_is_inv; [exact P|right; split; [exact F|intros _; exact R]]|]. right. right. repeat split; [exact EP|].
        unfold set_eof, with_is. cbn [p_is]. now rewrite R, F.
  - kw ampm_names p P i p1 P1 K. apply res_ok, set_inv; [exact P1|]. intros F. specialize (K F). change (zlen ampm_names) with 2 in K. cbn [rng]. lia.
  - destruct (clock_fine FI _ P ltac:(auto)) as (p1 & -> & P1). cbn [bind]. apply ws_inv in P1.
    kw ampm_names (with_is p1 (ws (p_is p1))) P1 i p2 P2 K. apply res_ok, set_inv; [exact P2|]. intros F. specialize (K F). change (zlen ampm_names) with 2 in K. cbn [rng]. lia.
  - pose proof (i_s _ P) as S. rd. apply res_ok. apply set_inv; [apply set_inv; [now apply with_is_inv|]|]; cbn [with_is p_is]; intros F.
    + specialize (Q F). apply f2_2 in Q. cbn [a_rng rng] in *. lia.
    + apply set_is in F. specialize (Q F). apply f2_2 in Q. cbn [a_rng rng] in *. lia.
  - destruct (read_ld_sok w _ W (i_s _ P)) as (x & s' & t & R & S' & Rt & T). change (Z.of_nat 1) with 1 in R. rewrite R, Rt. cbn [bind].
    apply res_ok, set_inv; [now apply with_is_inv|]. intros _. exact T.
  - congruence.
  - destruct (i_s _ P) as [F|O].
    + rewrite (good_false _ F). apply res_ok, zone_inv, with_is_inv; [exact P|apply sok_fail].
    + destruct (good (p_is p)) eqn:G; [|apply res_ok, zone_inv, with_is_inv; [exact P|apply sok_fail]].
      pose proof (zone_end (rest (p_is p))) as ZE. destruct (zone_loop (rest (p_is p))) as [[z r] e]. cbn [fst snd] in ZE.
      apply res_ok, zone_inv, with_is_inv; [exact P|]. destruct z; [apply sok_fail|]. right. destruct O as [F O]. split; [exact F|]. cbn [eofb rest].
      unfold good in G. destruct (eofb (p_is p)); [discriminate|]. exact ZE.
Qed.
End Dir.
