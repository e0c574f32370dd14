(** C22-C27: to_number. *)
From Coq Require Import Reals Psatz.
From Flocq Require Import Core.Core IEEE754.BinarySingleNaN.
From Verif Require Import Base StrSearch StrSpec StrModel StrProofs1 StrProofs2 IntModel IntProofs FloatModel FloatProofs
  ToNumModel ToNumSpec ToNumProofs ToNumProofs2 ToNumProofs3.
Local Open Scope Z_scope.

(** * C22: unsigned integers.  [is_ity t]: t is one of the 8, 16, 32 and 64-bit types. *)
Theorem C22_unsigned t s v : is_ity t -> sgn t = false ->
  (to_number_unsigned t s = Some v <->
   s <> [] /\ all_digits s /\ v = digits_value s /\ v <= 2 ^ wid t - 1).
Proof.
  intros Ht Hs. unfold to_number_unsigned. rewrite tui_iff by auto.
  replace (imax t) with (2 ^ wid t - 1); [tauto|]. unfold imax. now rewrite Hs.
Qed.
Theorem C22_leading_zeros t s v : is_ity t -> sgn t = false ->
  to_number_unsigned t s = Some v -> to_number_unsigned t ("0"%char :: s) = Some v.
Proof.
  intros Ht Hs H. apply C22_unsigned in H; auto. apply C22_unsigned; auto.
  destruct H as (Hn & Hd & Hv & Hm). split; [discriminate|]. split; [|auto].
  apply all_digits_cons. split; auto. unfold dec_digit. cbn. lia.
Qed.
(** The branch for compilers without __builtin_mul_overflow gives the same results. *)
Theorem C22_portable_branch t s : is_ity t -> sgn t = false ->
  to_unsigned_integer_portable t s = Ok (to_number_unsigned t s).
Proof.
  intros Ht Hs. unfold to_unsigned_integer_portable, to_number_unsigned, to_unsigned_integer, to_unsigned_integer_m.
  destruct s as [|c s]; auto.
  destruct (portable_same t Ht (or_introl Hs) (c :: s) 0) as [H _].
  - pose proof (ity_bounds t Ht). lia.
  - rewrite H. destruct (tui_loop t 0 1 (c :: s)) as [[x y]|]; reflexivity.
Qed.
Example C22_example :
  to_number_unsigned (IT false 32) (!"0042") = Some 42 /\
  to_number_unsigned (IT false 8) (!"255") = Some 255 /\ to_number_unsigned (IT false 8) (!"256") = None /\
  to_number_unsigned (IT false 64) (!"18446744073709551615") = Some (2 ^ 64 - 1) /\
  to_number_unsigned (IT false 64) (!"18446744073709551616") = None /\
  to_number_unsigned (IT false 32) (!"1 2") = None /\ to_number_unsigned (IT false 32) [] = None.
Proof. vm_compute. repeat split. Qed.

(** * C23: signed integers *)
Theorem C23_signed t s v : is_ity t -> sgn t = true ->
  (to_number_signed t s = Ok (Some v) <->
   - 2 ^ (wid t - 1) <= v <= 2 ^ (wid t - 1) - 1 /\
   ((s <> [] /\ all_digits s /\ v = digits_value s) \/
    (exists d, s = "-"%char :: d /\ d <> [] /\ all_digits d /\ v = - digits_value d))).
Proof.
  intros Ht Hs. rewrite to_number_signed_iff by auto.
  unfold in_range, imin, imax. rewrite Hs. reflexivity.
Qed.
(** No signed overflow: every call returns. *)
Theorem C23_no_overflow t s : is_ity t -> sgn t = true -> exists r, to_number_signed t s = Ok r.
Proof. apply to_number_signed_total. Qed.
(** In the branch for compilers without overflow builtins every accepted number is converted
    correctly for all signed types ... *)
Theorem C23_portable_branch t s v : is_ity t -> sgn t = true ->
  to_unsigned_integer t s = Some v -> to_unsigned_integer_portable t s = Ok (Some v).
Proof.
  intros Ht Hs. unfold to_unsigned_integer_portable, to_unsigned_integer, to_unsigned_integer_m.
  destruct s as [|c s]; [discriminate|]. intros H. apply portable_signed; auto.
  pose proof (ity_bounds t Ht). lia.
Qed.
(** ... and types narrower than int also reject the same strings ... *)
Theorem C23_portable_branch_narrow t s : is_ity t -> sgn t = true -> wid t < 32 ->
  to_unsigned_integer_portable t s = Ok (to_unsigned_integer t s).
Proof.
  intros Ht Hs Hw. unfold to_unsigned_integer_portable, to_unsigned_integer, to_unsigned_integer_m.
  destruct s as [|c s]; auto.
  destruct (portable_same t Ht (or_intror Hw) (c :: s) 0) as [H _].
  - pose proof (ity_bounds t Ht). lia.
  - rewrite H. destruct (tui_loop t 0 1 (c :: s)) as [[x y]|]; reflexivity.
Qed.
(** ... but for int and wider types its overflow check is itself a signed overflow: the numbers
    just above the maximum are undefined behavior there instead of being rejected. *)
Theorem C23_portable_overflow_finding :
  to_unsigned_integer_portable t_i32 (!"2147483648") = UB /\
  to_unsigned_integer t_i32 (!"2147483648") = None /\
  to_unsigned_integer_portable (IT true 64) (!"9223372036854775809") = UB.
Proof. vm_compute. auto. Qed.
Example C23_example :
  to_number_signed (IT true 8) (!"-128") = Ok (Some (-128)) /\ to_number_signed (IT true 8) (!"-129") = Ok None /\
  to_number_signed (IT true 8) (!"128") = Ok None /\ to_number_signed (IT true 32) (!"+1") = Ok None /\
  to_number_signed (IT true 32) (!"-") = Ok None /\ to_number_signed (IT true 64) (!"-0009") = Ok (Some (-9)).
Proof. vm_compute. repeat split. Qed.

(** * C24: to_number inverts decimal printing *)
Theorem C24_unsigned t v : is_ity t -> sgn t = false -> 0 <= v <= 2 ^ wid t - 1 ->
  to_number_unsigned t (decimal_of v) = Some v.
Proof.
  intros Ht Hs Hv. apply C22_unsigned; auto. unfold decimal_of. destruct (Z.ltb_spec v 0); [lia|].
  destruct (decimal_of_nonneg_ok v) as (H1 & H2 & H3); [lia|]. do 2 (split; auto). split; [auto|lia].
Qed.
Theorem C24_signed t v : is_ity t -> sgn t = true -> - 2 ^ (wid t - 1) <= v <= 2 ^ (wid t - 1) - 1 ->
  to_number_signed t (decimal_of v) = Ok (Some v).
Proof.
  intros Ht Hs Hv. apply C23_signed; auto. split; auto. unfold decimal_of. destruct (Z.ltb_spec v 0).
  - right. destruct (decimal_of_nonneg_ok (- v)) as (H1 & H2 & H3); [lia|].
    exists (decimal_of_nonneg (- v)). do 3 (split; auto). lia.
  - left. destruct (decimal_of_nonneg_ok v) as (H1 & H2 & H3); [lia|]. do 2 (split; auto).
Qed.
Example C24_example : decimal_of (-128) = !"-128" /\ decimal_of 0 = !"0" /\ decimal_of 65536 = !"65536" /\
  decimal_of (2 ^ 64 - 1) = !"18446744073709551615".
Proof. vm_compute. auto. Qed.

(** * C25: bool *)
Theorem C25_bool s r : to_number_bool s = Ok r ->
  (r = Some true <-> s = !"1" \/ same_nocase s (!"true")) /\
  (r = Some false <-> s = !"0" \/ same_nocase s (!"false")).
Proof.
  assert (L4 : forall t, same_nocase s t -> length s = length t).
  { intros t E. apply (f_equal (@length _)) in E. now rewrite !lower_length in E. }
  assert (G : forall s, (b <- equals_nocase s (!"true") ;; if b then Ok (Some true)
      else b <- equals_nocase s (!"false") ;; if b then Ok (Some false) else Ok None)%outcome = Ok r ->
      (r = Some true <-> same_nocase s (!"true")) /\ (r = Some false <-> same_nocase s (!"false"))).
  { clear. intros s H.
    destruct (equals_nocase_spec s (!"true")) as (b1 & E1 & H1). destruct (equals_nocase_spec s (!"false")) as (b2 & E2 & H2).
    rewrite E1 in H. cbn [bind] in H. rewrite E2 in H. unfold same_nocase. rewrite <- H1, <- H2.
    destruct b1; [|destruct b2]; cbn [bind] in H; inversion H; subst; clear H; intuition try congruence.
    all: exfalso; assert (X : lower (!"true") = lower (!"false")) by congruence; vm_compute in X. discriminate. }
  unfold to_number_bool. destruct s as [|c [|c2 s]].
  - intros H. apply G in H. destruct H as [-> ->]. split; split; intros X; auto; destruct X as [X|X]; auto; discriminate.
  - intros H.
    assert (N : forall t, (2 <= length t)%nat -> ~ same_nocase [c] t).
    { intros t Ht E. apply L4 in E. simpl in E. lia. }
    assert (N1 := N (!"true") ltac:(simpl; lia)). assert (N2 := N (!"false") ltac:(simpl; lia)).
    destruct (Ascii.eqb_spec c "1") as [->|H1]; [|destruct (Ascii.eqb_spec c "0") as [->|H0]];
      inversion H; subst; (split; split; intros X; try discriminate X; auto; destruct X as [X|X]; try contradiction;
        inversion X; subst; congruence).
  - intros H. apply G in H. destruct H as [-> ->]. split; split; intros X; auto; destruct X as [X|X]; auto; discriminate.
Qed.
Theorem C25_total s : exists r, to_number_bool s = Ok r.
Proof.
  assert (G : exists r, (b <- equals_nocase s (!"true") ;; if b then Ok (Some true)
      else b <- equals_nocase s (!"false") ;; if b then Ok (Some false) else Ok None)%outcome = Ok r).
  { destruct (equals_nocase_spec s (!"true")) as (b1 & -> & H1). destruct (equals_nocase_spec s (!"false")) as (b2 & -> & H2).
    cbn [bind]. destruct b1, b2; eauto. }
  unfold to_number_bool. destruct s as [|c [|c2 s]]; auto.
  destruct (Ascii.eqb c "1"); eauto. destruct (Ascii.eqb c "0"); eauto.
Qed.
Example C25_example : to_number_bool (!"TrUe") = Ok (Some true) /\ to_number_bool (!"0") = Ok (Some false) /\
  to_number_bool (!"01") = Ok None /\ to_number_bool [] = Ok None.
Proof. vm_compute. auto. Qed.

(** * C26: the accepted format of floating-point numbers *)
(** Every number in the documented format (of less than half a billion characters) has a value,
    with or without a minus sign.  The statements hold for float, double and long double. *)
Theorem C26_accepts_numbers p e (H : Prec_gt_0 p) (H' : Prec_lt_emax p e) pc ec (Hc : Prec_gt_0 pc) (Hc' : Prec_lt_emax pc ec)
    d1 d2 ex s : decimal_number d1 d2 ex s -> zlen s <= 2 ^ 29 -> Z.abs ex <= 2 ^ 29 ->
  exists v, to_number_float p e pc ec s = Ok (Some v) /\
            to_number_float p e pc ec ("-"%char :: s) = Ok (Some (Bopp v)).
Proof.
  intros Hs Hl Hex. pose proof (to_unsigned_float_ok p e pc ec d1 d2 ex s Hs Hl Hex) as E.
  assert (EX : exists v, to_unsigned_float p e pc ec s = Ok (Some v)).
  { rewrite E. destruct (drop_zeros (d1 ++ d2)) as [|c l] eqn:D; [eauto|].
    unfold float_result.
    destruct (drop_zeros_suffix (d1 ++ d2)) as (z & Ez & _). rewrite D in Ez.
    assert (L : zlen (c :: l) <= zlen (d1 ++ d2)) by (rewrite Ez, zlen_app; unfold zlen; lia).
    destruct Hs as (pt & x & Es & Hp & _). rewrite zlen_app in L.
    assert (zlen d1 + zlen d2 <= zlen s).
    { subst s. rewrite !zlen_app. destruct Hp as [[-> ->]| ->]; unfold zlen; simpl length; lia. }
    destruct (pow10_total (ex + zlen (c :: l) - 1 - zlen d2)) as [r Hr].
    - unfold zlen in *. simpl length in *. ranges. lia.
    - unfold zlen in *. simpl length in *. ranges. lia.
    - rewrite Hr. cbn [bind]. eauto. }
  destruct EX as [v Ev]. exists v. split.
  - destruct s as [|c s].
    + unfold to_unsigned_float in Ev. discriminate Ev.
    + unfold to_number_float. destruct (Ascii.eqb_spec c "-") as [->|]; auto.
      exfalso. destruct Hs as (pt & x & Es & Hp & _ & Hd1 & _ & Hne). destruct d1 as [|c1 d1].
      * destruct Hp as [[-> ->]| ->]; [now elim Hne|discriminate Es].
      * simpl in Es. inversion Es; subst. specialize (Hd1 _ (or_introl eq_refl)). unfold dec_digit in Hd1. cbn in Hd1. lia.
  - unfold to_number_float. change (Ascii.eqb "-" "-") with true. cbn iota. rewrite Ev. reflexivity.
Qed.
(** Infinities and NaNs *)
Theorem C26_accepts_inf_nan p e (H : Prec_gt_0 p) (H' : Prec_lt_emax p e) pc ec (Hc : Prec_gt_0 pc) (Hc' : Prec_lt_emax pc ec) s :
  (inf_form s -> to_number_float p e pc ec s = Ok (Some (B754_infinity false)) /\
                 to_number_float p e pc ec ("-"%char :: s) = Ok (Some (B754_infinity true))) /\
  (nan_form s -> to_number_float p e pc ec s = Ok (Some B754_nan) /\
                 to_number_float p e pc ec ("-"%char :: s) = Ok (Some B754_nan)).
Proof.
  assert (G : forall v, parse_inf_nan (p := p) (e := e) s = Some (Some v) ->
    (forall t, s <> "-"%char :: t) ->
    to_number_float p e pc ec s = Ok (Some v) /\ to_number_float p e pc ec ("-"%char :: s) = Ok (Some (Bopp v))).
  { intros v Hv Hm. assert (E : to_unsigned_float p e pc ec s = Ok (Some v)) by (unfold to_unsigned_float; now rewrite Hv).
    split.
    - unfold to_number_float. destruct s as [|c t]; [discriminate Hv|].
      destruct (Ascii.eqb_spec c "-") as [->|]; auto. now elim (Hm t).
    - unfold to_number_float. change (Ascii.eqb "-" "-") with true. cbn iota. rewrite E. reflexivity. }
  split; intros F.
  - apply G.
    + apply parse_inf_nan_spec. auto.
    + intros t ->. destruct F as [F|F]; unfold same_nocase, lower in F; simpl in F; discriminate F.
  - apply G.
    + apply parse_inf_nan_spec. auto.
    + intros t ->. destruct F as [F|(n & cs & E & F & _)]; unfold same_nocase, lower in F; simpl in F; [discriminate F|].
      destruct n as [|c n]; [discriminate F|]. simpl in E. inversion E; subst c. simpl in F. discriminate F.
Qed.
(** Whatever is accepted is an infinity, a NaN, or a number of which at least the first 19
    significant characters are as documented.  The full property, with [decimal_number] instead
    of [lenient_number], is false: see C26_garbage_refuted. *)
Theorem C26_rejects_partial p e (H : Prec_gt_0 p) (H' : Prec_lt_emax p e) pc ec (Hc : Prec_gt_0 pc) (Hc' : Prec_lt_emax pc ec)
    s v : zlen s <= 2 ^ 29 -> to_number_float p e pc ec s = Ok (Some v) ->
  exists t, (s = t \/ s = "-"%char :: t) /\
    (inf_form t \/ nan_form t \/ exists b a ex, lenient_number b a ex t).
Proof.
  intros Hl Hs. unfold to_number_float in Hs. destruct s as [|c s]; [discriminate Hs|].
  destruct (Ascii.eqb_spec c "-") as [->|Hc0].
  - exists s. split; auto. destruct (to_unsigned_float p e pc ec s) as [[w|]| | |] eqn:E; try discriminate Hs.
    apply to_unsigned_float_some in E; [tauto|]. unfold zlen in *. simpl length in Hl. lia.
  - exists (c :: s). split; auto. apply to_unsigned_float_some in Hs; tauto.
Qed.
(** For strings with at most 19 significant characters the documented format is enforced. *)
Theorem C26_rejects_short p e (H : Prec_gt_0 p) (H' : Prec_lt_emax p e) pc ec (Hc : Prec_gt_0 pc) (Hc' : Prec_lt_emax pc ec)
    s v : zlen s <= 19 -> to_number_float p e pc ec s = Ok (Some v) ->
  exists t, (s = t \/ s = "-"%char :: t) /\
    (inf_form t \/ nan_form t \/ exists d1 d2 ex, decimal_number d1 d2 ex t).
Proof.
  intros Hl Hs. destruct (C26_rejects_partial p e H H' pc ec Hc Hc' s v) as (t & Ht & F); auto.
  { change (2 ^ 29) with 536870912. lia. }
  exists t. split; auto. destruct F as [F|[F|(b & a & ex & F)]]; auto. right. right. exists b, a, ex.
  apply lenient_short; auto. destruct (drop_zeros_suffix (b ++ a)) as (z & Ez & _).
  assert (L : zlen (drop_zeros (b ++ a)) <= zlen (b ++ a)) by (rewrite Ez at 2; rewrite zlen_app; unfold zlen; lia).
  destruct F as (pt & x & Es & Hp & _). rewrite zlen_app in L.
  assert (zlen b + zlen a <= zlen t).
  { subst t. rewrite !zlen_app. destruct Hp as [[-> ->]| ->]; unfold zlen; simpl length; lia. }
  assert (zlen t <= zlen s) by (destruct Ht as [->| ->]; unfold zlen; simpl length; lia). lia.
Qed.
(** Finding: characters behind the 19th significant one are not looked at. *)
Lemma decimal_chars d1 d2 ex s : decimal_number d1 d2 ex s -> forall c, In c s ->
  dec_digit c \/ In c (!".eE+-").
Proof.
  intros (pt & x & -> & Hp & Hx & Hd1 & Hd2 & _) c Hin.
  apply in_app_or in Hin. destruct Hin as [Hin|Hin]; [left; auto|].
  apply in_app_or in Hin. destruct Hin as [Hin|Hin].
  - destruct Hp as [[-> ->]| ->]; [destruct Hin|]. destruct Hin as [<-|Hin]; [right; simpl; auto|left; auto].
  - destruct Hx as [[-> _]|(e & sign & ds & -> & He & _ & Hds & Hsg)]; [destruct Hin|].
    destruct Hin as [<-|Hin]; [right; simpl; destruct He; subst; tauto|].
    apply in_app_or in Hin. destruct Hin as [Hin|Hin]; [|left; auto].
    right. simpl. destruct Hsg as [[-> _]|[[-> _]|[-> _]]]; simpl in Hin; intuition.
Qed.
Theorem C26_garbage_refuted :
  exists s v, to_number_f64 s = Ok (Some v) /\
    ~ exists t, (s = t \/ s = "-"%char :: t) /\
        (inf_form t \/ nan_form t \/ exists d1 d2 ex, decimal_number d1 d2 ex t).
Proof.
  assert (G : match to_number_f64 (!"1234567890123456789abc") with Ok (Some _) => true | _ => false end = true)
    by (vm_compute; reflexivity).
  destruct (to_number_f64 (!"1234567890123456789abc")) as [[v|]| | |] eqn:E; try discriminate G.
  exists (!"1234567890123456789abc"), v. split; auto.
  intros (t & [Ht|Ht] & F); [subst t | discriminate Ht].
  destruct F as [[F|F]|[[F|(n & cs & F1 & F2 & _)]|(d1 & d2 & ex & F)]].
  - apply (f_equal (@length _)) in F. rewrite !lower_length in F. discriminate F.
  - apply (f_equal (@length _)) in F. rewrite !lower_length in F. discriminate F.
  - apply (f_equal (@length _)) in F. rewrite !lower_length in F. discriminate F.
  - assert (In "("%char (!"1234567890123456789abc")) by (rewrite F1; apply in_or_app; right; now left).
    simpl in H. intuition discriminate.
  - destruct (decimal_chars _ _ _ _ F "a"%char) as [D|D].
    + simpl. tauto.
    + unfold dec_digit in D. cbn in D. lia.
    + simpl in D. intuition discriminate.
Qed.
(** Finding: numbers beyond the range of the type give an infinity instead of no value. *)
Theorem C26_out_of_range_refuted :
  decimal_number (!"1") [] 400 (!"1e400") /\ to_number_f64 (!"1e400") = Ok (Some (B754_infinity false)).
Proof.
  split; [|vm_compute; reflexivity]. exists [], (!"e400"). split; auto. split; [left; auto|]. split.
  - right. exists "e"%char, [], (!"400"). split; auto. split; auto. split; [discriminate|]. split; [|left; auto].
    intros c Hc. unfold dec_digit. simpl in Hc. destruct Hc as [<-|[<-|[<-|[]]]]; cbn; lia.
  - split; [|split]; [|intros c []|discriminate]. intros c [<-|[]]. unfold dec_digit. cbn. lia.
Qed.
(** Finding: the exponent correction can overflow the type int. *)
Theorem C26_exponent_overflow_finding : to_number_f64 (!".01e-2147483647") = UB.
Proof. vm_compute. reflexivity. Qed.
(** Finding: a zero with an exponent that does not fit into an int has no value. *)
Theorem C26_zero_finding : to_number_f64 (!"0e99999999999") = Ok None /\ to_number_f64 (!"0e999999999") <> Ok None.
Proof. split; vm_compute; [reflexivity|discriminate]. Qed.
Example C26_example :
  decimal_number (!"12") (!"5") (-3) (!"12.5e-3") /\
  inf_form (!"InFinity") /\ nan_form (!"NaN(a_9)") /\
  to_number_f64 (!"1.e") = Ok None /\ to_number_f64 (!".") = Ok None /\ to_number_f64 (!"+1") = Ok None /\
  to_number_f64 (!"infinit") = Ok None /\ to_number_f64 (!"nan(") = Ok None.
Proof.
  split; [|split; [|split; [|repeat split; vm_compute; reflexivity]]].
  - exists (!".5"), (!"e-3"). split; auto. split; [right; auto|]. split.
    + right. exists "e"%char, (!"-"), (!"3"). split; auto. split; auto. split; [discriminate|]. split; [|auto].
      intros c [<-|[]]. unfold dec_digit. cbn. lia.
    + split; [|split]; [| |discriminate]; intros c Hc; simpl in Hc; unfold dec_digit.
      * destruct Hc as [<-|[<-|[]]]; cbn; lia.
      * destruct Hc as [<-|[]]; cbn; lia.
  - right. reflexivity.
  - right. exists (!"NaN"), (!"a_9"). split; auto. split; [reflexivity|].
    intros c Hc. simpl in Hc. unfold nan_char. destruct Hc as [<-|[<-|[<-|[]]]]; cbn; auto; lia.
Qed.

(** * C27: accuracy.  [number_value d1 d2 ex] is the mathematical value of the number. *)
Local Open Scope R_scope.
Notation val := number_value.

Lemma c_u53 : uro 53 = / IZR (2 ^ 53).
Proof. unfold uro. rewrite bpow_opp. now rewrite <- (IZR_Zpower radix2). Qed.
Lemma c_u24 : uro 24 = / IZR (2 ^ 24).
Proof. unfold uro. rewrite bpow_opp. now rewrite <- (IZR_Zpower radix2). Qed.
Lemma p30 : 1 <= (1 + uro 64) ^ 30 <= 1 + 60 * / IZR (2 ^ 64).
Proof.
  split; [apply pow_ge_1, uro_pos|]. rewrite u80_val.
  eapply Rle_trans; [apply pow_small|].
  - left. apply Rinv_0_lt_compat, IZR_lt. now vm_compute.
  - change (2 ^ 64)%Z with 18446744073709551616%Z. simpl INR. lra.
  - simpl INR. lra.
Qed.
Ltac consts := rewrite ?c_u53, ?c_u24, ?u80_val in *;
  change (2 ^ 64)%Z with 18446744073709551616%Z in *; change (2 ^ 53)%Z with 9007199254740992%Z in *;
  change (2 ^ 24)%Z with 16777216%Z in *; change (10 ^ 18)%Z with 1000000000000000000%Z in *.
Lemma b_neg k : (0 < k)%Z -> bpow radix2 (- k) = / IZR (2 ^ k).
Proof. intros Hk. rewrite bpow_opp. rewrite <- (IZR_Zpower radix2) by lia. reflexivity. Qed.

Lemma err53 : total_err 53 53 <= bpow radix2 (-51).
Proof.
  unfold total_err. pose proof p30 as [P1 P2]. change (-51)%Z with (- (51))%Z. rewrite (b_neg 51) by lia. 
  change (2 ^ 51)%Z with 2251799813685248%Z. consts.
  set (X := (1 + / 18446744073709551616) ^ 30) in *.
  apply Rle_trans with ((1 + / 9007199254740992) ^ 2 * (1 + 60 * / 18446744073709551616) * (1 + / 1000000000000000000) * (1 + / 9007199254740992) - 1).
  - cbn [pow]. lra.
  - cbn [pow]. lra.
Qed.
Lemma err24 : total_err 24 53 <= bpow radix2 (-24) + bpow radix2 (-51).
Proof.
  unfold total_err. pose proof p30 as [P1 P2]. change (-51)%Z with (- (51))%Z. change (-24)%Z with (- (24))%Z.
  rewrite (b_neg 51), (b_neg 24) by lia.
  change (2 ^ 51)%Z with 2251799813685248%Z. consts.
  set (X := (1 + / 18446744073709551616) ^ 30) in *.
  apply Rle_trans with ((1 + / 9007199254740992) ^ 2 * (1 + 60 * / 18446744073709551616) * (1 + / 1000000000000000000) * (1 + / 16777216) - 1).
  - cbn [pow]. lra.
  - cbn [pow]. lra.
Qed.
Lemma err64 : total_err 64 64 <= bpow radix2 (-57).
Proof.
  unfold total_err. pose proof p30 as [P1 P2]. change (-57)%Z with (- (57))%Z. rewrite (b_neg 57) by lia.
  change (2 ^ 57)%Z with 144115188075855872%Z. consts.
  set (X := (1 + / 18446744073709551616) ^ 30) in *.
  apply Rle_trans with ((1 + / 18446744073709551616) ^ 2 * (1 + 60 * / 18446744073709551616) * (1 + / 1000000000000000000) * (1 + / 18446744073709551616) - 1).
  - cbn [pow]. lra.
  - cbn [pow]. lra.
Qed.
Lemma range_1024 k : (0 <= k <= 1100)%Z -> rpow10 (-4900) <= bpow radix2 (- k) /\ bpow radix2 k <= rpow10 4900.
Proof.
  intros Hk. assert (G : bpow radix2 k <= rpow10 4900).
  { apply Rle_trans with (bpow radix2 1100); [apply bpow_le; lia|].
    rewrite rpow10_nonneg by lia. rewrite <- (IZR_Zpower radix2) by lia. apply IZR_le. apply Z.leb_le. vm_compute. reflexivity. }
  split; auto. change (-4900)%Z with (- (4900))%Z. rewrite rpow10_opp, bpow_opp. apply Rinv_le; [apply bpow_gt_0|exact G].
Qed.
Lemma neg_case p e (H : Prec_gt_0 p) (H' : Prec_lt_emax p e) pc ec (Hc : Prec_gt_0 pc) (Hc' : Prec_lt_emax pc ec) d1 d2 ex s r :
  decimal_number d1 d2 ex s ->
  to_unsigned_float p e pc ec s = Ok (Some r) ->
  to_number_float p e pc ec s = Ok (Some r) /\ to_number_float p e pc ec ("-"%char :: s) = Ok (Some (Bopp r)).
Proof.
  intros Hs Ev. split.
  - destruct s as [|c s].
    + unfold to_unsigned_float in Ev. discriminate Ev.
    + unfold to_number_float. destruct (Ascii.eqb_spec c "-") as [->|]; auto.
      exfalso. destruct Hs as (pt & x & Es & Hp & _ & Hd1 & _ & Hne). destruct d1 as [|c1 d1].
      * destruct Hp as [[-> ->]| ->]; [now elim Hne|discriminate Es].
      * simpl in Es. inversion Es; subst. specialize (Hd1 _ (or_introl eq_refl)). unfold dec_digit in Hd1. cbn in Hd1. lia.
  - unfold to_number_float. change (Ascii.eqb "-" "-") with true. cbn iota. rewrite Ev. reflexivity.
Qed.

(** The result for a number within the normal range of the type differs from the mathematical
    value by at most a relative error of 2^-51 (double, i.e. 2 units in the last place),
    2^-24 + 2^-51 (float; correct rounding has an error of up to 2^-24) and 2^-57 (long double). *)
Theorem C27_double d1 d2 ex s : decimal_number d1 d2 ex s -> (zlen s <= 2 ^ 29)%Z -> (Z.abs ex <= 2 ^ 29)%Z ->
  bpow radix2 (-1021) <= val d1 d2 ex <= bpow radix2 1022 ->
  exists r, to_number_f64 s = Ok (Some r) /\ to_number_f64 ("-"%char :: s) = Ok (Some (Bopp r)) /\
    is_finite r = true /\ Rabs (B2R r - val d1 d2 ex) <= bpow radix2 (-51) * val d1 d2 ex.
Proof.
  intros Hs Hl Hex Hv. destruct (range_1024 1022 ltac:(lia)) as [R1 R2].
  assert (R3 : bpow radix2 (-1022) <= bpow radix2 (-1021)) by (apply bpow_le; lia). change (- (1022))%Z with (-1022)%Z in R1.
  destruct (to_unsigned_float_accurate 53 1024 53 1024 ltac:(lia) ltac:(lia) ltac:(lia) ltac:(lia) ltac:(lia) d1 d2 ex s Hs Hl Hex)
    as (r & E & F & B); [lra|exact Hv|].
  destruct (neg_case _ _ _ _ _ _ _ _ _ _ _ _ _ Hs E) as [E1 E2].
  exists r. do 3 (split; auto). eapply Rle_trans; [exact B|]. apply Rmult_le_compat_r; [|apply err53].
  pose proof (bpow_gt_0 radix2 (-1021)). lra.
Qed.
Theorem C27_float d1 d2 ex s : decimal_number d1 d2 ex s -> (zlen s <= 2 ^ 29)%Z -> (Z.abs ex <= 2 ^ 29)%Z ->
  bpow radix2 (-125) <= val d1 d2 ex <= bpow radix2 126 ->
  exists r, to_number_f32 s = Ok (Some r) /\ to_number_f32 ("-"%char :: s) = Ok (Some (Bopp r)) /\
    is_finite r = true /\ Rabs (B2R r - val d1 d2 ex) <= (bpow radix2 (-24) + bpow radix2 (-51)) * val d1 d2 ex.
Proof.
  intros Hs Hl Hex Hv. destruct (range_1024 126 ltac:(lia)) as [R1 R2].
  assert (R3 : bpow radix2 (-126) <= bpow radix2 (-125)) by (apply bpow_le; lia). change (- (126))%Z with (-126)%Z in R1.
  destruct (to_unsigned_float_accurate 24 128 53 1024 ltac:(lia) ltac:(lia) ltac:(lia) ltac:(lia) ltac:(lia) d1 d2 ex s Hs Hl Hex)
    as (r & E & F & B); [lra|exact Hv|].
  destruct (neg_case _ _ _ _ _ _ _ _ _ _ _ _ _ Hs E) as [E1 E2].
  exists r. do 3 (split; auto). eapply Rle_trans; [exact B|]. apply Rmult_le_compat_r; [|apply err24].
  pose proof (bpow_gt_0 radix2 (-125)). lra.
Qed.
Theorem C27_long_double d1 d2 ex s : decimal_number d1 d2 ex s -> (zlen s <= 2 ^ 29)%Z -> (Z.abs ex <= 2 ^ 29)%Z ->
  rpow10 (-4900) <= val d1 d2 ex <= rpow10 4900 ->
  exists r, to_number_f80 s = Ok (Some r) /\ to_number_f80 ("-"%char :: s) = Ok (Some (Bopp r)) /\
    is_finite r = true /\ Rabs (B2R r - val d1 d2 ex) <= bpow radix2 (-57) * val d1 d2 ex.
Proof.
  intros Hs Hl Hex Hv.
  destruct (rpow10_range 4900 ltac:(lia)) as [_ R2]. destruct (rpow10_range (-4900) ltac:(lia)) as [R1 _].
  destruct (to_unsigned_float_accurate 64 16384 64 16384 ltac:(lia) ltac:(lia) ltac:(lia) ltac:(lia) ltac:(lia) d1 d2 ex s Hs Hl Hex)
    as (r & E & F & B); [exact Hv| |].
  { split.
    - eapply Rle_trans; [|exact (proj1 Hv)]. eapply Rle_trans; [|exact R1]. apply bpow_le. rewrite emin80. lia.
    - eapply Rle_trans; [exact (proj2 Hv)|]. eapply Rle_trans; [exact R2|]. apply bpow_le. lia. }
  destruct (neg_case _ _ _ _ _ _ _ _ _ _ _ _ _ Hs E) as [E1 E2].
  exists r. do 3 (split; auto). eapply Rle_trans; [exact B|]. apply Rmult_le_compat_r; [|apply err64].
  pose proof (rpow10_pos (-4900)). lra.
Qed.
(** A number whose digits are all zero gives zero exactly. *)
Theorem C27_zero d1 d2 ex s : decimal_number d1 d2 ex s -> (zlen s <= 2 ^ 29)%Z -> (Z.abs ex <= 2 ^ 29)%Z ->
  drop_zeros (d1 ++ d2) = [] ->
  to_number_f64 s = Ok (Some (B754_zero false)) /\ to_number_f64 ("-"%char :: s) = Ok (Some (B754_zero true)).
Proof.
  intros Hs Hl Hex Hz. pose proof (to_unsigned_float_ok 53 1024 53 1024 d1 d2 ex s Hs Hl Hex) as E. rewrite Hz in E.
  apply (neg_case _ _ _ _ _ _ _ _ _ _ _ _ _ Hs E).
Qed.
(** Finding: the result is not the nearest value, not even for small integers that the type
    represents exactly. *)
Theorem C27_exact_integers_refuted :
  exists r, to_number_f64 (!"109") = Ok (Some r) /\ B2R r <> 109.
Proof.
  assert (F : match to_number_f64 (!"109") with Ok (Some r) => is_finite r | _ => false end = true) by (vm_compute; reflexivity).
  assert (G : match to_number_f64 (!"109") with Ok (Some r) => Bcompare r (f_of_Z 109) | _ => None end = Some Gt)
    by (vm_compute; reflexivity).
  destruct (to_number_f64 (!"109")) as [[r|]| | |]; try discriminate F.
  exists r. split; auto. intros Hr.
  destruct (of_Z_small 53 1024 109) as [F2 E2]; [now vm_compute|].
  rewrite Bcompare_correct in G by auto. rewrite E2, Hr in G. rewrite Rcompare_Eq in G by reflexivity. discriminate.
Qed.
Example C27_example : decimal_number (!"12") (!"5") (-3) (!"12.5e-3") /\
  bpow radix2 (-1021) <= val (!"12") (!"5") (-3) <= bpow radix2 1022 /\ val (!"12") (!"5") (-3) = 125 / 10000.
Proof.
  split; [apply C26_example|].
  assert (E : val (!"12") (!"5") (-3) = 125 / 10000).
  { unfold number_value, rpow10. change (zlen (!"5")) with 1%Z. change (digits_value (!"12" ++ !"5")) with 125%Z.
    change (-3 - 1 <? 0)%Z with true. cbn iota. change (10 ^ (- (-3 - 1)))%Z with 10000%Z. reflexivity. }
  split; auto. rewrite E. split.
  - apply Rle_trans with (bpow radix2 (-10)); [apply bpow_le; lia|]. change (bpow radix2 (-10)) with (/ 1024). lra.
  - apply Rle_trans with (bpow radix2 0); [change (bpow radix2 0) with 1; lra|apply bpow_le; lia].
Qed.

Print Assumptions C22_unsigned.
Print Assumptions C23_signed.
Print Assumptions C25_bool.
Print Assumptions C26_rejects_partial.
Print Assumptions C27_double.
