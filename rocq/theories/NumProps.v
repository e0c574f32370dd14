(** Properties C28 - C32 (integers): clamp, abs, within_abs, gcd, lcm and bit manipulation.
    An integral type is [IT signed width] with width 8, 16, 32 or 64 ([is_ity]). *)
From Verif Require Import Base IntModel IntProofs NumModel NumSpec NumProofs.
From Coq Require Import Lia.
Local Open Scope Z_scope.

Definition t_int := IT true 32.
Definition t_uint := IT false 32.
Definition t_short := IT true 16.
Definition t_long := IT true 64.
Definition t_ulong := IT false 64.
Definition t_uchar := IT false 8.

(** ** C28: clamp and abs *)
(** Both overloads, for every strict weak order: the result is neither less than [lo] nor
    greater than [hi]; it is [lo] (resp. [hi]) if [v] is below (resp. above); and if [v] is
    inside the interval the result is equivalent to [v]. *)
Theorem C28_clamp : forall T (lt : T -> T -> bool) v lo hi,
  strict_weak_order lt -> lt hi lo = false ->
  let r := clamp lt v lo hi in
  lt r lo = false /\ lt hi r = false /\
  (lt v lo = true -> r = lo) /\ (lt hi v = true -> r = hi \/ (r = lo /\ lt lo hi = false)) /\
  (lt v lo = false -> lt hi v = false -> lt r v = false /\ lt v r = false /\ (r = v \/ r = lo)).
Proof.
  intros T lt v lo hi (Hi & Ht & Hw) Hlh r. unfold r, clamp, std_max, std_min.
  destruct (lt hi v) eqn:Ehv.
  - destruct (lt lo hi) eqn:Elh; repeat split; auto; try discriminate.
    intros Hvl. pose proof (Ht _ _ _ Ehv Hvl). congruence.
  - destruct (lt lo v) eqn:Elv; repeat split; auto; try discriminate.
    + destruct (lt v lo) eqn:E; auto. pose proof (Ht _ _ _ Elv E).
      pose proof (Hi lo). congruence.
    + intros Hvl. pose proof (Ht _ _ _ Elv Hvl). pose proof (Hi lo). congruence.
Qed.
(** On a total order such as the integers: the value itself, or the nearest bound. *)
Theorem C28_clamp_integers : forall v lo hi, lo <= hi ->
  clamp Z.ltb v lo hi = Z.max lo (Z.min v hi) /\
  clamp_comp Z.ltb v lo hi = Z.max lo (Z.min v hi).
Proof.
  intros. unfold clamp, clamp_comp, std_max, std_min.
  repeat match goal with |- context [Z.ltb ?x ?y] => destruct (Z.ltb_spec x y) end; lia.
Qed.
(** The overload with a comparison function returns exactly one of its three arguments,
    selected as documented. *)
Theorem C28_clamp_comp : forall T (lt : T -> T -> bool) v lo hi,
  strict_weak_order lt -> lt hi lo = false ->
  let r := clamp_comp lt v lo hi in
  lt r lo = false /\ lt hi r = false /\
  (lt v lo = true -> r = lo) /\ (lt hi v = true -> r = hi) /\
  (lt v lo = false -> lt hi v = false -> r = v).
Proof.
  intros T lt v lo hi (Hi & Ht & Hw) Hlh r. unfold r, clamp_comp.
  destruct (lt v lo) eqn:Evl.
  - repeat split; auto; try discriminate. intros E. pose proof (Ht _ _ _ E Evl). congruence.
  - destruct (lt hi v) eqn:Ehv; repeat split; auto; discriminate.
Qed.
(** Finding: the overload without comparison function returns the reference [lo], not [v],
    when [v] is equivalent to [lo] (the documentation promises a reference to [v]).  Here the
    elements are pairs (key, identity) ordered by key. *)
Theorem C28_clamp_returns_lo_when_equivalent :
  (forall T (lt : T -> T -> bool) v lo hi, strict_weak_order lt ->
     lt lo v = false -> lt v lo = false -> lt hi v = false -> clamp lt v lo hi = lo) /\
  exists (lt : Z * Z -> Z * Z -> bool) v lo hi,
    strict_weak_order lt /\ lt hi lo = false /\ lt v lo = false /\ lt hi v = false /\
    clamp lt v lo hi <> v.
Proof.
  split.
  - intros T lt v lo hi _ H1 H2 H3. unfold clamp, std_max, std_min. now rewrite H3, H1.
  - exists (fun x y => fst x <? fst y), (5, 1), (5, 2), (9, 3).
    repeat split; cbn; try discriminate; intros; try lia; apply Z.ltb_ge; lia.
Qed.
Theorem C28_abs : forall t n, is_ity t -> in_range t n -> (sgn t = true -> n <> imin t) ->
  abs t n = Ok (Z.abs n).
Proof.
  intros t n Ht Hn Hm. apply abs_ok; auto. unfold in_range, imin, imax in *.
  destruct (sgn t); [specialize (Hm eq_refl)|]; lia.
Qed.
(** The excluded value: undefined behaviour from int upwards, and for narrower types the
    conversion back gives the same negative number. *)
Theorem C28_abs_most_negative : forall t, is_ity t -> sgn t = true ->
  abs t (imin t) = if wid t <? 32 then Ok (imin t) else UB.
Proof. intros t Ht Hs. ity_cases t; try discriminate; reflexivity. Qed.
Example C28_example :
  clamp Z.ltb 42 1 10 = 10 /\ clamp Z.ltb 5 5 10 = 5 /\ abs t_int (-2147483647) = Ok 2147483647 /\
  abs t_int (-2147483648) = UB /\ abs t_ulong 18446744073709551615 = Ok 18446744073709551615 /\
  strict_weak_order Z.ltb /\ is_ity t_int /\ in_range t_int (-2147483647).
Proof.
  assert (strict_weak_order Z.ltb) by (repeat split; intros; try apply Z.ltb_ge; lia).
  repeat split; try apply H; try reflexivity; unfold is_ity, in_range; cbn; try lia.
Qed.

(** ** C29: within_abs on integers *)
Definition is_narrow_or_unsigned (t : ity) : Prop := sgn t = false \/ wid t < 32.
(** For unsigned types and types narrower than int (whose differences are computed in int)
    within_abs decides |a - b| <= |tol| with no exception but tol = most negative value. *)
Theorem C29_within_abs_unsigned_or_narrow : forall t a b tol, is_ity t -> is_narrow_or_unsigned t ->
  in_range t a -> in_range t b -> in_range t tol -> Z.abs tol <= imax t ->
  within_abs t a b tol = Ok (Z.abs (a - b) <=? Z.abs tol).
Proof.
  intros t a b tol Ht Hn Ha Hb Htol Hm. apply within_abs_ok; auto.
  unfold is_narrow_or_unsigned, in_range in *. ity_cases t; cbn in *; try lia; destruct Hn; try discriminate; lia.
Qed.
(** For int and long the same holds whenever the difference is representable. *)
Theorem C29_within_abs_signed_partial : forall t a b tol, is_ity t ->
  in_range t a -> in_range t b -> in_range t tol -> Z.abs tol <= imax t ->
  Z.abs (a - b) <= imax (promote t) ->
  within_abs t a b tol = Ok (Z.abs (a - b) <=? Z.abs tol).
Proof. exact within_abs_ok. Qed.
Theorem C29_within_abs_symmetric : forall t a b tol, is_ity t ->
  within_abs t a b tol = within_abs t b a tol.
Proof.
  intros t a b tol Ht. unfold within_abs. destruct (abs t tol) as [x| | |]; cbn [bind]; auto.
  destruct (Z.ltb_spec b a), (Z.ltb_spec a b); auto; try lia.
  replace b with a by lia. reflexivity.
Qed.
(** Findings: the difference of two ints can overflow (UB), and a tolerance of -32768 in a
    short is treated as negative. *)
Theorem C29_within_abs_refuted :
  (exists a b tol, in_range t_int a /\ in_range t_int b /\ in_range t_int tol /\
     within_abs t_int a b tol = UB) /\
  (exists a b tol, in_range t_short a /\ in_range t_short b /\ in_range t_short tol /\
     Z.abs (a - b) <= Z.abs tol /\ within_abs t_short a b tol = Ok false).
Proof.
  split.
  - exists 2147483647, (-1), 5. repeat split; try (cbn; lia); reflexivity.
  - exists 7, 7, (-32768). repeat split; try (cbn; lia); reflexivity.
Qed.
Example C29_example :
  within_abs t_uint 3 5 2 = Ok true /\ within_abs t_uint 0 4294967295 1 = Ok false /\
  within_abs t_short (-32768) 32767 32767 = Ok false /\ is_narrow_or_unsigned t_short /\
  within_abs t_long (-5) 5 (-10) = Ok true.
Proof. repeat split; try reflexivity. right; cbn; lia. Qed.

(** ** C30: gcd *)
Theorem C30_gcd : forall ta tb a b, is_ity ta -> is_ity tb -> sgn ta = sgn tb ->
  in_range ta a -> in_range tb b ->
  Z.abs a <= imax (common_type ta tb) -> Z.abs b <= imax (common_type ta tb) ->
  exists g, gcd ta tb a b = Ok g /\ is_gcd g a b.
Proof.
  intros. exists (Z.gcd a b). split; [now apply gcd_ok|]. split; [apply Z.gcd_nonneg|]. split.
  - split; [apply Z.gcd_divide_l | apply Z.gcd_divide_r].
  - intros d [H6 H7]. now apply Z.gcd_greatest.
Qed.
(** is_gcd determines the result. *)
Theorem C30_gcd_unique : forall g g' a b, is_gcd g a b -> is_gcd g' a b -> g = g'.
Proof.
  intros g g' a b (H0 & H1 & H2) (H0' & H1' & H2').
  apply Z.divide_antisym_nonneg; auto.
Qed.
Theorem C30_gcd_zero : forall t n, is_ity t -> in_range t n -> Z.abs n <= imax t ->
  gcd t t n 0 = Ok (Z.abs n) /\ gcd t t 0 n = Ok (Z.abs n).
Proof.
  intros t n Ht Hn Hm. assert (E : common_type t t = t) by (ity_cases t; reflexivity).
  assert (in_range t 0) by (unfold in_range, imin, imax in *; ity_cases t; cbn; lia).
  split; rewrite gcd_ok; rewrite ?E; auto; try (unfold in_range in *; lia).
  all: now rewrite ?Z.gcd_0_l, ?Z.gcd_0_r.
Qed.
(** Unsigned arguments are always in the domain of C30_gcd. *)
Theorem C30_gcd_unsigned_total : forall ta tb a b, is_ity ta -> is_ity tb ->
  sgn ta = false -> sgn tb = false -> in_range ta a -> in_range tb b ->
  exists g, gcd ta tb a b = Ok g /\ is_gcd g a b.
Proof.
  intros ta tb a b Hta Htb Sa Sb Ha Hb. apply C30_gcd; auto; try congruence;
  ity_cases ta; try discriminate; ity_cases tb; try discriminate;
  unfold in_range in *; cbn in *; lia.
Qed.
(** Finding: the most negative value has no absolute value (UB). *)
Theorem C30_gcd_most_negative : gcd t_int t_int (imin t_int) 6 = UB.
Proof. reflexivity. Qed.
Example C30_example :
  gcd t_int t_int (-54) 24 = Ok 6 /\ gcd t_int t_long 0 0 = Ok 0 /\ is_gcd 6 (-54) 24 /\
  gcd t_uchar t_ulong 255 51 = Ok 51.
Proof.
  repeat split; try reflexivity; try lia; [exists (-9) | exists 4 |]; try reflexivity.
  - intros d [H1 H2]. change 6 with (Z.gcd (-54) 24). now apply Z.gcd_greatest.
Qed.

(** ** C31: lcm *)
Theorem C31_lcm : forall ta tb a b m, is_ity ta -> is_ity tb -> sgn ta = sgn tb ->
  in_range ta a -> in_range tb b ->
  Z.abs a <= imax (common_type ta tb) -> Z.abs b <= imax (common_type ta tb) ->
  a <> 0 -> b <> 0 -> is_lcm m a b -> m <= imax (common_type ta tb) ->
  lcm ta tb a b = Ok m.
Proof.
  intros ta tb a b m Hta Htb Hs Ha Hb Ha' Hb' Ha0 Hb0 (Hm & [Hd1 Hd2] & Hl) Hmax.
  assert (E : m = Z.lcm a b).
  { assert (0 < Z.lcm a b) by (pose proof (Z.lcm_nonneg a b); enough (Z.lcm a b <> 0) by lia;
      intros E; apply Z.lcm_eq_0 in E; tauto).
    apply Z.le_antisymm.
    - apply Hl; auto. split; [apply Z.divide_lcm_l | apply Z.divide_lcm_r].
    - apply Z.divide_pos_le; [lia|]. now apply Z.lcm_least. }
  subst m. now apply lcm_ok.
Qed.
(** The least common multiple exists, so C31_lcm is not vacuous for any pair of arguments. *)
Theorem C31_lcm_exists : forall a b, a <> 0 -> b <> 0 -> exists m, is_lcm m a b.
Proof.
  intros a b Ha Hb. exists (Z.lcm a b).
  assert (0 < Z.lcm a b) by (pose proof (Z.lcm_nonneg a b); enough (Z.lcm a b <> 0) by lia;
      intros E; apply Z.lcm_eq_0 in E; tauto).
  split; auto. split; [split; [apply Z.divide_lcm_l | apply Z.divide_lcm_r]|].
  intros k Hk [H1 H2]. apply Z.divide_pos_le; auto. now apply Z.lcm_least.
Qed.
Theorem C31_lcm_zero : forall ta tb a b, is_ity ta -> is_ity tb -> sgn ta = sgn tb ->
  in_range ta a -> in_range tb b ->
  Z.abs a <= imax (common_type ta tb) -> Z.abs b <= imax (common_type ta tb) ->
  Z.lcm a b <= imax (common_type ta tb) ->
  (lcm ta tb a b = Ok 0 <-> a = 0 \/ b = 0).
Proof.
  intros. rewrite lcm_ok by auto. rewrite <- Z.lcm_eq_0. split; [intros E; congruence | congruence].
Qed.
Example C31_example :
  lcm t_int t_int (-4) 6 = Ok 12 /\ lcm t_int t_int 0 7 = Ok 0 /\
  lcm t_int t_int 65536 32769 = UB /\ is_lcm 12 (-4) 6.
Proof.
  repeat split; try reflexivity; try lia; [exists (-3) | exists 2 |]; try reflexivity.
  - intros k Hk [H1 H2]. apply Z.divide_pos_le; auto. change 12 with (Z.lcm (-4) 6). now apply Z.lcm_least.
Qed.

(** Finding: the documentation says that the result is positive unless both arguments are zero *)
Theorem C31_zero_finding : forall b, in_range t_int b -> Z.abs b <= imax t_int -> lcm t_int t_int 0 b = Ok 0.
Proof.
  intros b B A. apply C31_lcm_zero; auto; try reflexivity; try (vm_compute; split; discriminate); try (vm_compute; discriminate); try (unfold is_ity; vm_compute; tauto).
Qed.

(** ** C32: bit manipulation *)
(** [Z.testbit] is the two's complement bit of the value. *)
Theorem C32_bit_set : forall t v n, is_ity t -> in_range t v -> 0 <= n < wid t ->
  exists r, bit_set t v n = Ok r /\ in_range t r /\
    forall i, 0 <= i < wid t -> Z.testbit r i = if i =? n then true else Z.testbit v i.
Proof. intros. now apply bit_set_ok. Qed.
Theorem C32_bit_reset : forall t v n, is_ity t -> in_range t v -> 0 <= n < wid t ->
  exists r, bit_reset t v n = Ok r /\ in_range t r /\
    forall i, 0 <= i < wid t -> Z.testbit r i = if i =? n then false else Z.testbit v i.
Proof. intros. now apply bit_reset_ok. Qed.
Theorem C32_bit_flip : forall t v n, is_ity t -> in_range t v -> 0 <= n < wid t ->
  exists r, bit_flip t v n = Ok r /\ in_range t r /\
    forall i, 0 <= i < wid t -> Z.testbit r i = if i =? n then negb (Z.testbit v i) else Z.testbit v i.
Proof. intros. now apply bit_flip_ok. Qed.
Theorem C32_bit_test : forall t v n, is_ity t -> in_range t v -> 0 <= n < wid t ->
  bit_test t v n = Ok (Z.testbit v n).
Proof. exact bit_test_ok. Qed.
Theorem C32_bit_set_value : forall t n, is_ity t -> 0 <= n < wid t ->
  bit_set1 t n = Ok (if sgn t && (n =? wid t - 1) then - 2 ^ n else 2 ^ n).
Proof.
  intros t n Ht Hn. destruct (sgn t && (n =? wid t - 1)) eqn:E.
  - apply andb_true_iff in E. destruct E as [Hs E]. apply Z.eqb_eq in E. subst n.
    rewrite bit_set1_ok by auto. f_equal. ity_cases t; try discriminate; reflexivity.
  - apply bit_set1_value; auto. intros Hs. rewrite Hs in E. apply Z.eqb_neq in E. lia.
Qed.
(** Two representable values with the same bits are equal, so the theorems above determine
    the results. *)
Theorem C32_bits_determine : forall t v w, is_ity t -> in_range t v -> in_range t w ->
  (forall i, 0 <= i < wid t -> Z.testbit v i = Z.testbit w i) -> v = w.
Proof.
  intros t v w Ht Hv Hw H. apply Z.bits_inj'. intros i Hi.
  destruct (Z_lt_ge_dec i (wid t)); [apply H; lia|].
  rewrite (range_testbit_high t v i), (range_testbit_high t w i) by (auto; lia).
  rewrite H; auto. ity_cases t; cbn; lia.
Qed.
(** flip is an involution; a set (reset) bit tests as set (reset). *)
Theorem C32_laws : forall t v n, is_ity t -> in_range t v -> 0 <= n < wid t ->
  bind (bit_flip t v n) (fun w => bit_flip t w n) = Ok v /\
  bind (bit_set t v n) (fun w => bit_test t w n) = Ok true /\
  bind (bit_reset t v n) (fun w => bit_test t w n) = Ok false.
Proof.
  intros t v n Ht Hv Hn.
  destruct (bit_flip_ok t v n Ht Hn) as (r & E & Hr & Hb). rewrite E. cbn [bind].
  destruct (bit_flip_ok t r n Ht Hn) as (r' & E' & Hr' & Hb'). rewrite E'.
  destruct (bit_set_ok t v n Ht Hn) as (s & Es & Hs & Hsb). rewrite Es. cbn [bind].
  destruct (bit_reset_ok t v n Ht Hn) as (u & Eu & Hu & Hub). rewrite Eu. cbn [bind].
  rewrite !bit_test_ok by auto. rewrite Hsb, Hub, Z.eqb_refl by auto. repeat split.
  f_equal. apply (C32_bits_determine t); auto. intros i Hi. rewrite Hb', Hb by auto.
  destruct (i =? n); auto. apply negb_involutive.
Qed.
Example C32_example :
  bit_set1 t_ulong 63 = Ok (2 ^ 63) /\ bit_set t_int 0 31 = Ok (-2147483648) /\
  bit_reset t_short (-1) 15 = Ok 32767 /\ bit_flip t_uchar 170 0 = Ok 171 /\
  bit_test t_short (-32768) 15 = Ok true /\ bit_test t_uchar 255 8 = UB.
Proof. repeat split; reflexivity. Qed.

Print Assumptions C28_clamp.
Print Assumptions C30_gcd.
Print Assumptions C31_lcm.
Print Assumptions C32_laws.
