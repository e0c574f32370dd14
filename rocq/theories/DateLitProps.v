(** C95: the literals of date.h *)
From Coq Require Import ZArith List Lia Bool.
From Verif Require Import Base IntModel IntProofs DateModel DateLitModel DateLitSpec.
Import ListNotations.
Local Open Scope Z_scope.

Lemma mod_mod_divide a b k : 0 < b -> 0 < k -> (a mod (b * k)) mod b = a mod b.
Proof.
  intros Hb Hk. rewrite Z.rem_mul_r by lia. rewrite (Z.mul_comm b ((a / b) mod k)), Z.mod_add by lia. apply Z.mod_mod. lia.
Qed.
Lemma lit_d_mod n : lit_d n = n mod 256.
Proof. unfold lit_d, day, conv, uint_t. cbn [sgn wid andb]. change (2 ^ 8) with 256. change (2 ^ 32) with (256 * 16777216). apply mod_mod_divide; lia. Qed.
Lemma lit_y_mod n : (lit_y n - n) mod 65536 = 0 /\ -32768 <= lit_y n <= 32767.
Proof.
  unfold lit_y, year, conv, int_t. cbn [sgn wid andb].
  change (2 ^ 16) with 65536. change (2 ^ (16 - 1)) with 32768. change (2 ^ 32) with 4294967296. change (2 ^ (32 - 1)) with 2147483648.
  set (a := if 2147483648 <=? n mod 4294967296 then n mod 4294967296 - 4294967296 else n mod 4294967296).
  assert (Ha : exists q, a = n + q * 65536).
  { unfold a. pose proof (Z.div_mod n 4294967296 ltac:(lia)) as H. destruct (2147483648 <=? n mod 4294967296).
    - exists (- (n / 4294967296) * 65536 - 65536). lia.
    - exists (- (n / 4294967296) * 65536). lia. }
  destruct Ha as (q & ->). rewrite Z.mod_add by lia. pose proof (Z.mod_pos_bound n 65536 ltac:(lia)) as B. pose proof (Z.div_mod n 65536 ltac:(lia)) as H.
  destruct (Z.leb_spec 32768 (n mod 65536)) as [L|L].
  - split; [|lia]. replace (n mod 65536 - 65536 - n) with ((- (n / 65536) - 1) * 65536) by lia. apply Z.mod_mul. lia.
  - split; [|lia]. replace (n mod 65536 - n) with (- (n / 65536) * 65536) by lia. apply Z.mod_mul. lia.
Qed.

(** n_d is the day n if it can be stored, and is ok exactly from 1 to 31 *)
Theorem C95_day n : ulonglong n -> n <= 255 -> lit_d n = n /\ (day_ok (lit_d n) = true <-> 1 <= n <= 31).
Proof.
  intros Hn H. unfold ulonglong in Hn. rewrite lit_d_mod, Z.mod_small by lia. split; [reflexivity|].
  unfold day_ok. rewrite andb_true_iff, !Z.leb_le. reflexivity.
Qed.
(** n_y is the year n if it can be stored, and is then ok *)
Theorem C95_year n : ulonglong n -> n <= 32767 -> lit_y n = n /\ year_ok (lit_y n) = true.
Proof.
  intros Hn H. unfold ulonglong in Hn. destruct (lit_y_mod n) as [H1 H2]. apply Z.mod_divide in H1; [|lia]. destruct H1 as (q & H1).
  assert (E : lit_y n = n) by lia. rewrite E. split; [reflexivity|]. unfold year_ok. apply negb_true_iff, Z.eqb_neq. cbn. lia.
Qed.
(** Beyond that only the last 8 (16) bits count *)
Theorem C95_wrap n : ulonglong n ->
  (exists q, lit_d n = n - 256 * q /\ 0 <= lit_d n <= 255) /\
  (exists q, lit_y n = n - 65536 * q /\ -32768 <= lit_y n <= 32767).
Proof.
  intros _. split.
  - exists (n / 256). rewrite lit_d_mod. pose proof (Z.mod_pos_bound n 256 ltac:(lia)). pose proof (Z.div_mod n 256 ltac:(lia)). lia.
  - destruct (lit_y_mod n) as [H1 H2]. apply Z.mod_divide in H1; [|lia]. destruct H1 as (q & H1). exists (- q). lia.
Qed.
(** The names of months are the months 1 to 12; those of weekdays count from Sunday = 0, also in the
    long form that begins with Monday *)
Theorem C95_names k : (k < 12)%nat ->
  nth_error jan_dec k = Some (Z.of_nat k + 1) /\ nth_error January_December k = Some (Z.of_nat k + 1) /\
  month_ok (Z.of_nat k + 1) = true /\
  ((k < 7)%nat -> nth_error sun_sat k = Some (Z.of_nat k) /\ weekday_ok (Z.of_nat k) = true /\
                  nth_error Monday_Sunday ((k + 6) mod 7)%nat = nth_error sun_sat k).
Proof.
  intros H. do 12 (destruct k as [|k]; [repeat split; intros; try lia|]); lia.
Qed.
(** Finding: a literal that is too large can be a valid day or year *)
Theorem C95_too_large_finding : ulonglong 257 /\ ulonglong 67536 /\
  lit_d 257 = 1 /\ day_ok (lit_d 257) = true /\ lit_y 67536 = 2000 /\ year_ok (lit_y 67536) = true /\ lit_y 40000 = -25536.
Proof. unfold ulonglong. repeat split; lia. Qed.
Example C95_example : ulonglong 31 /\ lit_d 31 = 31 /\ lit_d 32 = 32 /\ day_ok (lit_d 32) = false /\ lit_y 2024 = 2024 /\ lit_d 256 = 0 /\ lit_y 32768 = -32768.
Proof. unfold ulonglong. repeat split; lia. Qed.
Print Assumptions C95_wrap.
