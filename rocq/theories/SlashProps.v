(** Dates written with slashes. *)
From Verif Require Import Base IntModel DateModel DateSpec DateProofs DateProofs2 DateProps SlashModel SlashSpec.
Local Open Scope Z_scope.
Local Open Scope outcome_scope.

Lemma int_year_eq n : int_year n = (n + 32768) mod 65536 - 32768.
Proof.
  unfold int_year, year, conv. cbn [sgn wid andb]. change (2 ^ 16) with 65536. change (2 ^ (16 - 1)) with 32768.
  pose proof (Z.mod_pos_bound n 65536 ltac:(lia)). pose proof (Z.div_mod n 65536 ltac:(lia)).
  destruct (Z.leb_spec 32768 (n mod 65536)).
  - rewrite <- (Zdiv.Zmod_unique (n + 32768) 65536 (n / 65536 + 1) (n mod 65536 - 32768)); lia.
  - rewrite <- (Zdiv.Zmod_unique (n + 32768) 65536 (n / 65536) (n mod 65536 + 32768)); lia.
Qed.
Lemma byte_eq n : conv (IT false 8) (uns n) = n mod 256.
Proof.
  unfold uns, conv, uint_t. cbn [sgn wid andb]. change (2 ^ 8) with 256. change (2 ^ 32) with (256 * 16777216).
  rewrite Z.rem_mul_r by lia. rewrite Z.mul_comm. rewrite Z_mod_plus_full. apply Z.mod_mod. lia.
Qed.
Lemma int_month_eq n : int_month n = n mod 256.
Proof. apply byte_eq. Qed.
Lemma int_day_eq n : int_day n = n mod 256.
Proof. apply byte_eq. Qed.

Lemma not_int a : ~ is_int_operand a <-> match a with VInt _ => False | _ => True end.
Proof.
  split.
  - intros H. destruct a; auto. apply H. now eexists.
  - intros H (n & ->). exact H.
Qed.

Local Arguments int_month : simpl never.
Local Arguments int_day : simpl never.
Local Arguments int_year : simpl never.
Local Arguments int_div : simpl never.
Ltac ints := rewrite ?int_month_eq, ?int_day_eq, ?int_year_eq in *.

Lemma dated_inj y m k y' m' k' : dated y m k = dated y' m' k' -> y = y' /\ m = m' /\ k = k'.
Proof. destruct k, k'; cbn; intros [=]; subst; auto. Qed.

Lemma written_left a b c y m k : single a -> single b -> single c ->
  written a b c y m k -> slash_left a b c = Some (Ok (dated y m k)).
Proof.
  intros _ _ _ W. unfold slash_left. destruct W as [a b c y m k Y N M D|a b c y m k M D Y N|a b c y m k D N M Y].
  - apply not_int in N. destruct Y; [|destruct N]. destruct M, D; cbn; ints; reflexivity.
  - rewrite !not_int in N. destruct M, D, Y; cbn in *; ints; try reflexivity; tauto.
  - apply not_int in N. destruct D; try (now destruct N); destruct M, Y; cbn; ints; reflexivity.
Qed.

Ltac wsolve :=
  first [ solve [constructor]
        | apply ay_year | apply ay_int | apply am_month | apply am_int
        | rewrite not_int; exact I ].
Ltac wtry := first
  [ solve [apply w_ymd; wsolve]
  | solve [apply w_mdy; [wsolve|wsolve|wsolve|first [left; rewrite not_int; exact I|right; rewrite not_int; exact I]]]
  | solve [apply w_dmy; wsolve] ].

Lemma left_written a b c v : single a -> single b -> single c ->
  slash_left a b c = Some (Ok v) -> complete v -> exists y m k, v = dated y m k /\ written a b c y m k.
Proof.
  intros A B C E (y & m & k & ->). exists y, m, k. split; [reflexivity|].
  unfold slash_left in E.
  destruct a; try (now destruct A); destruct b; try (now destruct B); cbn in E; try discriminate.
  all: try (destruct (int_div _ _); cbn in E; try discriminate).
  all: destruct c; try (now destruct C); cbn in E; try discriminate.
  all: try (destruct (int_div _ _); cbn in E; try discriminate).
  all: destruct k; cbn in E; injection E; intros; subst; try discriminate.
  all: ints; wtry.
Qed.

(** A date written with two slashes is the one its operands name in one of the orders
    year/month/day, month/day/year and day/month/year; any other combination of operands is
    rejected or gives no complete date. *)
Theorem C90_three a b c v : single a -> single b -> single c ->
  (slash_left a b c = Some (Ok v) /\ complete v) <->
  (exists y m k, v = dated y m k /\ written a b c y m k).
Proof.
  intros A B C. split.
  - intros (E & D). now apply left_written.
  - intros (y & m & k & -> & W). split; [now apply written_left|]. now exists y, m, k.
Qed.

(** One slash: a year and a month, or a month and a day. *)
Theorem C90_two a b v : single a -> single b ->
  (slash a b = Some (Ok v) /\ ~ is_int_operand v) <->
  ((exists y m, v = VYm y m /\ as_year a y /\ ~ is_int_operand a /\ as_month b m) \/
   (exists m k, v = undated m k /\ written_md a b m k)).
Proof.
  intros A B. split.
  - intros (E & N). rewrite not_int in N.
    destruct a; try (now destruct A); destruct b; try (now destruct B); cbn in E; try discriminate.
    all: try (destruct (int_div _ _); cbn in E; try discriminate).
    all: injection E as <-; cbn in N; try tauto; ints.
    all: first
      [ left; eexists _, _; split; [reflexivity|]; split; [constructor|]; split; [rewrite not_int; exact I|constructor]
      | right; eexists _, (PDay _); split; [reflexivity|]
      | right; eexists _, PLast; split; [reflexivity|]
      | right; eexists _, (PNth _ _); split; [reflexivity|]
      | right; eexists _, (PLastOf _); split; [reflexivity|] ].
    all: first
      [ solve [apply w_dm; [constructor|rewrite not_int; exact I|constructor]]
      | apply w_md; [constructor|constructor|first [left; rewrite not_int; exact I|right; rewrite not_int; exact I]] ].
  - intros [(y & m & -> & Y & N & M)|(m & k & -> & W)].
    + split; [|rewrite not_int; exact I]. apply not_int in N. destruct Y; [|destruct N]. destruct M; cbn; ints; reflexivity.
    + split; [|rewrite not_int; now destruct k].
      destruct W as [a b m k M D N|a b m k D N M].
      * rewrite !not_int in N. destruct M, D; cbn in *; ints; try reflexivity; tauto.
      * apply not_int in N. destruct D; try (now destruct N); destruct M; cbn; ints; reflexivity.
Qed.

(** With parentheses: a year (or an int) and a month with a day. *)
Theorem C90_parentheses a b c v : single a -> single b -> single c ->
  (slash_right a b c = Some (Ok v) /\ complete v) <->
  (exists y m k, v = dated y m k /\ as_year a y /\ written_md b c m k).
Proof.
  intros A B C. unfold slash_right. split.
  - intros (E & y & m & k & ->). exists y, m, k. split; [reflexivity|].
    destruct (slash b c) as [[u| | |]|] eqn:S; cbn [then_] in E; try discriminate.
    destruct (C90_two b c u B C) as (T & _).
    assert (D : as_year a y /\ u = undated m k).
    { clear - E A. destruct a; try (now destruct A); destruct u; cbn in E; try discriminate;
        try (destruct (int_div _ _); cbn in E; try discriminate);
        destruct k; cbn in E; injection E; intros; subst; try discriminate; ints; (split; [constructor|reflexivity]). }
    destruct D as (Y & ->). split; [exact Y|].
    destruct T as [(y' & m' & E' & _)|(m' & k' & E' & W)].
    { split; [exact S|]. rewrite not_int. now destruct k. }
    { destruct k; discriminate. }
    destruct k, k'; try discriminate; injection E' as; subst; exact W.
  - intros (y & m & k & -> & Y & W). split; [|now exists y, m, k].
    destruct (C90_two b c (undated m k) B C) as (_ & T).
    destruct T as (E & _); [right; now exists m, k|]. rewrite E. cbn [then_].
    destruct Y, k; cbn; ints; reflexivity.
Qed.

(** The orders agree: the same three typed parts give the same date in any of them. *)
Theorem C90_orders y m k a : as_day a k ->
  slash_left (VYear y) (VMonth m) a = Some (Ok (dated y m k)) /\
  slash_left (VMonth m) a (VYear y) = Some (Ok (dated y m k)) /\
  slash_right (VYear y) (VMonth m) a = Some (Ok (dated y m k)) /\
  (~ is_int_operand a ->
   slash_left a (VMonth m) (VYear y) = Some (Ok (dated y m k)) /\
   slash_right (VYear y) a (VMonth m) = Some (Ok (dated y m k))).
Proof.
  intros D. rewrite not_int. destruct D; cbn; ints; repeat split; auto; tauto.
Qed.

(** The date names the day its parts say. *)
Theorem C90_day y m k d : in_calendar (YMD y m d) -> picked y m k d ->
  exists n, val_days (dated y m k) = Some (Ok n) /\ from_days n = Ok (YMD y m d).
Proof.
  intros C P. pose proof C as (Y & E). apply exists_date_spec in E. cbn [yr mo dy] in Y, E. destruct E as (M & D).
  pose proof (to_days_ok _ C) as T. cbn [yr mo dy] in T.
  pose proof (in_calendar_number _ C) as N. cbn [yr mo dy] in N.
  assert (F : from_days (days_of y m d) = Ok (YMD y m d)).
  { destruct (C57_date_roundtrip _ C) as (n & T' & _ & F). rewrite T in T'. injection T' as <-. exact F. }
  exists (days_of y m d). split; [|exact F]. destruct k; cbn [dated val_days picked] in *.
  - subst. now rewrite T.
  - f_equal. destruct (C65_last_day y m Y M) as (n & l & L & L' & F' & T').
    apply mlen_spec in L, P. destruct L as (_ & ->). destruct P as (_ & ->).
    rewrite L'. f_equal. rewrite T in T'. congruence.
  - destruct P as (I & n & T' & W). rewrite T in T'. injection T' as <-. f_equal.
    eapply C65_to_days; eauto. now rewrite weekday_from_days_eq by now apply calendar_int.
  - destruct P as ((l & L & B) & n & T' & W). rewrite T in T'. injection T' as <-. f_equal.
    assert (W' : 0 <= w <= 6) by (subst; unfold weekday_of; pose proof (Z.mod_pos_bound (days_of y m d + 4) 7); lia).
    rewrite wlast_eq by assumption. f_equal. apply mlen_spec in L. destruct L as (_ & ->).
    assert (Q : (weekday_of (days_of y m (mlen y m)) - w) mod 7 = mlen y m - d).
    { rewrite <- W. unfold weekday_of. rewrite (days_of_d y m d (mlen y m)). rewrite <- Zdiv.Zminus_mod.
      replace (days_of y m d + (mlen y m - d) + 4 - (days_of y m d + 4)) with (mlen y m - d) by lia.
      apply Z.mod_small. lia. }
    rewrite Q. rewrite (days_of_d y m d (mlen y m)). lia.
Qed.

(** weekday[index] and weekday[last] keep both parts. *)
Theorem C90_brackets w i : 0 <= w <= 6 -> 0 <= i <= 15 ->
  bracket w i = VWi w i /\ bracket_last w = VWl w.
Proof.
  intros W X. unfold bracket, bracket_last, nibble. now rewrite !Z.mod_small by lia.
Qed.

(** Ints in the ranges of the fields are taken as they are. *)
Theorem C90_ints n :
  (-32768 <= n <= 32767 -> as_year (VInt n) n) /\
  (0 <= n <= 255 -> as_month (VInt n) n /\ as_day (VInt n) (PDay n)).
Proof.
  split.
  - intros H. rewrite <- (year_id n H) at 2. change (year n) with (int_year n). rewrite int_year_eq. constructor.
  - intros H. rewrite <- (Z.mod_small n 256) at 2 4 by lia. split; constructor.
Qed.

(** Two ints in front are divided before a date is made of them: 28/2/day(3) is the third of
    month 14, and 2/0/day(3) is undefined. *)
Theorem C90_division_finding :
  slash_left (VInt 28) (VInt 2) (VDay 3) = Some (Ok (VMd 14 3)) /\
  slash_left (VInt 2) (VInt 0) (VDay 3) = Some UB /\
  slash_left (VInt 2015) (VInt 3) (VInt 4) = Some (Ok (VInt 167)).
Proof. repeat split. Qed.

(** 2024/2/29, 2/29/2024 and 29/2/2024; the third Monday and the last Friday of March 2015 *)
Example C90_example :
  slash_left (VYear 2024) (VInt 2) (VInt 29) = Some (Ok (VYmd 2024 2 29)) /\
  slash_left (VMonth 2) (VInt 29) (VInt 2024) = Some (Ok (VYmd 2024 2 29)) /\
  slash_left (VDay 29) (VInt 2) (VInt 2024) = Some (Ok (VYmd 2024 2 29)) /\
  slash_right (VInt 2015) (VMonth 3) (bracket 1 3) = Some (Ok (VYmw 2015 3 1 3)) /\
  picked 2015 3 (PNth 1 3) 16 /\ val_days (VYmw 2015 3 1 3) = Some (Ok 16510) /\
  slash_left (VInt 3) (bracket_last 5) (VYear 2015) = Some (Ok (VYmwl 2015 3 5)) /\
  picked 2015 3 (PLastOf 5) 27 /\ val_days (VYmwl 2015 3 5) = Some (Ok 16521) /\
  slash_left (VYear 2015) (VDay 3) (VMonth 4) = None.
Proof.
  repeat match goal with |- _ /\ _ => split end; try reflexivity.
  - split; [unfold index_of_day; lia|]. eexists. split; reflexivity.
  - split; [exists 31; split; [apply ml_31; cbn; tauto|lia]|]. eexists. split; reflexivity.
Qed.

Print Assumptions C90_three.
Print Assumptions C90_parentheses.
Print Assumptions C90_day.
