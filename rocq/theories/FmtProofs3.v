(** The text of each date directive, and of whole formats. *)
From Verif Require Import Base IntModel DateModel DateSpec DateProofs DateProofs2 FmtModel FmtSpec FmtProofs FmtProofs2.
Local Open Scope Z_scope.

Definition sgn_str (k : nat) (n : Z) : str := if n <? 0 then "-"%char :: pad k (- n) else pad k n.
Lemma sgn_signed k n : (1 <= k)%nat -> signed k n (sgn_str k n).
Proof.
  intros K. unfold signed, sgn_str. destruct (Z.ltb_spec n 0).
  - right. split; [lia|]. eexists. split; [reflexivity|]. apply pad_padded; lia.
  - left. split; [lia|]. apply pad_padded; lia.
Qed.
Lemma year_low_sgn y : year_low y = sgn_str 4 y.
Proof. apply (signed_fun 4 y); [lia|apply put_internal_signed|apply sgn_signed; lia]. Qed.
Lemma dec_u_length n k : 0 <= n -> 10 ^ Z.of_nat k <= n -> (k < length (dec_u n))%nat.
Proof.
  intros Hn H. destruct (dec_u_dig n Hn) as (F & V & _ & _). apply value_bound in F. rewrite V in F. unfold zlen in F.
  destruct (Nat.le_gt_cases (length (dec_u n)) k) as [L|L]; [|exact L].
  assert (10 ^ Z.of_nat (length (dec_u n)) <= 10 ^ Z.of_nat k) by (apply Z.pow_le_mono_r; lia). lia.
Qed.
Lemma put_right_sgn y : 0 <= y \/ y <= -1000 -> put_right "0" 4 y = sgn_str 4 y.
Proof.
  intros [H|H]; unfold sgn_str; destruct (Z.ltb_spec y 0); try lia; [now apply put_right_pad|].
  unfold put_right, dec. destruct (Z.ltb_spec y 0); [|lia]. unfold pad.
  pose proof (dec_u_length (- y) 3 ltac:(lia)) as L. change (10 ^ Z.of_nat 3) with 1000 in L. specialize (L ltac:(lia)).
  cbn [length]. replace (4 - S (length (dec_u (- y))))%nat with O by lia.
  replace (4 - length (dec_u (- y)))%nat with O by lia. reflexivity.
Qed.

Lemma memb_in c s : memb c s = true -> In c s.
Proof. intros H. apply existsb_exists in H. destruct H as (d & I & E). apply Ascii.eqb_eq in E. now subst. Qed.
Ltac memb_cases H := apply memb_in in H; cbn [lit list_ascii_of_string In] in H;
  repeat (destruct H as [<-|H]); [..|contradiction].

Lemma month_names_long i : (i < 12)%nat -> nth i month_names [] = nth i months [].
Proof. intros H. do 12 (destruct i as [|i]; [reflexivity|]). lia. Qed.
Lemma month_names_short i : (i < 12)%nat -> nth (i + 12) month_names [] = short (nth i months []).
Proof. intros H. do 12 (destruct i as [|i]; [reflexivity|]). lia. Qed.
Lemma weekday_names_long i : (i < 7)%nat -> nth i weekday_names [] = nth i day_names [].
Proof. intros H. do 7 (destruct i as [|i]; [reflexivity|]). lia. Qed.
Lemma weekday_names_short i : (i < 7)%nat -> nth (i + 7) weekday_names [] = short (nth i day_names []).
Proof. intros H. do 7 (destruct i as [|i]; [reflexivity|]). lia. Qed.

Section Date.
Context (x : ymd).
Definition wdx : Z := weekday_of (num x).
Definition date_str (c : ascii) : str :=
  match c with
  | "%"%char => !"%" | "n"%char => [chr 10] | "t"%char => [chr 9]
  | "Y"%char => sgn_str 4 (yr x)
  | "y"%char => pad 2 (Z.abs (yr x) mod 100)
  | "C"%char => sgn_str 2 (yr x / 100)
  | "m"%char => pad 2 (mo x)
  | "d"%char => pad 2 (dy x)
  | "e"%char => if dy x <? 10 then " "%char :: pad 1 (dy x) else pad 2 (dy x)
  | "F"%char => sgn_str 4 (yr x) ++ "-"%char :: pad 2 (mo x) ++ "-"%char :: pad 2 (dy x)
  | "D"%char | "x"%char => pad 2 (mo x) ++ "/"%char :: pad 2 (dy x) ++ "/"%char :: pad 2 (yr x mod 100)
  | "B"%char => nth (Z.to_nat (mo x - 1)) months []
  | "b"%char | "h"%char => short (nth (Z.to_nat (mo x - 1)) months [])
  | "A"%char => nth (Z.to_nat wdx) day_names []
  | "a"%char => short (nth (Z.to_nat wdx) day_names [])
  | "w"%char => pad 1 wdx
  | "u"%char => pad 1 (if wdx =? 0 then 7 else wdx)
  | "j"%char => pad 3 (num x - jan1 (yr x) + 1)
  | "U"%char => pad 2 (rank 0 (yr x) (num x))
  | "W"%char => pad 2 (rank 1 (yr x) (num x))
  | "V"%char => pad 2 (isow (num x))
  | "G"%char => sgn_str 4 (isoy (num x))
  | "g"%char => pad 2 (Z.abs (isoy (num x)) mod 100)
  | _ => []
  end.

Context (C : in_calendar x).
Local Lemma Ex : exists_date x. Proof. apply C. Qed.
Local Lemma Yr : -32767 <= yr x <= 32767. Proof. apply C. Qed.
Local Lemma Md : 1 <= mo x <= 12 /\ 1 <= dy x <= 31.
Proof. pose proof Ex as E. apply exists_date_spec in E. pose proof (mlen_bound (yr x) (mo x)). lia. Qed.
Lemma wdx_range : 0 <= wdx <= 6. Proof. apply weekday_range. Qed.
Lemma wdx_is : weekday_is x wdx.
Proof. exists (num x). split; [apply num_day_number, Ex|reflexivity]. Qed.
Lemma weekday_is_wdx wd : weekday_is x wd -> wd = wdx.
Proof. intros (n & N & ->). apply day_number_num in N. now subst. Qed.

Lemma later_jan1 k : later k (YMD (yr x) 1 1) x <-> Z.of_nat k = num x - jan1 (yr x).
Proof.
  pose proof (year_bounds x Ex) as B. split.
  - intros L. apply later_number in L. unfold num, jan1. cbn [yr mo dy] in L. lia.
  - intros K. pose proof (date_of_later (jan1 (yr x)) k) as L. rewrite K in L.
    replace (jan1 (yr x) + (num x - jan1 (yr x))) with (num x) in L by lia. rewrite date_of_num in L by exact Ex.
    rewrite <- (num_jan1 (yr x)) in L. rewrite date_of_num in L by apply jan1_exists. exact L.
Qed.

Lemma date_str_text c : date_directive x c -> date_text x c (date_str c).
Proof.
  pose proof Md as MD. pose proof Yr as Y. pose proof wdx_range as WR. pose proof (year_bounds x Ex) as YB.
  assert (P : forall k n, (1 <= k)%nat -> 0 <= n -> padded k n (pad k n)) by exact pad_padded.
  intros [H|[[-> H]|[[E H]|[H Y']]]].
  - memb_cases H.
    + apply d_fixed, x_percent.
    + apply d_fixed, x_newline.
    + apply d_fixed, x_tab.
    + apply d_Y, sgn_signed. lia.
    + apply d_y, P; [lia|]. apply Z.mod_pos_bound. lia.
    + apply d_C, sgn_signed. lia.
    + apply d_m, P; lia.
    + apply d_d, P; lia.
    + cbn [date_str]. destruct (Z.ltb_spec (dy x) 10); [apply d_e1|apply d_e2]; try lia; apply P; lia.
    + apply d_B.
    + apply d_b. now left.
    + apply d_b. now right.
    + apply d_A, wdx_is.
    + apply d_a, wdx_is.
    + apply (d_w x wdx); [apply wdx_is|]. apply P; lia.
    + apply (d_u x wdx); [apply wdx_is|]. apply P; [lia|]. destruct (wdx =? 0); lia.
    + apply (d_j x (Z.to_nat (num x - jan1 (yr x)))); [apply later_jan1; lia|].
      rewrite Z2Nat.id by lia. apply P; lia.
    + apply (d_U x (rank 0 (yr x) (num x))); [apply seen_rank; [lia|apply Ex|reflexivity]|].
      apply P; [lia|]. apply (rank_range 0 (yr x) (num x)); lia.
    + apply (d_W x (rank 1 (yr x) (num x))); [apply seen_rank; [lia|apply Ex|reflexivity]|].
      apply P; [lia|]. apply (rank_range 1 (yr x) (num x)); lia.
  - apply d_F; [apply sgn_signed; lia|apply P; lia|apply P; lia].
  - assert (0 <= yr x mod 100) by (apply Z.mod_pos_bound; lia).
    destruct E as [-> | ->]; apply d_D; auto; apply P; lia.
  - assert (I : iso_week x (isoy (num x)) (isow (num x))) by (apply iso_week_eq; [apply Ex|auto]).
    memb_cases H.
    + apply (d_V x _ _ _ I). apply P; [lia|]. pose proof (isow_range (num x)). lia.
    + apply (d_G x _ _ _ I). apply sgn_signed. lia.
    + apply (d_g x _ _ _ I). apply P; [lia|]. apply Z.mod_pos_bound. lia.
Qed.

Lemma date_text_str c s : date_text x c s -> s = date_str c.
Proof.
  pose proof Md as MD. pose proof wdx_range as WR.
  assert (P : forall k n t, (1 <= k)%nat -> padded k n t -> t = pad k n) by (intros; now apply padded_pad).
  assert (Q : forall k n t, (1 <= k)%nat -> signed k n t -> t = sgn_str k n).
  { intros k n t K G. apply (signed_fun k n); auto. now apply sgn_signed. }
  intros T. destruct T; cbn [date_str].
  - destruct H; reflexivity.
  - apply Q; [lia|assumption].
  - apply P; [lia|assumption].
  - apply Q; [lia|assumption].
  - apply P; [lia|assumption].
  - apply P; [lia|assumption].
  - destruct (Z.ltb_spec (dy x) 10); [|lia]. f_equal. apply P; [lia|assumption].
  - destruct (Z.ltb_spec (dy x) 10); [lia|]. apply P; [lia|assumption].
  - apply Q in H; [|lia]. apply P in H0; [|lia]. apply P in H1; [|lia]. now subst.
  - apply P in H0; [|lia]. apply P in H1; [|lia]. apply P in H2; [|lia]. destruct H as [-> | ->]; now subst.
  - reflexivity.
  - destruct H as [-> | ->]; reflexivity.
  - apply weekday_is_wdx in H. now subst.
  - apply weekday_is_wdx in H. now subst.
  - apply weekday_is_wdx in H. subst. apply P; [lia|assumption].
  - apply weekday_is_wdx in H. subst. apply P; [lia|assumption].
  - apply later_jan1 in H. rewrite H in H0. apply P; [lia|assumption].
  - apply seen_rank in H; [|lia|apply Ex]. subst. apply P; [lia|assumption].
  - apply seen_rank in H; [|lia|apply Ex]. subst. apply P; [lia|assumption].
  - apply iso_week_eq in H; [|apply Ex]. destruct H as [-> ->]. apply P; [lia|assumption].
  - apply iso_week_eq in H; [|apply Ex]. destruct H as [-> ->]. apply Q; [lia|assumption].
  - apply iso_week_eq in H; [|apply Ex]. destruct H as [-> ->]. apply P; [lia|assumption].
Qed.

(** * The code writes these texts *)
Context (w : nat) (f : fields) (ab : option str) (off : option Z).
Context (FY : f_ymd f = x) (FW : f_wd f = no_wd).

Lemma ymd_ok_x : ymd_ok x = true.
Proof. pose proof Yr. pose proof Md. apply ymd_ok_spec; try lia. exact C. Qed.
Lemma extract_weekday_x : extract_weekday f = Ok wdx.
Proof.
  unfold extract_weekday. rewrite FY, FW, ymd_ok_x. cbn [negb andb]. change (weekday_ok no_wd) with false. cbn [andb].
  rewrite to_days_ok by exact C. cbn [bind]. fold (num x).
  rewrite weekday_from_days_eq by (apply calendar_int, num_calendar, C). fold wdx.
  pose proof wdx_range as R. rewrite weekday_diff_eq by lia. cbn [bind]. rewrite Z.sub_0_r, Z.mod_small by lia.
  now rewrite uns_id by lia.
Qed.
Lemma year_ok_x : year_ok (yr x) = true.
Proof. pose proof Yr. unfold year_ok. change (imin (IT true 16)) with (-32768). destruct (Z.eqb_spec (yr x) (-32768)); [lia|reflexivity]. Qed.
Lemma month_ok_x : month_ok (mo x) = true.
Proof. pose proof Md. unfold month_ok. apply andb_true_intro. rewrite !Z.leb_le. lia. Qed.
Lemma day_ok_x : day_ok (dy x) = true.
Proof. pose proof Md. unfold day_ok. apply andb_true_intro. rewrite !Z.leb_le. lia. Qed.
Lemma to_days_x : to_days x = Ok (num x).
Proof. now apply to_days_ok. Qed.
Lemma num_bounds : -12687428 <= num x <= 11248737.
Proof. exact (num_calendar x C). Qed.
Lemma to_days_jan1 : to_days (YMD (yr x) 1 1) = Ok (jan1 (yr x)).
Proof. apply (to_days_ok (YMD (yr x) 1 1)). split; [exact Yr|apply jan1_exists]. Qed.
Lemma name_at l i k : i = Z.of_nat k -> (k < length l)%nat -> name l i = Ok (nth k l []).
Proof.
  intros -> K. unfold name, zlen. destruct (Z.leb_spec 0 (Z.of_nat k)); [|lia].
  destruct (Z.ltb_spec (Z.of_nat k) (Z.of_nat (length l))); [|lia]. cbn [andb]. now rewrite Nat2Z.id.
Qed.
Lemma week_number_eq first : 0 <= first <= 6 -> week_number first (yr x) (num x) = Ok (pad 2 (rank first (yr x) (num x))).
Proof.
  intros F. pose proof (year_bounds x Ex) as B. pose proof num_bounds as N. unfold week_number.
  pose proof Yr. rewrite ymw_to_days_eq by (unfold year_in_range; lia). cbn [bind].
  fold (jan1 (yr x)). change ((first - weekday_of (jan1 (yr x))) mod 7) with (offset_to first (jan1 (yr x))).
  replace (offset_to first (jan1 (yr x)) + (1 - 1) * 7) with (offset_to first (jan1 (yr x))) by lia.
  assert (O : 0 <= offset_to first (jan1 (yr x)) <= 6) by (unfold offset_to; div_lia).
  assert (J := jan1_succ (yr x)). unfold rank.
  set (o := offset_to first (jan1 (yr x))) in *. set (a := jan1 (yr x)) in *. clearbody o a.
  destruct (Z.ltb_spec (num x) (a + o)).
  - replace ((num x - a - o) / 7 + 1) with 0 by div_lia. reflexivity.
  - rewrite int_ok by lia. cbn [bind]. rewrite Z.quot_div_nonneg by lia. rewrite int_ok by div_lia. cbn [bind].
    rewrite put_two_pad by div_lia. replace (num x - (a + o)) with (num x - a - o) by lia. reflexivity.
Qed.

Lemma directive_date neg c : date_directive x c -> c <> "%"%char ->
  directive w f ab off NUL neg c = Ok (date_str c, neg).
Proof.
  pose proof Md as MD. pose proof Yr as Y. pose proof wdx_range as WR. pose proof num_bounds as NB.
  intros [H|[[-> H]|[[E H]|[H Y']]]] NP.
  - memb_cases H; try (now destruct NP); unfold directive; cbn [Ascii.eqb Bool.eqb NUL andb]; rewrite ?FY.
    + reflexivity.
    + reflexivity.
    + rewrite year_ok_x. cbn [require bind]. unfold year_put. rewrite year_ok_x, app_nil_r, year_low_sgn. reflexivity.
    + rewrite year_ok_x. cbn [require bind]. unfold abs_int.
      assert ((if yr x <? 0 then int_ (- yr x) else Ok (yr x)) = Ok (Z.abs (yr x))) as ->.
      { destruct (Z.ltb_spec (yr x) 0); [rewrite int_ok by lia|]; f_equal; lia. }
      cbn [bind]. rewrite Z.rem_mod_nonneg by lia.
      rewrite put_two_pad by (apply Z.mod_pos_bound; lia). reflexivity.
    + rewrite year_ok_x. cbn [require bind date_str]. unfold sgn_str. rewrite Z.geb_leb. destruct (Z.leb_spec 0 (yr x)).
      * rewrite Z.quot_div_nonneg by lia. destruct (Z.ltb_spec (yr x / 100) 0); [div_lia|].
        rewrite put_right_pad by lia. reflexivity.
      * destruct (Z.ltb_spec (yr x / 100) 0); [|div_lia].
        replace (- (yr x - 99) ÷ 100) with (- (yr x / 100)) by div_lia. rewrite put_right_pad by lia. reflexivity.
    + rewrite month_ok_x. cbn [require bind date_str]. now rewrite put_two_pad by lia.
    + rewrite day_ok_x. cbn [require bind date_str]. now rewrite put_right_pad by lia.
    + rewrite day_ok_x. cbn [require bind date_str]. do 2 f_equal. unfold put_right. rewrite dec_nonneg by lia.
      rewrite (dec_u_eq (dy x)) by lia. destruct (Z.ltb_spec (dy x) 10).
      * cbn [length Nat.sub repeat app]. f_equal. unfold pad. rewrite dec_u_eq by lia.
        destruct (Z.ltb_spec (dy x) 10); [reflexivity|lia].
      * unfold pad. rewrite (dec_u_eq (dy x)) by lia. destruct (Z.ltb_spec (dy x) 10); [lia|].
        rewrite !(dec_u_eq (dy x / 10)) by div_lia. destruct (Z.ltb_spec (dy x / 10) 10); [reflexivity|div_lia].
    + unfold extract_month. rewrite FY, month_ok_x. cbn [require bind].
      rewrite (name_at _ _ (Z.to_nat (mo x - 1))) by (cbn [length month_names]; lia). cbn [bind date_str].
      rewrite month_names_long by lia. reflexivity.
    + unfold extract_month. rewrite FY, month_ok_x. cbn [require bind].
      rewrite (name_at _ _ (Z.to_nat (mo x - 1) + 12)) by (cbn [length month_names]; lia). cbn [bind date_str].
      rewrite month_names_short by lia. reflexivity.
    + unfold extract_month. rewrite FY, month_ok_x. cbn [require bind].
      rewrite (name_at _ _ (Z.to_nat (mo x - 1) + 12)) by (cbn [length month_names]; lia). cbn [bind date_str].
      rewrite month_names_short by lia. reflexivity.
    + rewrite extract_weekday_x. cbn [bind].
      rewrite (name_at _ _ (Z.to_nat wdx)) by (cbn [length weekday_names]; lia). cbn [bind date_str].
      rewrite weekday_names_long by lia. reflexivity.
    + rewrite extract_weekday_x. cbn [bind].
      rewrite (name_at _ _ (Z.to_nat wdx + 7)) by (cbn [length weekday_names]; lia). cbn [bind date_str].
      rewrite weekday_names_short by lia. reflexivity.
    + rewrite extract_weekday_x. cbn [bind date_str]. now rewrite dec_pad by lia.
    + rewrite extract_weekday_x. cbn [bind date_str]. rewrite dec_pad by (destruct (wdx =? 0); cbn [negb]; lia).
      destruct (wdx =? 0); reflexivity.
    + rewrite ymd_ok_x. rewrite to_days_x. cbn [bind]. rewrite to_days_jan1. cbn [bind].
      pose proof (year_bounds x Ex). pose proof (jan1_succ (yr x)).
      rewrite int_ok by lia. cbn [bind]. rewrite int_ok by lia. cbn [bind date_str]. now rewrite put_right_pad by lia.
    + rewrite ymd_ok_x. cbn [require bind]. rewrite to_days_x. cbn [bind]. rewrite week_number_eq by lia. reflexivity.
    + rewrite ymd_ok_x. cbn [require bind]. rewrite to_days_x. cbn [bind]. rewrite week_number_eq by lia. reflexivity.
  - unfold directive. cbn [Ascii.eqb Bool.eqb NUL andb]. rewrite FY, ymd_ok_x. cbn [require bind date_str].
    rewrite put_right_sgn by exact H. now rewrite !put_right_pad by lia.
  - assert (0 <= yr x mod 100) by (apply Z.mod_pos_bound; lia).
    destruct E as [-> | ->]; unfold directive; cbn [Ascii.eqb Bool.eqb NUL andb]; rewrite FY, ymd_ok_x;
      cbn [require bind date_str]; unfold date_slashes; rewrite FY, Z.rem_mod_nonneg by lia;
      now rewrite !put_right_pad by lia.
  - assert (I := iso_year_eq x Ex Y'). pose proof (isow_range (num x)). destruct (iso_days (num x)) as [ID IW].
    pose proof (isoy_near x Ex). pose proof (isoy_bounds (num x)).
    memb_cases H; unfold directive; cbn [Ascii.eqb Bool.eqb NUL andb]; rewrite FY, ymd_ok_x; cbn [require bind];
      rewrite to_days_x; cbn [bind]; rewrite I; cbn [bind date_str].
    + rewrite int_ok by (unfold iso1, offset_to; pose proof (jan1_succ (isoy (num x))); pose proof (thursday_props (num x)); div_lia).
      cbn [bind]. rewrite Z.quot_div_nonneg by lia. rewrite IW. rewrite int_ok by lia. cbn [bind].
      now rewrite put_two_pad by lia.
    + unfold year_put. rewrite year_low_sgn.
      assert (year_ok (isoy (num x)) = true) as ->.
      { unfold year_ok. change (imin (IT true 16)) with (-32768). destruct (Z.eqb_spec (isoy (num x)) (-32768)); [lia|reflexivity]. }
      now rewrite app_nil_r.
    + unfold abs_int. set (g := isoy (num x)) in *.
      assert ((if g <? 0 then int_ (- g) else Ok g) = Ok (Z.abs g)) as ->.
      { destruct (Z.ltb_spec g 0); [rewrite int_ok by lia|]; f_equal; lia. }
      cbn [bind]. rewrite Z.rem_mod_nonneg by lia.
      rewrite put_right_pad by (apply Z.mod_pos_bound; lia). reflexivity.
Qed.
End Date.
