(** The text of each time directive, and of whole formats. *)
From Verif Require Import Base IntModel DateModel DateSpec DateProofs DateProofs2 FmtModel FmtSpec FmtProofs FmtProofs2 FmtProofs3.
Local Open Scope Z_scope.

Lemma ticks_pos w : 1 <= ticks w.
Proof. unfold ticks. pose proof (Z.pow_pos_nonneg 10 (Z.of_nat w)). lia. Qed.
Lemma ticks_le w v : (w <= v)%nat -> ticks w <= ticks v.
Proof. intros H. unfold ticks. apply Z.pow_le_mono_r; lia. Qed.

Lemma hms_of_eq w d : (w <= 12)%nat -> 0 <= d <= 9223372036854775807 ->
  hms_of (ticks w) d = Ok (HMS (hours_of w d) (minutes_of w d) (seconds_of w d) (d mod ticks w) false) /\
  hms_to_duration (ticks w) (HMS (hours_of w d) (minutes_of w d) (seconds_of w d) (d mod ticks w) false) = Ok d.
Proof.
  intros W D. pose proof (ticks_pos w) as K1. pose proof (ticks_le w 12 W) as K2. change (ticks 12) with 1000000000000 in K2.
  destruct (hms_props (ticks w) d ltac:(lia) ltac:(lia)) as (t & E & H & M & S1 & SB & N & TOT & TD).
  assert (X : t = HMS (hours_of w d) (minutes_of w d) (seconds_of w d) (d mod ticks w) false).
  { unfold hours_of, minutes_of, seconds_of. fold (ticks w). set (k := ticks w) in *.
    rewrite Z.abs_eq in TOT by lia.
    rewrite (Z.mul_comm 3600 k), (Z.mul_comm 60 k). rewrite <- !Z.div_div by lia.
    assert (Q : (h_ t * 60 + m_ t) * 60 + s_ t = d / k) by (apply (Z.div_unique d k _ (sub_ t)); lia).
    assert (R : sub_ t = d mod k) by (apply (Z.mod_unique d k ((h_ t * 60 + m_ t) * 60 + s_ t)); lia).
    destruct t as [h m s sub n]. cbn [h_ m_ s_ sub_ neg_] in *.
    assert (n = false) as -> by (rewrite N; apply Z.ltb_ge; lia). rewrite <- Q, <- R. f_equal; div_lia. }
  rewrite <- X. auto.
Qed.
Lemma parts_range w d : 0 <= d -> 0 <= hours_of w d /\ 0 <= minutes_of w d <= 59 /\ 0 <= seconds_of w d <= 59 /\ 0 <= d mod ticks w < ticks w.
Proof.
  intros D. pose proof (ticks_pos w). unfold hours_of, minutes_of, seconds_of. fold (ticks w). set (k := ticks w) in *.
  split; [apply Z.div_pos; lia|]. pose proof (Z.mod_pos_bound (d / (60 * k)) 60). pose proof (Z.mod_pos_bound (d / k) 60).
  pose proof (Z.mod_pos_bound d k). lia.
Qed.

Definition sec_str (w : nat) (d : Z) : str :=
  pad 2 (seconds_of w d) ++ match w with O => [] | S _ => "."%char :: pad w (d mod ticks w) end.
Definition clock_str (w : nat) (d : Z) : str :=
  pad 2 (hours_of w d) ++ ":"%char :: pad 2 (minutes_of w d) ++ ":"%char :: sec_str w d.
Definition time_str (w : nat) (d : Z) (c : ascii) : str :=
  match c with
  | "H"%char => pad 2 (hours_of w d)
  | "M"%char => pad 2 (minutes_of w d)
  | "S"%char => sec_str w d
  | "T"%char | "X"%char => clock_str w d
  | "R"%char => pad 2 (hours_of w d) ++ ":"%char :: pad 2 (minutes_of w d)
  | "Q"%char => pad 1 d
  | "I"%char => pad 2 (twelve (hours_of w d))
  | "p"%char => half (hours_of w d)
  | "r"%char => pad 2 (twelve (hours_of w d)) ++ ":"%char :: pad 2 (minutes_of w d) ++ ":"%char ::
                pad 2 (seconds_of w d) ++ " "%char :: half (hours_of w d)
  | _ => []
  end.
Lemma twelve_range h : 1 <= twelve h <= 12.
Proof. unfold twelve. pose proof (Z.mod_pos_bound h 12). destruct (Z.eqb_spec (h mod 12) 0); lia. Qed.
Lemma sec_str_text w d : 0 <= d -> seconds_text w d (sec_str w d).
Proof.
  intros D. destruct (parts_range w d D) as (_ & _ & S1 & SB). unfold seconds_text, sec_str. destruct w as [|w].
  - rewrite app_nil_r. apply pad_padded; lia.
  - eexists _, _. split; [reflexivity|]. split; [apply pad_padded; lia|]. apply pad_padded; [lia|apply SB].
Qed.
Lemma text_sec_str w d s : seconds_text w d s -> s = sec_str w d.
Proof.
  unfold seconds_text, sec_str. destruct w as [|w].
  - intros P. rewrite app_nil_r. apply padded_pad; [lia|exact P].
  - intros (a & b & -> & A & B). apply padded_pad in A; [|lia]. apply padded_pad in B; [|lia]. now subst.
Qed.
Lemma clock_str_text w d : 0 <= d -> clock_text w d (clock_str w d).
Proof.
  intros D. destruct (parts_range w d D) as (H & M & _). eexists _, _, _. split; [reflexivity|].
  split; [apply pad_padded; lia|]. split; [apply pad_padded; lia|now apply sec_str_text].
Qed.
Lemma text_clock_str w d s : clock_text w d s -> s = clock_str w d.
Proof.
  intros (a & b & c & -> & A & B & E). apply padded_pad in A; [|lia]. apply padded_pad in B; [|lia].
  apply text_sec_str in E. now subst.
Qed.
Lemma time_str_text w d c : 0 <= d -> time_directive w d c -> time_text w d c (time_str w d c).
Proof.
  intros D. destruct (parts_range w d D) as (H & M & SS & SB). pose proof (twelve_range (hours_of w d)) as T.
  assert (P : forall k n, (1 <= k)%nat -> 0 <= n -> padded k n (pad k n)) by exact pad_padded.
  intros [A|[A _]]; memb_cases A.
  - apply t_H, P; lia.
  - apply t_M, P; lia.
  - now apply t_S, sec_str_text.
  - apply t_T; [now left|now apply clock_str_text].
  - apply t_T; [now right|now apply clock_str_text].
  - apply t_R; apply P; lia.
  - apply t_Q, P; lia.
  - apply t_I, P; lia.
  - apply t_p.
  - apply t_r; apply P; lia.
Qed.
Lemma time_text_str w d c s : time_text w d c s -> s = time_str w d c.
Proof.
  assert (P : forall k n t, (1 <= k)%nat -> padded k n t -> t = pad k n) by (intros; now apply padded_pad).
  intros T. destruct T; cbn [time_str].
  - apply P; [lia|assumption].
  - apply P; [lia|assumption].
  - now apply text_sec_str.
  - apply text_clock_str in H0. destruct H as [-> | ->]; exact H0.
  - apply P in H; [|lia]. apply P in H0; [|lia]. now subst.
  - apply P; [lia|assumption].
  - apply P; [lia|assumption].
  - reflexivity.
  - apply P in H; [|lia]. apply P in H0; [|lia]. apply P in H1; [|lia]. now subst.
Qed.

(** * The code writes these texts *)
Section Time.
Context (w : nat) (d : Z) (W : (w <= 12)%nat) (D : 0 <= d <= 9223372036854775807).
Context (f : fields) (ab : option str) (off : option Z).
Definition tod_of : hms := HMS (hours_of w d) (minutes_of w d) (seconds_of w d) (d mod ticks w) false.
Context (FT : f_tod f = tod_of) (FH : f_has f = true).

Lemma sec_put_str : sec_put w tod_of = sec_str w d.
Proof.
  destruct (parts_range w d ltac:(lia)) as (H & M & SS & SB). unfold sec_put, sec_str, tod_of. cbn [s_ sub_].
  rewrite put_right_pad by lia. destruct w as [|w']; [reflexivity|]. cbn [Nat.ltb Nat.leb].
  now rewrite put_right_pad by lia.
Qed.
Lemma hms_put_str : hms_put w tod_of = clock_str w d.
Proof.
  destruct (parts_range w d ltac:(lia)) as (H & M & SS & SB). unfold hms_put, clock_str. rewrite sec_put_str.
  unfold tod_of. cbn [neg_ h_ m_]. now rewrite !put_two_pad by lia.
Qed.
Lemma make12_twelve h : 0 <= h < 24 -> make12 h = twelve h.
Proof.
  intros H. unfold make12, twelve. destruct (Z.ltb_spec h 12).
  - rewrite Z.mod_small by lia. reflexivity.
  - assert (h mod 12 = h - 12) as -> by (symmetry; apply (Z.mod_unique h 12 1); lia).
    destruct (Z.eqb_spec h 12), (Z.eqb_spec (h - 12) 0); cbn [negb]; lia.
Qed.
Lemma duration_f : hms_to_duration (ticks w) (f_tod f) = Ok d.
Proof. rewrite FT. apply hms_of_eq; lia. Qed.
(** Without the decimals *)
Lemma whole_parts : hours_of 0 (d / ticks w) = hours_of w d /\ minutes_of 0 (d / ticks w) = minutes_of w d /\
  seconds_of 0 (d / ticks w) = seconds_of w d.
Proof.
  pose proof (ticks_pos w). unfold hours_of, minutes_of, seconds_of. fold (ticks w). change (10 ^ Z.of_nat 0) with 1.
  rewrite (Z.mul_comm 3600 (ticks w)), (Z.mul_comm 60 (ticks w)). rewrite <- !Z.div_div by lia.
  rewrite !Z.div_1_r. auto.
Qed.
Lemma whole_hms : hms_of 1 (d ÷ ticks w) = Ok (HMS (hours_of w d) (minutes_of w d) (seconds_of w d) 0 false).
Proof.
  pose proof (ticks_pos w). rewrite Z.quot_div_nonneg by lia.
  assert (B : 0 <= d / ticks w <= 9223372036854775807).
  { split; [apply Z.div_pos; lia|]. apply Z.le_trans with d; [|lia]. apply Z.div_le_upper_bound; nia. }
  destruct (hms_of_eq 0 (d / ticks w) ltac:(lia) B) as [E _]. change (ticks 0) with 1 in E. rewrite E.
  destruct whole_parts as (-> & -> & ->). now rewrite Z.mod_1_r.
Qed.

Lemma directive_time c : time_directive w d c ->
  directive w f ab off NUL false c = Ok (time_str w d c, false).
Proof.
  destruct (parts_range w d ltac:(lia)) as (H & M & SS & SB).
  assert (T := twelve_range (hours_of w d)).
  intros [A|[A L]]; memb_cases A; unfold directive; cbn [Ascii.eqb Bool.eqb NUL andb]; rewrite FH; cbn [require bind time_str minus app].
  - rewrite FT. unfold tod_of. cbn [h_]. now rewrite put_two_pad by lia.
  - rewrite FT. unfold tod_of. cbn [m_]. now rewrite put_two_pad by lia.
  - rewrite FT. now rewrite sec_put_str.
  - rewrite FT. now rewrite hms_put_str.
  - rewrite FT. now rewrite hms_put_str.
  - rewrite FT. unfold tod_of. cbn [h_ m_]. now rewrite !put_two_pad by lia.
  - rewrite duration_f. cbn [bind]. now rewrite dec_pad by lia.
  - rewrite FT. unfold tod_of. cbn [h_]. rewrite make12_twelve by lia. now rewrite put_two_pad by lia.
  - rewrite FT. unfold tod_of. cbn [h_]. unfold is_am, half. destruct (Z.leb_spec 0 (hours_of w d)); [|lia]. cbn [andb].
    destruct (hours_of w d <? 12); reflexivity.
  - rewrite duration_f. cbn [bind]. rewrite whole_hms. cbn [bind h_ m_ s_].
    unfold is_am, half. destruct (Z.leb_spec 0 (hours_of w d)); [|lia]. cbn [andb]. rewrite make12_twelve by lia.
    rewrite !put_right_pad by lia. destruct (hours_of w d <? 12); reflexivity.
Qed.
End Time.

(** * Dates with times *)
Definition moment_str (w : nat) (x : ymd) (d : Z) (c : ascii) : str :=
  if Ascii.eqb c "c"
  then date_str x "a" ++ " "%char :: date_str x "b" ++ " "%char :: date_str x "e" ++ " "%char ::
       clock_str 0 (d / ticks w) ++ " "%char :: date_str x "Y"
  else if memb c (!"HMSTXRQIpr") then time_str w d c else date_str x c.
Lemma time_directive_in w d c : time_directive w d c -> memb c (!"HMSTXRQIpr") = true /\ Ascii.eqb c "c" = false.
Proof. intros [A|[A _]]; memb_cases A; split; reflexivity. Qed.
Lemma date_directive_in x c : date_directive x c -> memb c (!"HMSTXRQIpr") = false /\ Ascii.eqb c "c" = false /\
  (c = "%"%char \/ memb c directives = true).
Proof.
  intros [A|[[-> _]|[[[-> | ->] _]|[A _]]]]; [memb_cases A|..|memb_cases A]; split; try reflexivity; split; try reflexivity;
    (left; reflexivity) || (right; reflexivity).
Qed.
Lemma time_text_in w d c s : time_text w d c s -> memb c (!"HMSTXRQIpr") = true /\ Ascii.eqb c "c" = false.
Proof. intros T. destruct T as [| | |c s [-> | ->]| | | | |]; split; reflexivity. Qed.
Lemma date_text_in x c s : date_text x c s -> memb c (!"HMSTXRQIpr") = false /\ Ascii.eqb c "c" = false.
Proof.
  intros T. destruct T; repeat match goal with H : _ \/ _ |- _ => destruct H as [-> | ->] end;
    repeat match goal with H : fixed_text _ _ |- _ => destruct H end; split; reflexivity.
Qed.

Lemma moment_str_text w x d c : in_calendar x -> 0 <= d -> moment_directive w x d c ->
  moment_text w x d c (moment_str w x d c).
Proof.
  intros C D [H|[H| ->]]; unfold moment_str.
  - destruct (date_directive_in x c H) as (-> & -> & _). apply m_date. now apply date_str_text.
  - destruct (time_directive_in w d c H) as (-> & ->). apply m_time. now apply time_str_text.
  - cbn [Ascii.eqb Bool.eqb]. apply m_c; try (apply date_str_text; [exact C|]; left; reflexivity).
    apply clock_str_text. apply Z.div_pos; [lia|]. apply Z.pow_pos_nonneg; lia.
Qed.
Lemma moment_text_str w x d c s : in_calendar x -> moment_text w x d c s -> s = moment_str w x d c.
Proof.
  intros C [c' s' T|c' s' T|a b e h y A B E H Y]; unfold moment_str.
  - destruct (date_text_in _ _ _ T) as (-> & ->). now apply date_text_str.
  - destruct (time_text_in _ _ _ _ T) as (-> & ->). now apply time_text_str.
  - cbn [Ascii.eqb Bool.eqb]. apply (date_text_str x C) in A, B, E, Y. apply text_clock_str in H. now subst.
Qed.

(** * Whole formats *)
Definition item_str (R : ascii -> str) (i : item) : str := match i with Lit c => [c] | Dir c => R c end.
Definition str_of (R : ascii -> str) (l : list item) : str := concat (map (item_str R) l).

Lemma texts_str (Rel : ascii -> str -> Prop) (P : ascii -> Prop) (R : ascii -> str) :
  (forall c, P c -> Rel c (R c)) -> forall l, covered P l -> texts Rel l (str_of R l).
Proof.
  intros H l. induction 1 as [|i l I _ IH]; [constructor|].
  destruct i as [c|c]; unfold str_of; cbn [map concat item_str app].
  - now constructor.
  - constructor; [now apply H|exact IH].
Qed.
Lemma str_texts (Rel : ascii -> str -> Prop) (R : ascii -> str) :
  (forall c s, Rel c s -> s = R c) -> forall l s, texts Rel l s -> s = str_of R l.
Proof.
  intros H l s. induction 1 as [|c l s _ IH|c t l s T _ IH]; [reflexivity| |]; unfold str_of in *; cbn [map concat item_str app].
  - now f_equal.
  - now rewrite (H _ _ T), IH.
Qed.

Lemma run_items w f ab off (P : ascii -> Prop) (R : ascii -> str) :
  (forall c, P c -> c <> "%"%char -> memb c directives = true /\ directive w f ab off NUL false c = Ok (R c, false)) ->
  (P "%"%char -> R "%"%char = !"%") ->
  forall l, covered P l -> run w f ab off (fmt_of l) false NUL false = Ok (str_of R l).
Proof.
  intros H HP l. induction 1 as [|i l I _ IH]; [reflexivity|].
  unfold fmt_of, str_of in *. destruct i as [c|c]; cbn [map concat item_str show app].
  - cbn [run]. destruct I as [I1 I2].
    assert (Ascii.eqb c "%" = false) as E by now apply Ascii.eqb_neq. rewrite E.
    destruct (memb c directives); [rewrite IH; reflexivity|].
    destruct (Ascii.eqb c "E" || Ascii.eqb c "O"); rewrite IH; reflexivity.
  - cbn [run]. change (memb "%" directives) with false. cbn [Ascii.eqb Bool.eqb orb].
    destruct (Ascii.eqb_spec c "%"%char) as [->|NE].
    + change (memb "%" directives) with false. cbn [Ascii.eqb Bool.eqb orb]. rewrite IH. cbn [bind].
      rewrite HP by exact I. reflexivity.
    + destruct (H c I NE) as (-> & ->). cbn [bind]. rewrite IH. reflexivity.
Qed.
Lemma c_str_items (P : ascii -> Prop) : (forall c, P c -> c <> NUL) -> forall l, covered P l -> c_str (fmt_of l) = fmt_of l.
Proof.
  intros H l. induction 1 as [|i l I _ IH]; [reflexivity|].
  unfold fmt_of in *. destruct i as [c|c]; cbn [map concat show app c_str].
  - destruct I as [_ I2]. destruct (Ascii.eqb_spec c NUL) as [->|]; [now destruct I2|]. now rewrite IH.
  - cbn [Ascii.eqb Bool.eqb NUL]. destruct (Ascii.eqb_spec c NUL) as [->|]; [now destruct (H NUL I)|]. now rewrite IH.
Qed.
Lemma moment_not_nul w x d c : moment_directive w x d c -> c <> NUL.
Proof.
  intros H ->. destruct H as [H|[H|H]]; [|now destruct (time_directive_in _ _ _ H)|discriminate].
  destruct (date_directive_in x _ H) as (_ & _ & [E|E]); discriminate.
Qed.


Definition sys_str (w : nat) (x : ymd) (d : Z) (c : ascii) : str :=
  if Ascii.eqb c "z" then !"+0000" else if Ascii.eqb c "Z" then !"UTC" else moment_str w x d c.
Lemma moment_in w x d c : moment_directive w x d c -> Ascii.eqb c "z" = false /\ Ascii.eqb c "Z" = false.
Proof.
  intros [[A|[[-> _]|[[[-> | ->] _]|[A _]]]]|[[A|[A _]]| ->]]; try (memb_cases A); split; reflexivity.
Qed.
Lemma moment_text_in w x d c s : moment_text w x d c s -> Ascii.eqb c "z" = false /\ Ascii.eqb c "Z" = false.
Proof.
  intros [c' s' T|c' s' T|]; [destruct T|destruct T|];
    repeat match goal with H : _ \/ _ |- _ => destruct H as [-> | ->] end;
    repeat match goal with H : fixed_text _ _ |- _ => destruct H end; split; reflexivity.
Qed.
Lemma sys_str_text w x d c : in_calendar x -> 0 <= d -> sys_directive w x d c -> sys_text w x d c (sys_str w x d c).
Proof.
  intros C D [H|[-> | ->]]; unfold sys_str; [|apply s_z|apply s_Z].
  destruct (moment_in w x d c H) as (-> & ->). apply s_moment. now apply moment_str_text.
Qed.
Lemma sys_text_str w x d c s : in_calendar x -> sys_text w x d c s -> s = sys_str w x d c.
Proof.
  intros C [c' s' T| |]; unfold sys_str; try reflexivity.
  destruct (moment_text_in _ _ _ _ _ T) as (-> & ->). now apply moment_text_str.
Qed.

Lemma moment_directive_ok w x d ab off c : (w <= 12)%nat -> in_calendar x -> 0 <= d <= 9223372036854775807 ->
  moment_directive w x d c -> c <> "%"%char ->
  memb c directives = true /\
  directive w (Fields x no_wd (tod_of w d) true) ab off NUL false c = Ok (moment_str w x d c, false).
Proof.
  intros W C D [H'|[H'| ->]] NP; unfold moment_str.
  + destruct (date_directive_in x c H') as (-> & -> & [E|E]); [contradiction|]. split; [exact E|].
    now apply directive_date.
  + destruct (time_directive_in w d c H') as (E & ->). rewrite E. split; [memb_cases E; reflexivity|].
    now apply directive_time.
  + split; [reflexivity|]. unfold directive. cbn [Ascii.eqb Bool.eqb f_ymd f_has f_tod].
    rewrite (ymd_ok_x x C). cbn [require bind].
    set (f := Fields x no_wd (tod_of w d) true).
    rewrite (extract_weekday_x x C f) by reflexivity. cbn [bind].
    pose proof (wdx_range x) as WR.
    assert (MD : 1 <= mo x <= 12 /\ 1 <= dy x <= 31).
    { destruct C as [_ E]. apply exists_date_spec in E. pose proof (mlen_bound (yr x) (mo x)). lia. }
    rewrite (name_at _ _ (Z.to_nat (wdx x) + 7)) by (cbn [length weekday_names]; lia). cbn [bind].
    unfold extract_month. cbn [f f_ymd]. rewrite (month_ok_x x C). cbn [require bind].
    rewrite (name_at _ _ (Z.to_nat (mo x - 1) + 12)) by (cbn [length month_names]; lia). cbn [bind].
    pose proof (duration_f w d W D f eq_refl) as DF. cbn [f f_tod] in DF. rewrite DF. cbn [bind].
    rewrite (whole_hms w d W D). cbn [bind].
    rewrite month_names_short, weekday_names_short by lia.
    cbn [date_str]. change (Ascii.eqb NUL "O") with false. unfold year_put. rewrite (year_ok_x x C), app_nil_r, year_low_sgn.
    unfold hms_put, sec_put. cbn [neg_ h_ m_ s_ app Nat.ltb Nat.leb].
    destruct (parts_range w d ltac:(lia)) as (PH & PM & PS & _). rewrite !put_two_pad, put_right_pad, app_nil_r by lia.
    unfold clock_str, sec_str. destruct (whole_parts w d W) as (-> & -> & ->). rewrite app_nil_r.
    destruct (Z.ltb_spec (dy x) 10); cbn [app]; rewrite dec_pad by lia; [reflexivity|].
    unfold pad. rewrite (dec_u_eq (dy x)) by lia. destruct (Z.ltb_spec (dy x) 10); [lia|].
    rewrite (dec_u_eq (dy x / 10)) by div_lia. destruct (Z.ltb_spec (dy x / 10) 10); [reflexivity|div_lia].
Qed.
Lemma to_stream_moment w x d f ab off l : (w <= 12)%nat -> in_calendar x -> 0 <= d <= 9223372036854775807 ->
  f = Fields x no_wd (tod_of w d) true -> covered (moment_directive w x d) l ->
  to_stream w f ab off (fmt_of l) = Ok (str_of (moment_str w x d) l).
Proof.
  intros W C D -> L. unfold to_stream. cbn [f_has f_tod].
  change (hms_to_duration (ticks w) (tod_of w d)) with (hms_to_duration (ticks w) (HMS (hours_of w d) (minutes_of w d) (seconds_of w d) (d mod ticks w) false)).
  rewrite (proj2 (hms_of_eq w d W D)). cbn [bind]. destruct (Z.ltb_spec d 0); [lia|].
  rewrite (c_str_items _ (moment_not_nul w x d) l L).
  apply (run_items w _ ab off (moment_directive w x d)); [| |exact L].
  - intros c H' NP. now apply moment_directive_ok.
  - intros _. reflexivity.
Qed.

Lemma to_stream_sys w x d l : (w <= 12)%nat -> in_calendar x -> 0 <= d <= 9223372036854775807 ->
  covered (sys_directive w x d) l ->
  to_stream w (Fields x no_wd (tod_of w d) true) (Some (!"UTC")) (Some 0) (fmt_of l) = Ok (str_of (sys_str w x d) l).
Proof.
  intros W C D L. unfold to_stream. cbn [f_has f_tod].
  change (hms_to_duration (ticks w) (tod_of w d)) with (hms_to_duration (ticks w) (HMS (hours_of w d) (minutes_of w d) (seconds_of w d) (d mod ticks w) false)).
  rewrite (proj2 (hms_of_eq w d W D)). cbn [bind]. destruct (Z.ltb_spec d 0); [lia|].
  assert (NN : forall c, sys_directive w x d c -> c <> NUL).
  { intros c [H'|[-> | ->]]; [now apply (moment_not_nul w x d)|discriminate|discriminate]. }
  rewrite (c_str_items _ NN l L).
  apply (run_items w _ _ _ (sys_directive w x d)); [| |exact L].
  - intros c [H'|[-> | ->]] NP; unfold sys_str.
    + destruct (moment_in w x d c H') as (-> & ->). now apply moment_directive_ok.
    + split; reflexivity.
    + split; reflexivity.
  - intros _. reflexivity.
Qed.

(** * Splitting a time point at midnight *)
Lemma split_time_eq w tp : (w <= 12)%nat -> -9223372036854775808 <= tp <= 9223372036854775807 ->
  first_day_number <= tp / (86400 * ticks w) <= last_day_number ->
  split_time w tp = Ok (Fields (date_of (tp / (86400 * ticks w))) no_wd (tod_of w (tp mod (86400 * ticks w))) true).
Proof.
  intros W T N. pose proof (ticks_pos w) as K1. pose proof (ticks_le w 12 W) as K2. change (ticks 12) with 1000000000000 in K2.
  unfold split_time. set (k := ticks w) in *.
  pose proof (Z.div_mod tp (86400 * k) ltac:(lia)) as E. pose proof (Z.mod_pos_bound tp (86400 * k) ltac:(lia)) as B.
  set (q := tp / (86400 * k)) in *. set (r := tp mod (86400 * k)) in *.
  pose proof N as N'. unfold first_day_number, last_day_number in N'.
  assert (Q : tp ÷ (86400 * k) = q + (if (tp <? 0) && negb (r =? 0) then 1 else 0)).
  { destruct (Z.ltb_spec tp 0) as [L|L].
    - destruct (Z.eqb_spec r 0) as [R|R]; cbn [negb andb].
      + symmetry. apply (Z.quot_unique_exact tp (86400 * k)); lia.
      + assert (QQ : (- tp) ÷ (86400 * k) = - q - 1).
        { rewrite Z.quot_div_nonneg by lia. symmetry. apply (Z.div_unique_pos _ _ _ (86400 * k - r)); nia. }
        rewrite <- (Z.opp_involutive tp). rewrite Z.quot_opp_l by lia. rewrite QQ. lia.
    - cbn [andb]. rewrite Z.quot_div_nonneg by lia. fold q. lia. }
  rewrite Q. clearbody q r.
  set (b := (tp <? 0) && negb (r =? 0)) in *.
  rewrite conv_int by (destruct b; lia).
  assert (HM : forall v, 0 <= v < 86400 * k -> hms_of k v = Ok (tod_of w v)).
  { intros v V. apply (hms_of_eq w v W). nia. }
  destruct b eqn:Eb; unfold b in Eb.
  - apply andb_prop in Eb. destruct Eb as [E1 E2]. apply Z.ltb_lt in E1. apply negb_true_iff, Z.eqb_neq in E2.
    rewrite ll_ok by nia. cbn [bind]. destruct (Z.leb_spec ((q + 1) * (86400 * k)) tp); [nia|].
    rewrite int_ok by lia. cbn [bind]. replace (q + 1 - 1) with q by lia. rewrite from_days_ok by exact N. cbn [bind].
    rewrite ll_ok by nia. cbn [bind]. rewrite ll_ok by nia. cbn [bind].
    replace (86400 * k - ((q + 1) * (86400 * k) - tp)) with r by lia. rewrite HM by lia. reflexivity.
  - rewrite Z.add_0_r. rewrite ll_ok by (apply andb_false_iff in Eb; destruct Eb as [Eb|Eb];
      [apply Z.ltb_ge in Eb; nia|apply negb_false_iff, Z.eqb_eq in Eb; nia]).
    cbn [bind]. destruct (Z.leb_spec (q * (86400 * k)) tp); [|nia].
    rewrite from_days_ok by exact N. cbn [bind]. replace (tp - q * (86400 * k)) with r by lia.
    rewrite ll_ok by lia. cbn [bind]. rewrite HM by lia. reflexivity.
Qed.
