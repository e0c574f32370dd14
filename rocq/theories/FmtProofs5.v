(** Formats of dates, of parts of dates and of durations; missing fields. *)
From Verif Require Import Base IntModel DateModel DateSpec DateProofs DateProofs2 FmtModel FmtSpec FmtProofs FmtProofs2 FmtProofs3 FmtProofs4.
Local Open Scope Z_scope.

(** * Dates *)
Lemma date_not_nul x c : date_directive x c -> c <> NUL.
Proof. intros H ->. destruct (date_directive_in x _ H) as (_ & _ & [E|E]); discriminate. Qed.
Lemma to_stream_ymd x l : in_calendar x -> covered (date_directive x) l ->
  format_ymd (fmt_of l) x = Ok (str_of (date_str x) l).
Proof.
  intros C L. unfold format_ymd, to_stream. cbn [f_has fields_ymd bind].
  rewrite (c_str_items _ (date_not_nul x) l L).
  apply (run_items 0 _ _ _ (date_directive x)); [| |exact L].
  - intros c H NP. destruct (date_directive_in x c H) as (_ & _ & [E|E]); [contradiction|]. split; [exact E|].
    now apply directive_date.
  - intros _. reflexivity.
Qed.

(** * A directive that fails makes the whole call fail *)
Lemma c_str_app (P : ascii -> Prop) : (forall c, P c -> c <> NUL) -> forall l r, covered P l ->
  c_str (fmt_of l ++ r) = fmt_of l ++ c_str r.
Proof.
  intros H l r. induction 1 as [|i l I _ IH]; [reflexivity|].
  unfold fmt_of in *. destruct i as [c|c]; cbn [map concat show app c_str].
  - destruct I as [_ I2]. destruct (Ascii.eqb_spec c NUL) as [->|]; [now destruct I2|]. now rewrite IH.
  - cbn [Ascii.eqb Bool.eqb NUL]. destruct (Ascii.eqb_spec c NUL) as [->|]; [now destruct (H NUL I)|]. now rewrite IH.
Qed.
Lemma run_app w f ab off (P : ascii -> Prop) (R : ascii -> str) :
  (forall c, P c -> c <> "%"%char -> memb c directives = true /\ directive w f ab off NUL false c = Ok (R c, false)) ->
  forall l r, covered P l -> run w f ab off r false NUL false = Throw RuntimeError ->
  run w f ab off (fmt_of l ++ r) false NUL false = Throw RuntimeError.
Proof.
  intros H l r L T. induction L as [|i l I _ IH]; [exact T|].
  unfold fmt_of in *. destruct i as [c|c]; cbn [map concat item_str show app].
  - cbn [run]. destruct I as [I1 I2].
    assert (Ascii.eqb c "%" = false) as E by now apply Ascii.eqb_neq. rewrite E.
    destruct (memb c directives); [rewrite IH; reflexivity|].
    destruct (Ascii.eqb c "E" || Ascii.eqb c "O"); rewrite IH; reflexivity.
  - cbn [run]. change (memb "%" directives) with false. cbn [Ascii.eqb Bool.eqb orb].
    destruct (Ascii.eqb_spec c "%"%char) as [->|NE].
    + change (memb "%" directives) with false. cbn [Ascii.eqb Bool.eqb orb]. rewrite IH. reflexivity.
    + destruct (H c I NE) as (-> & ->). cbn [bind]. rewrite IH. reflexivity.
Qed.
Lemma fails w f (P : ascii -> Prop) (R : ascii -> str) l c r :
  f_has f = false -> (forall c, P c -> c <> NUL) ->
  (forall c, P c -> c <> "%"%char -> memb c directives = true /\ directive w f None None NUL false c = Ok (R c, false)) ->
  covered P l -> memb c directives = true -> directive w f None None NUL false c = Throw RuntimeError ->
  to_stream w f None None (fmt_of l ++ "%"%char :: c :: r) = Throw RuntimeError.
Proof.
  intros FH NN H L M D. unfold to_stream. rewrite FH. cbn [bind]. rewrite (c_str_app P NN l _ L).
  apply (run_app w f None None P R H); [exact L|].
  cbn [c_str]. change (Ascii.eqb "%" NUL) with false.
  assert (Ascii.eqb c NUL = false) as E.
  { destruct (Ascii.eqb_spec c NUL) as [->|]; [discriminate|reflexivity]. }
  rewrite E. cbn [run].
  change (memb "%" directives) with false. cbn [Ascii.eqb Bool.eqb orb]. rewrite M, D. reflexivity.
Qed.

(** Directives that want a time of day or a time zone *)
Lemma no_time f c : f_has f = false -> ymd_ok (f_ymd f) = true -> memb c (!"HIMpQqrRSTXczZ") = true ->
  memb c directives = true /\ directive 0 f None None NUL false c = Throw RuntimeError.
Proof.
  intros FH FY M. memb_cases M; split; try reflexivity; unfold directive; cbn [Ascii.eqb Bool.eqb NUL andb]; rewrite ?FH, ?FY; reflexivity.
Qed.
Lemma date_missing x l c r : in_calendar x -> covered (date_directive x) l -> memb c (!"HIMpQqrRSTXczZ") = true ->
  format_ymd (fmt_of l ++ "%"%char :: c :: r) x = Throw RuntimeError.
Proof.
  intros C L M. destruct (no_time (fields_ymd x) c eq_refl (ymd_ok_x x C) M) as [M' D].
  apply (fails 0 (fields_ymd x) (date_directive x) (date_str x)); auto.
  - apply date_not_nul.
  - intros c' H NP. destruct (date_directive_in x c' H) as (_ & _ & [E|E]); [contradiction|]. split; [exact E|].
    now apply directive_date.
Qed.
Lemma plain_ok f c : memb c (!"%nt") = true -> c <> "%"%char ->
  memb c directives = true /\ directive 0 f None None NUL false c = Ok (date_str no_ymd c, false).
Proof. intros M NP. memb_cases M; try (now destruct NP); split; reflexivity. Qed.
Lemma plain_not_nul c : memb c (!"%nt") = true -> c <> NUL.
Proof. intros M ->. discriminate. Qed.
Lemma fails_plain f l c r : f_has f = false -> covered (fun c => memb c (!"%nt") = true) l ->
  memb c directives = true -> directive 0 f None None NUL false c = Throw RuntimeError ->
  to_stream 0 f None None (fmt_of l ++ "%"%char :: c :: r) = Throw RuntimeError.
Proof.
  intros FH L M D. apply (fails 0 f (fun c => memb c (!"%nt") = true) (date_str no_ymd)); auto.
  - apply plain_not_nul.
  - intros c' M' NP. now apply plain_ok.
Qed.
(** The parts of a date that are not there *)
Lemma invalid_directive f c : f_has f = false -> ymd_ok (f_ymd f) = false -> weekday_ok (f_wd f) = false ->
  memb c (!"aAuwjUWVGgFDxcHIMpQqrRSTXzZ") = true ->
  memb c directives = true /\ directive 0 f None None NUL false c = Throw RuntimeError.
Proof.
  intros FH FY FW M. memb_cases M; split; try reflexivity; unfold directive; cbn [Ascii.eqb Bool.eqb NUL andb];
    unfold extract_weekday; rewrite ?FH, ?FY, ?FW; reflexivity.
Qed.
Lemma no_year_directive f c : year_ok (yr (f_ymd f)) = false -> memb c (!"YyC") = true ->
  memb c directives = true /\ directive 0 f None None NUL false c = Throw RuntimeError.
Proof. intros FY M. memb_cases M; split; try reflexivity; unfold directive; cbn [Ascii.eqb Bool.eqb NUL andb]; rewrite FY; reflexivity. Qed.
Lemma no_month_directive f c : month_ok (mo (f_ymd f)) = false -> memb c (!"mbBh") = true ->
  memb c directives = true /\ directive 0 f None None NUL false c = Throw RuntimeError.
Proof.
  intros FY M. memb_cases M; split; try reflexivity; unfold directive; cbn [Ascii.eqb Bool.eqb NUL andb];
    unfold extract_month; rewrite FY; reflexivity.
Qed.
Lemma no_day_directive f c : day_ok (dy (f_ymd f)) = false -> memb c (!"de") = true ->
  memb c directives = true /\ directive 0 f None None NUL false c = Throw RuntimeError.
Proof. intros FY M. memb_cases M; split; try reflexivity; unfold directive; cbn [Ascii.eqb Bool.eqb NUL andb]; rewrite FY; reflexivity. Qed.

(** * Parts of dates *)
Lemma run_same w f g (P : ascii -> Prop) :
  (forall c, P c -> directive w f None None NUL false c = directive w g None None NUL false c) ->
  (forall c, P c -> c = "%"%char \/ memb c directives = true /\ exists s, directive w g None None NUL false c = Ok (s, false)) ->
  forall l, covered P l -> run w f None None (fmt_of l) false NUL false = run w g None None (fmt_of l) false NUL false.
Proof.
  intros H K l. induction 1 as [|i l I _ IH]; [reflexivity|].
  unfold fmt_of in *. destruct i as [c|c]; cbn [map concat show app].
  - cbn [run]. destruct I as [I1 I2].
    assert (Ascii.eqb c "%" = false) as E by now apply Ascii.eqb_neq. rewrite E, IH. reflexivity.
  - cbn [run]. change (memb "%" directives) with false. cbn [Ascii.eqb Bool.eqb orb].
    destruct (K c I) as [->|(M & s & E)].
    + change (memb "%" directives) with false. cbn [Ascii.eqb Bool.eqb orb]. now rewrite IH.
    + rewrite M, (H c I), E. cbn [bind]. now rewrite IH.
Qed.
Lemma part_same f x (cs : str) l : in_calendar x -> f_has f = false ->
  (forall c, memb c cs = true -> memb c (!"%ntYyCmdeBbhAawu") = true) ->
  (forall c, memb c cs = true -> directive 0 f None None NUL false c = directive 0 (fields_ymd x) None None NUL false c) ->
  covered (fun c => memb c cs = true) l ->
  to_stream 0 f None None (fmt_of l) = format_ymd (fmt_of l) x.
Proof.
  intros C FH SUB SAME L. unfold format_ymd, to_stream. rewrite FH. cbn [f_has fields_ymd bind].
  assert (NN : forall c, memb c cs = true -> c <> NUL) by (intros c M ->; apply SUB in M; discriminate).
  rewrite (c_str_items _ NN l L). apply (run_same 0 f _ (fun c => memb c cs = true)); [exact SAME| |exact L].
  intros c M. apply SUB in M. assert (DD : date_directive x c) by (left; memb_cases M; reflexivity).
  destruct (date_directive_in x c DD) as (_ & _ & [E|E]); [now left|right]. split; [exact E|].
  exists (date_str x c). apply directive_date; auto. intros ->. discriminate.
Qed.
Ltac part_tac C := intros c M; memb_cases M; unfold directive, extract_month; cbn [Ascii.eqb Bool.eqb NUL andb f_ymd fields_ymd yr mo dy];
  try reflexivity.
Ltac sub_tac := let M := fresh in intros ? M; memb_cases M; reflexivity.
Lemma year_same l x : in_calendar x -> covered (fun c => memb c (!"%ntYyC") = true) l ->
  format_year (fmt_of l) (yr x) = format_ymd (fmt_of l) x.
Proof. intros C L. apply (part_same _ x (!"%ntYyC")); auto; [sub_tac|part_tac C]. Qed.
Lemma month_same l x : in_calendar x -> covered (fun c => memb c (!"%ntmbBh") = true) l ->
  format_month (fmt_of l) (mo x) = format_ymd (fmt_of l) x.
Proof. intros C L. apply (part_same _ x (!"%ntmbBh")); auto; [sub_tac|part_tac C]. Qed.
Lemma day_same l x : in_calendar x -> covered (fun c => memb c (!"%ntde") = true) l ->
  format_day (fmt_of l) (dy x) = format_ymd (fmt_of l) x.
Proof. intros C L. apply (part_same _ x (!"%ntde")); auto; [sub_tac|part_tac C]. Qed.
Lemma year_month_same l x : in_calendar x -> covered (fun c => memb c (!"%ntYyCmbBh") = true) l ->
  format_year_month (fmt_of l) (YM (yr x) (mo x)) = format_ymd (fmt_of l) x.
Proof. intros C L. apply (part_same _ x (!"%ntYyCmbBh")); auto; [sub_tac|part_tac C]. Qed.
Lemma month_day_same l x : in_calendar x -> covered (fun c => memb c (!"%ntmbBhde") = true) l ->
  format_month_day (fmt_of l) (mo x) (dy x) = format_ymd (fmt_of l) x.
Proof. intros C L. apply (part_same _ x (!"%ntmbBhde")); auto; [sub_tac|part_tac C]. Qed.
Lemma extract_weekday_wd wd : 0 <= wd <= 6 -> extract_weekday (fields_wd wd) = Ok wd.
Proof.
  intros R. unfold extract_weekday. cbn [fields_wd f_ymd f_wd]. change (ymd_ok no_ymd) with false. cbn [negb andb].
  assert (weekday_ok wd = true) as -> by (apply Z.leb_le; lia). cbn [negb].
  rewrite weekday_diff_eq by lia. cbn [bind]. rewrite Z.sub_0_r, Z.mod_small by lia. now rewrite uns_id by lia.
Qed.
Lemma weekday_same l x wd : in_calendar x -> weekday_is x wd -> covered (fun c => memb c (!"%ntaAuw") = true) l ->
  format_weekday (fmt_of l) wd = format_ymd (fmt_of l) x.
Proof.
  intros C WD L. apply weekday_is_wdx in WD. subst wd.
  pose proof (extract_weekday_x x C (fields_ymd x) eq_refl eq_refl) as E1.
  pose proof (extract_weekday_wd (wdx x) (wdx_range x)) as E2.
  apply (part_same _ x (!"%ntaAuw")); auto; [sub_tac|].
  intros c M; memb_cases M; unfold directive; cbn [Ascii.eqb Bool.eqb NUL andb f_ymd fields_ymd fields_wd]; try reflexivity;
    fold (fields_ymd x); fold (fields_wd (wdx x)); change (Fields x no_wd no_tod false) with (fields_ymd x); rewrite E1, E2; reflexivity.
Qed.

(** * Durations *)
Definition duration_str (w : nat) (d : Z) (c : ascii) : str :=
  if Ascii.eqb c "j" then pad 3 (d / (86400 * ticks w))
  else if memb c (!"HMSTXRQIpr") then time_str w d c else date_str no_ymd c.
Lemma duration_str_text w d c : 0 <= d -> duration_directive w d c -> duration_text w d c (duration_str w d c).
Proof.
  intros D [M|[M|[-> M]]]; unfold duration_str.
  - memb_cases M; apply u_fixed; constructor.
  - assert (Ascii.eqb c "j" = false) as -> by (destruct M as [M|[M _]]; memb_cases M; reflexivity).
    destruct (time_directive_in w d c M) as (-> & _). apply u_time. now apply time_str_text.
  - cbn [Ascii.eqb Bool.eqb]. apply u_days. pose proof (ticks_pos w). apply pad_padded; [lia|]. apply Z.div_pos; [lia|].
    fold (ticks w). lia.
Qed.
Lemma duration_text_str w d c s : duration_text w d c s -> s = duration_str w d c.
Proof.
  intros [c' s' T|c' s' T|s' T]; unfold duration_str.
  - destruct T; reflexivity.
  - assert (Ascii.eqb c' "j" = false) as ->.
    { destruct T; try reflexivity. destruct H as [-> | ->]; reflexivity. }
    destruct (time_text_in _ _ _ _ T) as (-> & _). now apply time_text_str.
  - cbn [Ascii.eqb Bool.eqb]. apply padded_pad; [lia|exact T].
Qed.
Lemma format_duration_eq w d l : (w <= 12)%nat -> 0 <= d <= 9223372036854775807 -> covered (duration_directive w d) l ->
  format_duration w (fmt_of l) d = Ok (str_of (duration_str w d) l).
Proof.
  intros W D L. unfold format_duration. destruct (hms_of_eq w d W D) as [E1 E2]. rewrite E1. cbn [bind].
  unfold to_stream. cbn [fields_tod f_has f_tod]. rewrite E2. cbn [bind]. destruct (Z.ltb_spec d 0); [lia|].
  assert (NN : forall c, duration_directive w d c -> c <> NUL).
  { intros c [M|[M|[-> _]]] E; [subst c; discriminate| |discriminate]. subst c. destruct (time_directive_in _ _ _ M). discriminate. }
  rewrite (c_str_items _ NN l L).
  apply (run_items w _ _ _ (duration_directive w d)); [| |exact L].
  - intros c [M|[M|[-> M]]] NP.
    + memb_cases M; try (now destruct NP); split; reflexivity.
    + unfold duration_str. assert (Ascii.eqb c "j" = false) as -> by (destruct M as [M|[M _]]; memb_cases M; reflexivity).
      destruct (time_directive_in w d c M) as (E & _). rewrite E. split; [memb_cases E; reflexivity|].
      apply directive_time; auto.
    + split; [reflexivity|]. unfold directive, duration_str. cbn [Ascii.eqb Bool.eqb NUL fields_tod f_ymd f_has f_tod].
      change (ymd_ok no_ymd) with false. rewrite E2. cbn [bind]. pose proof (ticks_pos w).
      rewrite Z.quot_div_nonneg by lia. fold (ticks w) in M.
      assert (0 <= d / (86400 * ticks w)) by (apply Z.div_pos; lia).
      rewrite conv_int by lia. now rewrite put_right_pad by lia.
  - intros _. reflexivity.
Qed.

(** Negative durations *)
Lemma hms_of_neg w d : (w <= 12)%nat -> 0 < d <= 9223372036854775807 ->
  hms_of (ticks w) (- d) = Ok (HMS (hours_of w d) (minutes_of w d) (seconds_of w d) (d mod ticks w) true) /\
  hms_to_duration (ticks w) (HMS (hours_of w d) (minutes_of w d) (seconds_of w d) (d mod ticks w) true) = Ok (- d).
Proof.
  intros W D. pose proof (ticks_pos w) as K1. pose proof (ticks_le w 12 W) as K2. change (ticks 12) with 1000000000000 in K2.
  destruct (hms_props (ticks w) (- d) ltac:(lia) ltac:(lia)) as (t & E & H & M & S1 & SB & N & TOT & TD).
  assert (X : t = HMS (hours_of w d) (minutes_of w d) (seconds_of w d) (d mod ticks w) true).
  { unfold hours_of, minutes_of, seconds_of. fold (ticks w). set (k := ticks w) in *.
    rewrite Z.abs_opp, Z.abs_eq in TOT by lia.
    rewrite (Z.mul_comm 3600 k), (Z.mul_comm 60 k). rewrite <- !Z.div_div by lia.
    assert (Q : (h_ t * 60 + m_ t) * 60 + s_ t = d / k) by (apply (Z.div_unique d k _ (sub_ t)); lia).
    assert (R : sub_ t = d mod k) by (apply (Z.mod_unique d k ((h_ t * 60 + m_ t) * 60 + s_ t)); lia).
    destruct t as [h m s sub n]. cbn [h_ m_ s_ sub_ neg_] in *.
    assert (n = true) as -> by (rewrite N; apply Z.ltb_lt; lia). rewrite <- Q, <- R. f_equal; div_lia. }
  rewrite <- X. auto.
Qed.
Section Neg.
Context (w : nat) (d : Z) (W : (w <= 12)%nat) (D : 0 < d <= 9223372036854775807).
Let t : hms := HMS (hours_of w d) (minutes_of w d) (seconds_of w d) (d mod ticks w) true.
Lemma sec_put_neg : sec_put w t = sec_str w d.
Proof.
  assert (D0 : 0 <= d <= 9223372036854775807) by lia. exact (sec_put_str w d W D0).
Qed.
Lemma neg_directive neg c : memb c (!"HMS") = true ->
  directive w (fields_tod t) None None NUL neg c = Ok (minus neg ++ time_str w d c, false).
Proof.
  destruct (parts_range w d ltac:(lia)) as (H & M & SS & SB).
  intros A; memb_cases A; unfold directive; cbn [Ascii.eqb Bool.eqb NUL fields_tod f_tod f_has require bind].
  - cbn [t h_]. now rewrite put_two_pad by lia.
  - cbn [t m_]. now rewrite put_two_pad by lia.
  - now rewrite sec_put_neg.
Qed.
Lemma neg_directive_R neg : directive w (fields_tod t) None None NUL neg "R" = Ok (time_str w d "R", neg).
Proof.
  destruct (parts_range w d ltac:(lia)) as (H & M & SS & SB).
  unfold directive; cbn [Ascii.eqb Bool.eqb NUL fields_tod f_tod f_has require bind t h_ m_]. now rewrite !put_two_pad by lia.
Qed.
Lemma neg_directive_T neg c : c = "T"%char \/ c = "X"%char ->
  directive w (fields_tod t) None None NUL neg c = Ok ("-"%char :: clock_str w d, neg).
Proof.
  destruct (parts_range w d ltac:(lia)) as (H & M & SS & SB).
  intros [-> | ->]; unfold directive; cbn [Ascii.eqb Bool.eqb NUL fields_tod f_tod f_has require bind];
    unfold hms_put; rewrite sec_put_neg; cbn [t neg_ h_ m_ app]; now rewrite !put_two_pad by lia.
Qed.
Lemma format_neg fmt : format_duration w fmt (- d) = run w (fields_tod t) None None (c_str fmt) false NUL true.
Proof.
  unfold format_duration. destruct (hms_of_neg w d W D) as [E1 E2]. rewrite E1. cbn [bind].
  unfold to_stream. cbn [fields_tod f_has f_tod]. fold t in E2. fold t. rewrite E2. cbn [bind].
  destruct (Z.ltb_spec (- d) 0); [reflexivity|lia].
Qed.
Lemma neg_items l : covered (fun c => memb c (!"%ntHMSR") = true) l ->
  run w (fields_tod t) None None (fmt_of l) false NUL false = Ok (str_of (duration_str w d) l).
Proof.
  intros L. apply (run_items w _ _ _ (fun c => memb c (!"%ntHMSR") = true)); [| |exact L].
  - intros c M NP. memb_cases M; try (now destruct NP); (split; [reflexivity|]); try reflexivity;
      try (now apply neg_directive); apply neg_directive_R.
  - intros _. reflexivity.
Qed.
Lemma format_neg_first c l : memb c (!"HMS") = true -> covered (fun c => memb c (!"%ntHMSR") = true) l ->
  format_duration w (fmt_of (Dir c :: l)) (- d) = Ok ("-"%char :: str_of (duration_str w d) (Dir c :: l)).
Proof.
  intros M L. rewrite format_neg.
  assert (NN : forall c, memb c (!"%ntHMSR") = true -> c <> NUL) by (intros ? X ->; discriminate).
  assert (L' : covered (fun c => memb c (!"%ntHMSR") = true) (Dir c :: l)).
  { constructor; [memb_cases M; reflexivity|exact L]. }
  rewrite (c_str_items _ NN _ L'). unfold fmt_of, str_of. cbn [map concat show app item_str]. fold (fmt_of l).
  cbn [run]. change (memb "%" directives) with false. cbn [Ascii.eqb Bool.eqb orb].
  assert (memb c directives = true) as -> by (memb_cases M; reflexivity).
  rewrite neg_directive by exact M. cbn [bind minus]. rewrite (neg_items l L). cbn [bind app]. unfold str_of.
  assert (duration_str w d c = time_str w d c) as -> by (memb_cases M; reflexivity). reflexivity.
Qed.
Lemma format_neg_T c : c = "T"%char \/ c = "X"%char ->
  format_duration w ["%"%char; c] (- d) = Ok ("-"%char :: clock_str w d).
Proof.
  intros H. rewrite format_neg. destruct H as [-> | ->]; cbn [c_str Ascii.eqb Bool.eqb NUL]; unfold run;
    change (memb "%" directives) with false; cbn [Ascii.eqb Bool.eqb orb];
    [change (memb "T" directives) with true|change (memb "X" directives) with true]; rewrite neg_directive_T by auto;
    cbn [bind]; rewrite app_nil_r; reflexivity.
Qed.
Lemma format_neg_R : format_duration w (!"%R") (- d) = Ok (time_str w d "R").
Proof.
  rewrite format_neg. change (c_str (!"%R")) with (!"%R"). cbn [lit list_ascii_of_string]. unfold run;
    change (memb "%" directives) with false; cbn [Ascii.eqb Bool.eqb orb].
  change (memb "R" directives) with true. rewrite neg_directive_R. cbn [bind]. now rewrite app_nil_r.
Qed.
End Neg.
