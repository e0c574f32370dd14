(** C77 and C78: what was formatted can be parsed. *)
From Verif Require Import Base IntModel DateModel DateSpec DateProofs DateProofs2 FmtModel FmtSpec FmtProofs2 FmtProofs3 FmtProofs4 FmtProofs5 ParModel ParSpec ParProofs3 ParProofs4 ParProofs5.
Local Open Scope Z_scope.
Local Open Scope outcome_scope.
Local Open Scope char_scope.

(** * C77 *)
Theorem C77_date x l : in_calendar x -> 0 <= yr x <= 9999 -> covered (fun c => memb c date_in = true) l -> apart l ->
  determines l x -> exists s, format_ymd (fmt_of l) x = Ok s /\ parse_ymd (fmt_of l) s = Ok x.
Proof. intros C Y L A D. exists (str_of (date_str x) l). now apply parse_ymd_back. Qed.
(** So a format that determines the date gives different texts for different dates *)
Theorem C77_injective x y l s : in_calendar x -> 0 <= yr x <= 9999 -> in_calendar y -> 0 <= yr y <= 9999 ->
  covered (fun c => memb c date_in = true) l -> apart l -> determines l x -> determines l y ->
  format_ymd (fmt_of l) x = Ok s -> format_ymd (fmt_of l) y = Ok s -> x = y.
Proof.
  intros C Y C' Y' L A D D' E E'. destruct (C77_date x l C Y L A D) as (t & F & P). destruct (C77_date y l C' Y' L A D') as (t' & F' & P').
  congruence.
Qed.
(** "%G week %V, %A, day %j (%d %h '%y)" *)
Definition long_format : list item :=
  [Dir "G"; Lit " "; Lit "w"; Dir "V"; Lit ","; Lit " "; Dir "A"; Lit ","; Dir "j"; Lit "("; Dir "d"; Dir "h"; Lit "'"; Dir "y"; Lit ")"].
Example C77_example :
  (format_ymd (fmt_of long_format) (YMD 2021 1 2) = Ok (!"2020 w53, Saturday,002(02Jan'21)") /\
   parse_ymd (fmt_of long_format) (!"2020 w53, Saturday,002(02Jan'21)") = Ok (YMD 2021 1 2)) /\
  (in_calendar (YMD 2021 1 2) /\ covered (fun c => memb c date_in = true) long_format /\ apart long_format /\
   determines long_format (YMD 2021 1 2)).
Proof.
  split; [vm_compute; auto|]. split; [|split; [|split]].
  - split; [vm_compute; intuition discriminate|]. apply exists_date_spec. vm_compute. intuition discriminate.
  - unfold covered, long_format. repeat constructor; discriminate.
  - unfold long_format. cbn [apart]. repeat split; try discriminate. intros _. unfold letter. vm_compute. intuition discriminate.
  - assert (H : forall c, In (Dir c) long_format -> forall cs, memb c cs = true -> has long_format cs) by (intros c I cs M; exists c; auto).
    split.
    + intros _. right; right. cbn [yr]. lia.
    + right. split; [apply (H "G")|split; [apply (H "V")|apply (H "A")]]; try reflexivity; unfold long_format; cbn [In]; tauto.
Qed.
(** The hypotheses are needed: *)
(** %Y is read with at most four digits *)
Example C77_long_year_finding :
  format_ymd (!"%F") (YMD 12345 6 7) = Ok (!"12345-06-07") /\ parse_ymd (!"%F") (!"12345-06-07") = broken.
Proof. vm_compute. auto. Qed.
(** %e pads with a space that it cannot read *)
Example C77_space_padding_finding :
  format_ymd (!"%Y-%m-%e") (YMD 2021 6 7) = Ok (!"2021-06- 7") /\ parse_ymd (!"%Y-%m-%e") (!"2021-06- 7") = broken.
Proof. vm_compute. auto. Qed.
(** An abbreviated weekday followed by its own ending is read as the full name *)
Example C77_ambiguous_name_finding :
  format_ymd (!"%F %aday") (YMD 2021 6 6) = Ok (!"2021-06-06 Sunday") /\ parse_ymd (!"%F %aday") (!"2021-06-06 Sunday") = broken.
Proof. vm_compute. auto. Qed.
(** Two digits of a year before 1969 belong to the wrong century *)
Example C77_century_finding :
  format_ymd (!"%D") (YMD 1950 6 7) = Ok (!"06/07/50") /\ parse_ymd (!"%D") (!"06/07/50") = Ok (YMD 2050 6 7).
Proof. vm_compute. auto. Qed.
(** %y and %g use the same century, which is wrong at the turn of a century *)
Example C77_two_short_years_finding :
  format_ymd (!"%D %g") (YMD 2000 1 1) = Ok (!"01/01/00 99") /\ parse_ymd (!"%D %g") (!"01/01/00 99") = broken.
Proof. vm_compute. auto. Qed.

(** * C78 *)
Lemma time_point_facts w tp x : (w <= 12)%nat ->
  day_number x (tp / (86400 * 10 ^ Z.of_nat w)) -> 0 <= yr x <= 9999 ->
  in_calendar x /\ tp / (86400 * ticks w) = num x /\ first_day_number <= num x <= last_day_number /\
  0 <= tp mod (86400 * ticks w) < 86400 * ticks w /\ tp = num x * (86400 * ticks w) + tp mod (86400 * ticks w) /\
  date_of (num x) = x.
Proof.
  intros W X Y. fold (ticks w) in X. pose proof (ticks_pos w). pose proof (day_number_exists _ _ X) as E.
  assert (C : in_calendar x) by (split; [unfold year_in_range; lia|exact E]). pose proof (day_number_num _ _ X) as N.
  split; [exact C|]. split; [exact N|]. split. { pose proof (numb x C Y). unfold first_day_number, last_day_number. lia. }
  split; [apply Z.mod_pos_bound; lia|]. split; [|now apply date_of_num]. rewrite <- N. rewrite Z.mul_comm. apply Z.div_mod. lia.
Qed.
Theorem C78_local w tp l : (w <= 12)%nat -> -9223372036854775808 <= tp <= 9223372036854775807 ->
  let day := tp / (86400 * 10 ^ Z.of_nat w) in
  -9223372036854775808 <= day * (86400 * 10 ^ Z.of_nat w) ->
  forall x, day_number x day -> 0 <= yr x <= 9999 ->
  covered (fun c => memb c (date_in ++ time_in) = true) l -> apart l -> determines l x -> determines_time l ->
  exists s, format_local w (fmt_of l) tp = Ok s /\ parse_local w (fmt_of l) s = Ok tp.
Proof.
  intros W T day B x X Y L A DT TT. destruct (time_point_facts w tp x W X Y) as (C & N & NB & TB & TE & DX).
  fold (ticks w) in *. set (time := tp mod (86400 * ticks w)) in *. pose proof (ticks_pos w) as K. pose proof (ticks_le w 12 W) as K2. change (ticks 12) with 1000000000000 in K2.
  assert (F : Forall ok_item l) by (refine (covered_ok _ _ _ L); intros c M; memb_cases M; reflexivity).
  assert (E : str_of (moment_str w x time) l = text w x time l).
  { unfold text. apply (str_of_ext _ _ _ l L). intros c M. unfold sys_str.
    assert (Q : Ascii.eqb c "z" = false /\ Ascii.eqb c "Z" = false) by (memb_cases M; split; reflexivity).
    destruct Q as (-> & ->). reflexivity. }
  exists (text w x time l). split.
  - unfold format_local. rewrite split_time_eq by (try assumption; rewrite N; exact NB). cbn [bind]. rewrite N, DX. fold time. rewrite <- E.
    apply to_stream_moment; auto; [lia|]. refine (covered_mono _ _ _ _ L). intros c M.
    assert (Q : memb c date_in = true \/ memb c (!"HMSTXR") = true \/ memb c (!"Ip") = true) by (memb_cases M; cbn; tauto).
    destruct Q as [Q|Q]; [left; now apply date_in_directive|]. right; left. destruct Q as [Q|Q]; [left; memb_cases Q; reflexivity|right].
    split; [memb_cases Q; reflexivity|]. now apply hours_24.
  - transitivity (Ok (num x * (86400 * ticks w) + time)); [|f_equal; symmetry; exact TE]. unfold day in B. rewrite N in B. apply parse_local_back; try assumption; lia.
Qed.
Theorem C78_sys w tp l : (w <= 12)%nat -> -9223372036854775808 <= tp <= 9223372036854775807 ->
  let day := tp / (86400 * 10 ^ Z.of_nat w) in
  -9223372036854775808 <= day * (86400 * 10 ^ Z.of_nat w) ->
  forall x, day_number x day -> 0 <= yr x <= 9999 ->
  covered (fun c => memb c (date_in ++ time_in ++ !"z") = true) l -> apart l -> determines l x -> determines_time l ->
  exists s, format_sys w (fmt_of l) tp = Ok s /\ parse_sys w (fmt_of l) s = Ok tp.
Proof.
  intros W T day B x X Y L A DT TT. destruct (time_point_facts w tp x W X Y) as (C & N & NB & TB & TE & DX).
  fold (ticks w) in *. set (time := tp mod (86400 * ticks w)) in *. pose proof (ticks_pos w) as K. pose proof (ticks_le w 12 W) as K2. change (ticks 12) with 1000000000000 in K2.
  assert (F : Forall ok_item l) by (refine (covered_ok _ _ _ L); intros c M; memb_cases M; reflexivity).
  exists (text w x time l). split.
  - unfold format_sys. rewrite split_time_eq by (try assumption; rewrite N; exact NB). cbn [bind]. rewrite N, DX. fold time.
    apply to_stream_sys; auto; [lia|]. refine (covered_mono _ _ _ _ L). intros c M.
    assert (Q : memb c date_in = true \/ memb c (!"HMSTXR") = true \/ memb c (!"Ip") = true \/ c = "z") by (memb_cases M; cbn; tauto).
    destruct Q as [Q|Q]; [left; left; now apply date_in_directive|]. destruct Q as [Q|[Q|Q]]; [left; right; left; left; memb_cases Q; reflexivity| |right; now left].
    left; right; left; right. split; [memb_cases Q; reflexivity|]. now apply hours_24.
  - transitivity (Ok (num x * (86400 * ticks w) + time)); [|f_equal; symmetry; exact TE]. unfold day in B. rewrite N in B. apply parse_sys_back; try assumption; lia.
Qed.
(** Durations below 100 hours; %I and %p need less than a day *)
Theorem C78_duration w d l : (w <= 12)%nat -> 0 <= d < 360000 * 10 ^ Z.of_nat w ->
  covered (fun c => memb c (!"%" ++ time_in) = true) l -> (has l (!"Ip") -> d < 86400 * 10 ^ Z.of_nat w) -> determines_time l ->
  exists s, format_duration w (fmt_of l) d = Ok s /\ parse_duration w (fmt_of l) s = Ok d.
Proof. intros W D L IP T. eexists. now apply parse_duration_back. Qed.

(** "%T,%Y w%U %a" of a time point with nanoseconds *)
Definition nano_format : list item := [Dir "T"; Lit ","; Dir "Y"; Lit " "; Lit "w"; Dir "U"; Lit " "; Dir "a"].
Example C78_example :
  format_sys 9 (fmt_of nano_format) 1234567890123456789 = Ok (!"23:31:30.123456789,2009 w06 Fri") /\
  parse_sys 9 (fmt_of nano_format) (!"23:31:30.123456789,2009 w06 Fri") = Ok 1234567890123456789 /\
  format_local 3 (!"%F %I:%M:%S %p") (-1) = Ok (!"1969-12-31 11:59:59.999 PM") /\
  parse_local 3 (!"%F %I:%M:%S %p") (!"1969-12-31 11:59:59.999 PM") = Ok (-1) /\
  format_duration 3 (!"%T") 359999999 = Ok (!"99:59:59.999") /\ parse_duration 3 (!"%T") (!"99:59:59.999") = Ok 359999999.
Proof. vm_compute. auto 10. Qed.
Example C78_hypotheses : let tp := 1234567890123456789 in let day := tp / (86400 * 10 ^ 9) in
  day_number (YMD 2009 2 13) day /\ -9223372036854775808 <= day * (86400 * 10 ^ 9) /\
  covered (fun c => memb c (date_in ++ time_in) = true) nano_format /\ apart nano_format /\
  determines nano_format (YMD 2009 2 13) /\ determines_time nano_format.
Proof.
  cbv zeta. assert (H : forall c, In (Dir c) nano_format -> forall cs, memb c cs = true -> has nano_format cs) by (intros c I cs M; exists c; auto).
  split; [|split; [vm_compute; discriminate|]].
  - change (1234567890123456789 / (86400 * 10 ^ 9)) with (num (YMD 2009 2 13)). apply num_day_number. apply exists_date_spec. vm_compute. intuition discriminate.
  - split; [unfold covered, nano_format; repeat constructor; discriminate|]. split; [unfold nano_format; cbn [apart]; repeat split; discriminate|]. split.
    + split. { intros _. left. apply (H "Y"); [unfold nano_format; cbn [In]; tauto|reflexivity]. }
      left. split; [left; apply (H "Y"); [unfold nano_format; cbn [In]; tauto|reflexivity]|]. right; right.
      split; [apply (H "U")|apply (H "a")]; try reflexivity; unfold nano_format; cbn [In]; tauto.
    + split; [left; apply (H "T"); [unfold nano_format; cbn [In]; tauto|reflexivity]|]. split.
      { intros (c & I & M). exfalso. unfold nano_format in I. cbn [In] in I. memb_cases M. intuition discriminate. }
      split; apply (H "T"); try reflexivity; unfold nano_format; cbn [In]; tauto.
Qed.
(** The hypotheses are needed: *)
Example C78_negative_duration_finding :
  format_duration 0 (!"%T") (-3600) = Ok (!"-01:00:00") /\ parse_duration 0 (!"%T") (!"-01:00:00") = broken.
Proof. vm_compute. auto. Qed.
Example C78_long_duration_finding :
  format_duration 0 (!"%T") 360000 = Ok (!"100:00:00") /\ parse_duration 0 (!"%T") (!"100:00:00") = broken.
Proof. vm_compute. auto. Qed.
(** %j of a duration is its days, and %T contains them once more *)
Example C78_days_finding :
  format_duration 0 (!"%j %T") 90000 = Ok (!"001 25:00:00") /\ parse_duration 0 (!"%j %T") (!"001 25:00:00") = Ok 176400.
Proof. vm_compute. auto. Qed.
(** %H and %I without %p contradict each other in the afternoon *)
Example C78_hour_finding :
  format_local 0 (!"%F %T %I") 50000 = Ok (!"1970-01-01 13:53:20 01") /\
  parse_local 0 (!"%F %T %I") (!"1970-01-01 13:53:20 01") = broken.
Proof. vm_compute. auto. Qed.
