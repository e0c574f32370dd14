(** C89: which texts are accepted for a time point. *)
From Verif Require Import Base IntModel ToNumModel DateModel DateSpec DateProofs DateProofs2 FmtModel FmtSpec FmtProofs FmtProofs2 FmtProofs3 FmtProofs4 ParModel ParSpec ParProofs1 ParProofs2 ParProofs6 ParProofs7 ParProofs8 ParProofs9 ParProofs10 ParTimeProofs1 ParProofs11 ParProofs12 ParTimeProofs2 ParProps2 ParProps3.
Local Open Scope Z_scope.
Local Open Scope outcome_scope.
Local Open Scope char_scope.

Lemma arith_inv z y : arith llong_t z = Ok y -> y = z.
Proof. unfold arith. change (sgn llong_t) with true. cbv iota. destruct (in_rangeb _ _); congruence. Qed.
Lemma uses_val w v l ts cs f (Q : Z -> Prop) : Forall2 (told w v) l ts -> (forall c t L, memb c cs = true -> facts w c t L -> exists n, In (f, n) L /\ n <> nav f /\ Q n) -> uses l cs = true -> Q (v f) /\ v f <> nav f.
Proof.
  intros F H. induction F as [|i t l ts T F IH]; cbn [uses existsb]; [discriminate|]. rewrite orb_true_iff. intros [U|U]; [|now apply IH].
  destruct i as [c|c]; [discriminate|]. destruct T as (L & FA & SA). destruct (H c t L U FA) as (n & I & N & QN). unfold said in SA. rewrite Forall_forall in SA. destruct (SA _ I) as [E|E]; cbn [fst snd] in E; [|congruence]. split; congruence.
Qed.
Lemma forall2_in (R R' : item -> str -> Prop) l ts : (forall i t, In i l -> R i t -> R' i t) -> Forall2 R l ts -> Forall2 R' l ts.
Proof.
  intros H F. induction F as [|i t l ts A F IH]; [constructor|]. constructor; [apply H; [now left|exact A]|]. apply IH. intros i' t' I. apply H. now right.
Qed.
Lemma uses_in l c cs : In (Dir c) l -> memb c cs = true -> uses l cs = true.
Proof. intros I M. unfold uses. apply existsb_exists. exists (Dir c). auto. Qed.
Lemma ampm i k u : 0 <= i -> nth_error ampm_names (Z.to_nat i) = Some k -> same_word u k -> (i = 0 /\ same_word u (!"AM")) \/ (i = 1 /\ same_word u (!"PM")).
Proof.
  intros P H S. assert (L : (Z.to_nat i < 2)%nat) by (apply (nth_error_Some ampm_names); congruence).
  assert (i = 0 \/ i = 1) as [->| ->] by lia; injection H as <-; auto.
Qed.
(** The time of day [d] agrees with the variables *)
Record tells (w : nat) (v : vals) (d : Z) : Prop := Tells {
  t_H : v FH <> nav FH -> hours_of w d = v FH;
  t_I : v FI <> 0 -> hour12 (v FI) (hours_of w d);
  t_p : v FI <> 0 -> v Fp <> -1 -> (hours_of w d <? 12)%Z = (v Fp =? 0)%Z;
  t_M : v FM <> nav FM -> minutes_of w d = v FM;
  t_S : v Fs <> nav Fs -> ticks_of w d = v Fs;
  t_H0 : v FH = nav FH -> v FI = 0 -> hours_of w d = 0;
  t_M0 : v FM = nav FM -> minutes_of w d = 0;
  t_S0 : v Fs = nav Fs -> ticks_of w d = 0 }.
Lemma half d w v i u : 0 <= i <= 1 -> tells w v d -> v FI <> 0 -> v Fp = i -> (i = 0 /\ same_word u (!"AM")) \/ (i = 1 /\ same_word u (!"PM")) -> half_day (hours_of w d) u.
Proof.
  intros B T NI E HU. unfold half_day. rewrite (t_p _ _ _ T NI) by lia. rewrite E. destruct HU as [[-> HU]|[-> HU]]; exact HU.
Qed.
Lemma tfacts_given w v d c t L : (w <= 7)%nat -> tells w v d -> (c = "p" -> v FI <> 0) -> tfacts w c t L -> said v L -> time_given w d c t.
Proof.
  intros W T CP F S. destruct F; repeat match goal with H : said v (_ :: _) |- _ => apply said_one in H; let A := fresh "A" in destruct H as [A H] end;
  repeat match goal with H : seconds_text w ?q _ |- _ => lazymatch goal with _ : 0 <= q <= _ |- _ => fail | _ => pose proof (seconds_range w q _ W H) end end;
  repeat match goal with H : digits_up_to 2 ?n _ |- _ => lazymatch goal with _ : 0 <= n <= 99 |- _ => fail | _ => pose proof (dig_2 n _ H) end end;
  repeat match goal with H : ?n <> nav ?f -> _ |- _ => first [specialize (H ltac:(cbn [nav]; lia)) | let H' := fresh "Z" in rename H into H'; fail] end.
  - apply g_H. rewrite (t_H _ _ _ T) by (rewrite A; cbn [nav]; lia). now rewrite A.
  - apply (g_I w d t z H). rewrite <- A. apply (t_I _ _ _ T). lia.
  - apply g_p. destruct (ampm i k t H H0 H1) as [[E U]|[E U]]; apply (half d w v i); auto; lia.
  - apply g_M. rewrite (t_M _ _ _ T) by (rewrite A; cbn [nav]; lia). now rewrite A.
  - apply g_S. rewrite (t_S _ _ _ T) by (rewrite A; cbn [nav]; lia). now rewrite A.
  - apply g_R; [rewrite (t_H _ _ _ T) by (rewrite A; cbn [nav]; lia)|rewrite (t_M _ _ _ T) by (rewrite A0; cbn [nav]; lia)]; congruence.
  - apply g_T; auto; [rewrite (t_H _ _ _ T) by (rewrite A; cbn [nav]; lia)|rewrite (t_M _ _ _ T) by (rewrite A0; cbn [nav]; lia)|rewrite (t_S _ _ _ T) by (rewrite A1; cbn [nav]; lia)]; congruence.
  - assert (AMPM := ampm i k u H3 H4 H5). apply (g_r w d h m t bl u a); auto.
    + rewrite (t_M _ _ _ T) by (rewrite A0; cbn [nav]; lia). congruence.
    + rewrite (t_S _ _ _ T) by (rewrite A1; cbn [nav]; lia). congruence.
    + tauto.
    + destruct (Z.eq_dec a 0) as [E|E]; [now left|right]. specialize (A E). split; [rewrite <- A; apply (t_I _ _ _ T); lia|]. destruct AMPM as [[E1 U]|[E1 U]]; apply (half d w v i); auto; lia.
Qed.
(** The date and the time of a text that was accepted *)
Lemma moment_core w l s r : (w <= 7)%nat -> covered (fun c => memb c moment_in = true) l -> compared l -> compared_time l ->
  from_stream w (fmt_of l) tod_fields (stream s) = Ok r -> ymd_ok (f_ymd (r_fields r)) = true -> conventional w (f_tod (r_fields r)) = true ->
  exists g d ts o, o = (if (r_off r =? nav Foff)%Z then 0 else r_off r) /\ in_calendar (f_ymd (r_fields r)) /\ hms_to_duration (ticks w) (f_tod (r_fields r)) = Ok d /\ 0 <= d < 86400 * ticks w /\
    (iso_given l = true \/ exists k, iso_week (f_ymd (r_fields r)) g k) /\ s = concat ts ++ rest (r_is r) /\ Forall2 (moment w (f_ymd (r_fields r)) g d o) l ts /\ rest_zero w d o l.
Proof.
  intros W C P PT FS OK CO. destruct (stream_reads w W l tod_fields s r C FS) as (v & ts & NV & Q & E & F & wd & j & RD & RO & h & RH & RT).
  destruct (date_core w l ts v _ wd j P NV Q F RD OK) as (g & A & G).
  rewrite (j_none v _ wd j RD OK) in RT. cbn [tod_fields f_tod f_has] in RT.
  assert (V := nums_vok v NV). assert (HS := hour_sound (no_off v) h V RH). change (no_off v FI) with (v FI) in HS. change (no_off v FH) with (v FH) in HS. change (no_off v Fp) with (v Fp) in HS. destruct HS as [H0 H1]. pose proof (V FH : v FH = nav FH \/ rng FH (v FH)) as VH. pose proof (V FM : v FM = nav FM \/ rng FM (v FM)) as VM. cbn [rng] in VH, VM.
  assert (SR : v Fs = nav Fs \/ 0 <= v Fs <= 1000000000000000000).
  { destruct (NV Fs) as [E0|[(_ & E0 & E1)|[E0 _]]]; [now left|right; cbn [rng] in E0; specialize (E1 eq_refl); lia|discriminate E0]. }
  assert (HR : h = nav FH \/ 0 <= h <= 99).
  { destruct (Z.eq_dec (v FI) 0) as [E0|N0]; [rewrite (H0 E0); exact VH|right; now apply H1]. }
  destruct (tod_sound w v h _ _ _ W HR VM SR RT) as [TE _]. rewrite TE in CO |- *.
  assert (B1 : 0 <= or0 (nav FH) h) by (unfold or0; destruct (Z.eqb_spec h (nav FH)); [lia|tauto || lia]).
  assert (B2 : 0 <= or0 (nav FM) (v FM)) by (unfold or0; destruct (Z.eqb_spec (v FM) (nav FM)); [lia|tauto || lia]).
  assert (B3 : 0 <= or0 (nav Fs) (v Fs)) by (unfold or0; destruct (Z.eqb_spec (v Fs) (nav Fs)); [lia|tauto || lia]).
  destruct (tod_day w _ _ _ W B1 B2 B3 CO) as (TD & DR & DH & DM & DS). set (d := (or0 (nav FH) h * 3600 + or0 (nav FM) (v FM) * 60) * ticks w + or0 (nav Fs) (v Fs)) in *. clearbody d.
  assert (O1 : forall n z, z <> n -> or0 n z = z) by (intros n z N; unfold or0; destruct (Z.eqb_spec z n); [contradiction|reflexivity]).
  assert (O2 : forall n, or0 n n = 0) by (intros n; unfold or0; now rewrite Z.eqb_refl).
  assert (HI : v FI <> 0 -> or0 (nav FH) h = h) by (intros N; apply O1; destruct (H1 N) as (_ & B & _); cbn [nav]; lia).
  assert (TL : tells w v d).
  { constructor; rewrite ?DH, ?DM, ?DS.
    - intros N. destruct (Z.eq_dec (v FI) 0) as [E0|N0]; [rewrite (H0 E0); now apply O1|]. rewrite (HI N0). now apply H1.
    - intros N. rewrite (HI N). now apply H1.
    - intros N. rewrite (HI N). now apply H1.
    - apply O1.
    - apply O1.
    - intros E1 E0. rewrite (H0 E0), E1. apply O2.
    - intros ->. apply O2.
    - intros ->. apply O2. }
  exists g, d, ts, (if (r_off r =? nav Foff)%Z then 0 else r_off r). split; [reflexivity|]. rewrite RO. split; [apply A|]. split; [exact TD|]. split; [exact DR|]. split; [exact G|]. split; [exact E|]. split.
  - apply (forall2_in (told w v)); [|exact F]. intros [c|c] t I T; [left; exact T|]. destruct T as (L & FA & SA).
    destruct (facts_given w v _ g c t L A FA SA) as [GV|[TF|[(-> & o & -> & OT)|(-> & ta & b1 & tb & b2 & td & b3 & tc & b4 & ty & Lc & -> & BW & GA & GB & GD & [TF SC] & GY)]]]; [left; exact GV|right; left|right; right; left|right; right; right].
    2:{ split; [reflexivity|]. apply said_one in SA. destruct SA as [SA _]. pose proof (offset_range w W o t OT) as OR. specialize (SA ltac:(cbn [nav]; lia)). rewrite SA. destruct (Z.eqb_spec o (nav Foff)) as [X|_]; [cbn [nav] in X; lia|exact OT]. }
    2:{ split; [reflexivity|]. exists ta, b1, tb, b2, td, b3, tc, b4, ty. split; [reflexivity|]. split; [exact BW|]. do 3 (split; [assumption|]). split; [|exact GY]. apply (tfacts_given w v d "T" tc Lc W TL); auto. discriminate. }
    exists c. split; [reflexivity|]. apply (tfacts_given w v d c t L W TL); auto. intros ->. assert (UI := PT (uses_in l "p" (!"p") I eq_refl)).
    apply (uses_val w v l ts (!"I") FI (fun _ => True) F); [|exact UI]. clear. intros c t L M FA. memb_cases M. inversion FA; subst; try discriminate; try match goal with H : _ = _ \/ _ = _ |- _ => destruct H; discriminate end.
    match goal with H : tfacts _ _ _ _ |- _ => inversion H; subst; try match goal with H : _ = _ \/ _ = _ |- _ => destruct H; discriminate end end. eexists. split; [now left|]. cbn [nav]. lia.
  - assert (N : forall f cs, (forall c, memb c (setters f) = true -> memb c cs = true) -> uses l cs = false -> v f = nav f).
    { intros f cs M U. apply (Q f). destruct (uses l (setters f)) eqn:US; [|reflexivity]. unfold uses in US. apply existsb_exists in US. destruct US as (i & I & US). destruct i as [c|c]; [discriminate|]. rewrite (uses_in l c cs I (M c US)) in U. discriminate. }
    split; [|split; [|split]]; intros U.
    + apply (t_H0 _ _ _ TL); [apply (N FH (!"HIRTXrc") ltac:(clear; intros c M; memb_cases M; reflexivity) U)|apply (N FI (!"HIRTXrc") ltac:(clear; intros c M; memb_cases M; reflexivity) U)].
    + apply (t_M0 _ _ _ TL), (N FM (!"MRTXrc") ltac:(clear; intros c M; memb_cases M; reflexivity) U).
    + apply (t_S0 _ _ _ TL), (N Fs (!"STXrc") ltac:(clear; intros c M; memb_cases M; reflexivity) U).
    + rewrite (N Foff (!"z") (fun c M => M) U). reflexivity.
Qed.
(** If a time point is parsed, then it is a moment of an existing date, and the beginning of the text
    consists of one piece for each part of the format, each of which says the truth about that date
    and time of day.  Seconds are rounded to a nearest tick.  Parts of the time of day that the
    format does not mention are zero.  The difference [o] to UTC is ignored for a local time, and
    subtracted for a system time. *)
Theorem C89_local w l s tp : (w <= 7)%nat -> covered (fun c => memb c moment_in = true) l -> compared l -> compared_time l -> parse_local w (fmt_of l) s = Ok tp ->
  exists x n d g o ts r, in_calendar x /\ day_number x n /\ 0 <= d < 86400 * 10 ^ Z.of_nat w /\ tp = n * (86400 * 10 ^ Z.of_nat w) + d /\
    (iso_given l = true \/ exists k, iso_week x g k) /\ s = concat ts ++ r /\ Forall2 (moment w x g d o) l ts /\ rest_zero w d o l.
Proof.
  intros W C P PT H. unfold parse_local in H. destruct (from_stream w (fmt_of l) tod_fields (stream s)) as [r| | |] eqn:FS; try discriminate. cbn [bind] in H. cbv zeta in H.
  destruct (ymd_ok (f_ymd (r_fields r)) && conventional w (f_tod (r_fields r))) eqn:OK; [|discriminate]. apply andb_prop in OK. destruct OK as [OK CO]. cbn [require bind] in H.
  destruct (moment_core w l s r W C P PT FS OK CO) as (g & d & ts & o & EO & IC & TD & DR & G & E & F & RZ). rewrite to_days_ok in H by exact IC. cbn [bind] in H. rewrite TD in H. cbn [bind] in H.
  destruct (arith llong_t (_ * _)) as [b| | |] eqn:AB; try discriminate. cbn [bind] in H. apply arith_inv in AB. apply arith_inv in H.
  exists (f_ymd (r_fields r)), (num (f_ymd (r_fields r))), d, g, o, ts, (rest (r_is r)). fold (ticks w). split; [exact IC|]. split; [apply num_day_number; apply IC|]. split; [exact DR|]. split; [unfold num; lia|]. auto.
Qed.
Theorem C89_sys w l s tp : (w <= 7)%nat -> covered (fun c => memb c moment_in = true) l -> compared l -> compared_time l -> parse_sys w (fmt_of l) s = Ok tp ->
  exists x n d g o ts r, in_calendar x /\ day_number x n /\ 0 <= d < 86400 * 10 ^ Z.of_nat w /\ tp = n * (86400 * 10 ^ Z.of_nat w) + d - o * (60 * 10 ^ Z.of_nat w) /\
    (iso_given l = true \/ exists k, iso_week x g k) /\ s = concat ts ++ r /\ Forall2 (moment w x g d o) l ts /\ rest_zero w d o l.
Proof.
  intros W C P PT H. unfold parse_sys in H. destruct (from_stream w (fmt_of l) tod_fields (stream s)) as [r| | |] eqn:FS; try discriminate. cbn [bind] in H. cbv zeta in H.
  destruct (ymd_ok (f_ymd (r_fields r)) && conventional w (f_tod (r_fields r))) eqn:OK; [|discriminate]. apply andb_prop in OK. destruct OK as [OK CO]. cbn [require bind] in H.
  destruct (moment_core w l s r W C P PT FS OK CO) as (g & d & ts & o & EO & IC & TD & DR & G & E & F & RZ). rewrite to_days_ok in H by exact IC. cbn [bind] in H. rewrite <- EO, TD in H.
  destruct (arith llong_t (_ * 1440)) as [b1| | |] eqn:A1; try discriminate. cbn [bind] in H. apply arith_inv in A1.
  destruct (arith llong_t (b1 - o)) as [b2| | |] eqn:A2; try discriminate. cbn [bind] in H. apply arith_inv in A2.
  destruct (arith llong_t (b2 * _)) as [b| | |] eqn:AB; try discriminate. cbn [bind] in H. apply arith_inv in AB. apply arith_inv in H.
  exists (f_ymd (r_fields r)), (num (f_ymd (r_fields r))), d, g, o, ts, (rest (r_is r)). fold (ticks w). split; [exact IC|]. split; [apply num_day_number; apply IC|]. split; [exact DR|]. split; [unfold num; nia|]. auto.
Qed.
(** A text that is true of no moment is rejected *)
Theorem C89_contradiction w l s : (w <= 7)%nat -> covered (fun c => memb c moment_in = true) l -> compared l -> compared_time l -> uses l (!"z") = false ->
  (forall x g d ts r, in_calendar x -> 0 <= d < 86400 * 10 ^ Z.of_nat w -> iso_given l = true \/ (exists k, iso_week x g k) -> rest_zero w d 0 l -> s = concat ts ++ r -> ~ Forall2 (moment w x g d 0) l ts) ->
  parse_local w (fmt_of l) s = Throw RuntimeError /\ parse_sys w (fmt_of l) s = Throw RuntimeError.
Proof.
  intros W C P PT NZ H. split.
  - destruct (C80_local_time w (fmt_of l) s W (plain_sound l C NZ)) as [(tp & E & _)|E]; [|exact E]. exfalso.
    destruct (C89_local w l s tp W C P PT E) as (x & n & d & g & o & ts & r & IC & _ & DR & _ & G & S & F & RZ). assert (o = 0) as -> by (now apply RZ). exact (H x g d ts r IC DR G RZ S F).
  - destruct (C80_sys_time w (fmt_of l) s W (plain_sound l C NZ)) as [(tp & E & _)|E]; [|exact E]. exfalso.
    destruct (C89_sys w l s tp W C P PT E) as (x & n & d & g & o & ts & r & IC & _ & DR & _ & G & S & F & RZ). assert (o = 0) as -> by (now apply RZ). exact (H x g d ts r IC DR G RZ S F).
Qed.
(** Durations: there is no upper limit but the two digits *)
Theorem C89_duration w l s d : (w <= 7)%nat -> covered (fun c => memb c span_in = true) l -> parse_duration w (fmt_of l) s = Ok d ->
  exists h m q ts r, 0 <= h <= 99 /\ 0 <= m <= 99 /\ 0 <= q /\ d = (h * 3600 + m * 60) * 10 ^ Z.of_nat w + q /\ s = concat ts ++ r /\ Forall2 (span_piece w h m q) l ts /\
    (uses l (!"HRTX") = false -> h = 0) /\ (uses l (!"MRTX") = false -> m = 0) /\ (uses l (!"STX") = false -> q = 0) /\ uses l (!"HMSRTX") = true.
Proof.
  intros W C H. unfold parse_duration in H. destruct (from_stream w (fmt_of l) no_fields (stream s)) as [r| | |] eqn:FS; try discriminate. cbn [bind] in H. cbv zeta in H.
  destruct (f_has (r_fields r)) eqn:HAS; [|discriminate]. cbn [require bind] in H.
  assert (CM : covered (fun c => memb c moment_in = true) l) by (apply (covered_mono (fun c => memb c span_in = true)); [|exact C]; intros c M; memb_cases M; reflexivity).
  destruct (stream_reads w W l no_fields s r CM FS) as (v & ts & NV & Q & E & F & wd & j & RD & RO & h & RH & RT). rewrite HAS in RT.
  assert (N : forall f, (forall c, memb c (setters f) = true -> memb c span_in = false) -> v f = nav f).
  { intros f M. apply (Q f). destruct (uses l (setters f)) eqn:US; [|reflexivity]. unfold uses in US. apply existsb_exists in US. destruct US as (i & I & US). destruct i as [c|c]; [discriminate|].
    unfold covered in C. rewrite Forall_forall in C. pose proof (C _ I) as CC. cbv beta iota in CC. rewrite (M c US) in CC. discriminate. }
  assert (NJ := N Fj ltac:(clear; intros c M; memb_cases M; reflexivity)). assert (NI : v FI = 0) by (apply (N FI); clear; intros c M; memb_cases M; reflexivity).
  rewrite (j_unset v _ wd j RD NJ) in RT. cbn [no_fields f_tod f_has] in RT.
  assert (V := nums_vok v NV). assert (HS := hour_sound (no_off v) h V RH). change (no_off v FI) with (v FI) in HS. change (no_off v FH) with (v FH) in HS. change (no_off v Fp) with (v Fp) in HS. destruct HS as [H0 _]. specialize (H0 NI). subst h. pose proof (V FH : v FH = nav FH \/ rng FH (v FH)) as VH. pose proof (V FM : v FM = nav FM \/ rng FM (v FM)) as VM. cbn [rng] in VH, VM.
  assert (SR : v Fs = nav Fs \/ 0 <= v Fs <= 1000000000000000000).
  { destruct (NV Fs) as [E0|[(_ & E0 & E1)|[E0 _]]]; [now left|right; cbn [rng] in E0; specialize (E1 eq_refl); lia|discriminate E0]. }
  destruct (tod_sound w v _ _ _ _ W VH VM SR RT) as [TE TH].
  assert (O1 : forall n z, z <> n -> or0 n z = z) by (intros n z NZ; unfold or0; destruct (Z.eqb_spec z n); [contradiction|reflexivity]).
  assert (O2 : forall n, or0 n n = 0) by (intros n; unfold or0; now rewrite Z.eqb_refl).
  assert (B1 : 0 <= or0 (nav FH) (v FH) <= 99) by (unfold or0; destruct (Z.eqb_spec (v FH) (nav FH)); [lia|tauto || lia]).
  assert (B2 : 0 <= or0 (nav FM) (v FM) <= 99) by (unfold or0; destruct (Z.eqb_spec (v FM) (nav FM)); [lia|tauto || lia]).
  assert (B3 : 0 <= or0 (nav Fs) (v Fs) <= 1000000000000000000) by (unfold or0; destruct (Z.eqb_spec (v Fs) (nav Fs)); [lia|tauto || lia]).
  assert (K := k_range w W). rewrite TE in H. unfold hms_to_duration in H. cbn [s_ sub_ m_ h_ neg_] in H.
  exists (or0 (nav FH) (v FH)), (or0 (nav FM) (v FM)), (or0 (nav Fs) (v Fs)), ts, (rest (r_is r)). split; [exact B1|]. split; [exact B2|]. split; [apply B3|]. split.
  { fold (ticks w). repeat match type of H with bind (arith llong_t ?a) _ = _ => let b := fresh "b" in let E := fresh "AE" in destruct (arith llong_t a) as [b| | |] eqn:E; try discriminate; cbn [bind] in H; apply arith_inv in E end.
    apply arith_inv in H. pose proof (Z.div_mod (or0 (nav Fs) (v Fs)) (ticks w) ltac:(lia)). subst. lia. }
  split; [exact E|].
  assert (U : forall f cs, (forall c, memb c (setters f) = true -> memb c span_in = true -> memb c cs = true) -> uses l cs = false -> v f = nav f).
  { intros f cs M U. apply (Q f). destruct (uses l (setters f)) eqn:US; [|reflexivity]. unfold uses in US. apply existsb_exists in US. destruct US as (i & I & US). destruct i as [c|c]; [discriminate|].
    unfold covered in C. rewrite Forall_forall in C. pose proof (C _ I) as CC. cbv beta iota in CC. rewrite (uses_in l c cs I (M c US CC)) in U. discriminate. }
  split; [|split; [|split; [|split]]].
  - apply (covered_all _ (told w v) _ l ts C); [|exact F]. intros [c|c] t M T; [exact T|]. specialize (M c eq_refl). destruct T as (L & FA & SA). cbn [span_piece].
    destruct FA as [| | | | | | | | | | | | | | | | | |c t L TF| |]; try discriminate M; try match goal with X : _ = _ \/ _ = _ |- _ => destruct X; subst; discriminate M | X : memb _ (!"bBh") = true |- _ => clear - X M; memb_cases X; discriminate M end; [apply s_percent|].
    destruct TF; try discriminate M; repeat match goal with X : said v (_ :: _) |- _ => apply said_one in X; let A := fresh "A" in destruct X as [A X] end;
    repeat match goal with X : seconds_text w ?q _ |- _ => lazymatch goal with _ : 0 <= q <= _ |- _ => fail | _ => pose proof (seconds_range w q _ W X) end end;
    repeat match goal with X : digits_up_to 2 ?n _ |- _ => lazymatch goal with _ : 0 <= n <= 99 |- _ => fail | _ => pose proof (dig_2 n _ X) end end;
    repeat match goal with X : ?n <> nav ?f -> v ?f = ?n |- _ => specialize (X ltac:(cbn [nav]; lia)) end;
    constructor; auto; match goal with |- context [or0 (nav ?f) (v ?f)] => rewrite (O1 (nav f) (v f)) by (match goal with X : v f = _ |- _ => rewrite X end; cbn [nav]; lia) end; congruence.
  - intros UU. rewrite (U FH (!"HRTX") ltac:(clear; intros c M1 M2; memb_cases M1; first [reflexivity|discriminate M2]) UU). apply O2.
  - intros UU. rewrite (U FM (!"MRTX") ltac:(clear; intros c M1 M2; memb_cases M1; first [reflexivity|discriminate M2]) UU). apply O2.
  - intros UU. rewrite (U Fs (!"STX") ltac:(clear; intros c M1 M2; memb_cases M1; first [reflexivity|discriminate M2]) UU). apply O2.
  - destruct (uses l (!"HMSRTX")) eqn:UU; [reflexivity|]. exfalso.
    rewrite (U FH (!"HMSRTX") ltac:(clear; intros c M1 M2; memb_cases M1; first [reflexivity|discriminate M2]) UU), (U FM (!"HMSRTX") ltac:(clear; intros c M1 M2; memb_cases M1; first [reflexivity|discriminate M2]) UU), (U Fs (!"HMSRTX") ltac:(clear; intros c M1 M2; memb_cases M1; first [reflexivity|discriminate M2]) UU) in TH.
    rewrite !Z.eqb_refl in TH. discriminate TH.
Qed.

Definition C89_fmt : list item := [Dir "a"; Lit " "; Dir "F"; Lit " "; Dir "T"].
Definition C89_noon : list item := [Dir "F"; Lit " "; Dir "I"; Lit ":"; Dir "M"; Lit " "; Dir "p"; Lit " "; Dir "H"].
Definition C89_zone : list item := [Dir "F"; Lit "T"; Dir "T"; Dir "z"; Lit ","; Dir "c"].
Definition C89_span : list item := [Dir "H"; Lit "h"; Dir "M"; Lit "m"; Dir "S"].
Example C89_example :
  covered (fun c => memb c moment_in = true) C89_fmt /\ compared C89_fmt /\ compared_time C89_fmt /\
  parse_local 3 (fmt_of C89_fmt) (!"thu 2024-02-29  23:59:07.25") = Ok ((19782 * 86400 + 86347) * 1000 + 250) /\
  parse_sys 0 (fmt_of C89_fmt) (!"Thu 2024-2-29 3:4:05") = Ok (19782 * 86400 + 11045) /\
  parse_sys 3 (fmt_of C89_fmt) (!"Thu 2024-02-29 24:00:00") = Throw RuntimeError /\
  parse_local 3 (fmt_of C89_fmt) (!"Thu 2024-02-29 23:60:00") = Throw RuntimeError /\
  parse_local 3 (fmt_of C89_fmt) (!"Fri 2024-02-29 23:59:00") = Throw RuntimeError /\
  (covered (fun c => memb c moment_in = true) C89_noon /\ compared C89_noon /\ compared_time C89_noon /\
   parse_local 0 (fmt_of C89_noon) (!"2024-02-29 01:30 pm 13") = Ok (19782 * 86400 + 48600) /\
   parse_local 0 (fmt_of C89_noon) (!"2024-02-29 01:30 am 13") = Throw RuntimeError /\
   parse_local 0 (fmt_of C89_noon) (!"2024-02-29 02:30 pm 13") = Throw RuntimeError) /\
  (covered (fun c => memb c moment_in = true) C89_zone /\ compared C89_zone /\ compared_time C89_zone /\
   parse_sys 0 (fmt_of C89_zone) (!"2024-02-29T23:59:07-0130,thu feb 29 23:59:07 2024") = Ok (19782 * 86400 + 86347 + 5400) /\
   parse_sys 0 (fmt_of C89_zone) (!"2024-02-29T23:59:07+02,Thu Feb 29 23:59:07 2024") = Ok (19782 * 86400 + 86347 - 7200) /\
   parse_local 0 (fmt_of C89_zone) (!"2024-02-29T23:59:07-0130,Thu Feb 29 23:59:07 2024") = Ok (19782 * 86400 + 86347) /\
   parse_sys 0 (fmt_of C89_zone) (!"2024-02-29T23:59:07-0130,Thu Feb 29 23:58:07 2024") = Throw RuntimeError) /\
  (covered (fun c => memb c span_in = true) C89_span /\ parse_duration 3 (fmt_of C89_span) (!"99h75m90.5") = Ok 360990500 /\ parse_duration 3 (fmt_of C89_span) (!"99:75") = Throw RuntimeError).
Proof.
  split; [repeat constructor; discriminate|]. split; [split; vm_compute; congruence|]. split; [vm_compute; congruence|]. do 5 (split; [vm_compute; reflexivity|]).
  split; [split; [repeat constructor; discriminate|]; split; [split; vm_compute; congruence|]; split; [vm_compute; congruence|]; repeat split; vm_compute; reflexivity|].
  split; [split; [repeat constructor; discriminate|]; split; [split; vm_compute; congruence|]; split; [vm_compute; congruence|]; repeat split; vm_compute; reflexivity|].
  split; [repeat constructor; discriminate|]. split; vm_compute; reflexivity.
Qed.
(** AM and PM are ignored without %I: 13 hours AM *)
Theorem C89_ampm_refuted : parse_local 0 (!"%F %H %p") (!"2024-02-29 13 AM") = Ok (19782 * 86400 + 46800).
Proof. vm_compute. reflexivity. Qed.
(** The hour 0 of the clock with 12 hours is taken as not given by %r, and PM is ignored; %I rejects it *)
Theorem C89_hour_zero_refuted :
  parse_local 0 (!"%F %r") (!"2024-02-29 00:30:00 PM") = Ok (19782 * 86400 + 1800) /\
  parse_local 0 (!"%F %I:%M:%S %p") (!"2024-02-29 00:30:00 PM") = Throw RuntimeError.
Proof. split; vm_compute; reflexivity. Qed.
(** Input that is consistent but rejected: 13 hours is 1 hour on the clock with 12 hours (the test
    is I == H + 12 instead of H == I + 12) *)
Theorem C89_afternoon_refuted :
  parse_local 0 (!"%F %H %I") (!"2024-02-29 13 01") = Throw RuntimeError /\
  parse_local 0 (!"%F %H %I") (!"2024-02-29 11 11") = Ok (19782 * 86400 + 39600).
Proof. split; vm_compute; reflexivity. Qed.
(** A point without digits stands for zero seconds *)
Theorem C89_point_finding : parse_local 0 (!"%F %H:%M:%S") (!"2024-02-29 12:00:.") = Ok (19782 * 86400 + 43200).
Proof. vm_compute. reflexivity. Qed.
(** The minutes of the difference to UTC are not limited to 59 *)
Theorem C89_offset_finding : parse_sys 0 (!"%F %T %z") (!"2024-02-29 12:00:00 +0199") = Ok (19782 * 86400 + 43200 - 159 * 60).
Proof. vm_compute. reflexivity. Qed.

Print Assumptions C89_local.
Print Assumptions C89_duration.
