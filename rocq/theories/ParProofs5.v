(** Formatting and parsing back. *)
From Verif Require Import Base IntModel ToNumModel DateModel DateSpec DateProofs DateProofs2 StrProofs2 FmtModel FmtSpec FmtProofs FmtProofs2 FmtProofs3 FmtProofs4 FmtProofs5 FmtProofs6 ParModel ParSpec ParProofs1 ParProofs2 ParProofs3 ParProofs4.
Local Open Scope Z_scope.
Local Open Scope outcome_scope.

(** Which fields a format sets *)
Lemma known_has l g (cs : str) : (forall c, memb c cs = true -> In g (flds c)) -> has l cs -> known (all_flds l) g = true.
Proof.
  intros H (c & I & M). unfold known. apply existsb_exists. exists g. split; [|now apply fld_eqb_eq].
  unfold all_flds. apply in_flat_map. exists (Dir c). auto.
Qed.
Lemma has_known l g (cs : str) : Forall ok_item l -> (forall c, memb c par_in = true -> In g (flds c) -> memb c cs = true) ->
  known (all_flds l) g = true -> has l cs.
Proof.
  intros F H Kg. unfold known in Kg. apply existsb_exists in Kg. destruct Kg as (g' & I & E). apply fld_eqb_eq in E. subst g'.
  unfold all_flds in I. apply in_flat_map in I. destruct I as ([c|c] & I1 & I2); [contradiction|]. exists c. split; [exact I1|].
  apply H; [|exact I2]. rewrite Forall_forall in F. apply (F _ I1).
Qed.
Ltac fld_in := let c := fresh in let M := fresh in intros c M; memb_cases M; cbn [flds In]; tauto.
Ltac in_fld := let c := fresh in let M := fresh in let I := fresh in intros c M I; memb_cases M; cbn [flds In] in I;
  try reflexivity; exfalso; intuition discriminate.
Lemma has_FY l : has l (!"YF") -> known (all_flds l) FY = true. Proof. apply known_has. fld_in. Qed.
Lemma has_Fy l : has l (!"yDx") -> known (all_flds l) Fy = true. Proof. apply known_has. fld_in. Qed.
Lemma has_FC l : has l (!"C") -> known (all_flds l) FC = true. Proof. apply known_has. fld_in. Qed.
Lemma has_Fm l : has l (!"mbBhFDx") -> known (all_flds l) Fm = true. Proof. apply known_has. fld_in. Qed.
Lemma has_Fd l : has l (!"dFDx") -> known (all_flds l) Fd = true. Proof. apply known_has. fld_in. Qed.
Lemma has_Fj l : has l (!"j") -> known (all_flds l) Fj = true. Proof. apply known_has. fld_in. Qed.
Lemma has_Fwd l : has l (!"aAuw") -> known (all_flds l) Fwd = true. Proof. apply known_has. fld_in. Qed.
Lemma has_UW l : has l (!"UW") -> known (all_flds l) FU = true \/ known (all_flds l) FW = true.
Proof.
  intros (c & I & M). memb_cases M; [left; apply (known_has l FU (!"U"))|right; apply (known_has l FW (!"W"))]; try fld_in; eexists; (split; [exact I|reflexivity]).
Qed.
Lemma has_FG l : has l (!"G") -> known (all_flds l) FG = true. Proof. apply known_has. fld_in. Qed.
Lemma has_FV l : has l (!"V") -> known (all_flds l) FV = true. Proof. apply known_has. fld_in. Qed.
Lemma has_FH l : has l (!"HTXR") -> known (all_flds l) FH = true. Proof. apply known_has. fld_in. Qed.
Lemma has_FI l : has l (!"I") -> known (all_flds l) FI = true. Proof. apply known_has. fld_in. Qed.
Lemma has_Fp l : has l (!"p") -> known (all_flds l) Fp = true. Proof. apply known_has. fld_in. Qed.
Lemma has_FM l : has l (!"MTXR") -> known (all_flds l) FM = true. Proof. apply known_has. fld_in. Qed.
Lemma has_Fs l : has l (!"STX") -> known (all_flds l) Fs = true. Proof. apply known_has. fld_in. Qed.
Lemma Fy_has l : Forall ok_item l -> known (all_flds l) Fy = true -> has l (!"yDx").
Proof. intros F. apply has_known; [exact F|in_fld]. Qed.
Lemma FI_has l : Forall ok_item l -> known (all_flds l) FI = true -> has l (!"I").
Proof. intros F. apply has_known; [exact F|in_fld]. Qed.
Lemma no_Fg l : Forall ok_item l -> known (all_flds l) Fg = false.
Proof.
  intros F. destruct (known (all_flds l) Fg) eqn:E; [|reflexivity]. apply (has_known l Fg [] F) in E; [|in_fld].
  destruct E as (c & _ & M). discriminate M.
Qed.

Lemma to_duration_eq k h m s f : 1 <= k <= 1000000000000 -> 0 <= h <= 99 -> 0 <= m <= 59 -> 0 <= s <= 59 -> 0 <= f < k ->
  hms_to_duration k (HMS h m s f false) = Ok ((h * 3600 + m * 60 + s) * k + f).
Proof.
  intros K H M S0 F. unfold hms_to_duration. cbn [h_ m_ s_ sub_ neg_].
  repeat (rewrite ll_ok by nia; cbn [bind]). f_equal. lia.
Qed.
Section Res.
Context (w : nat) (x : ymd) (d : Z) (W : (w <= 12)%nat) (D : 0 <= d < 360000 * ticks w).
Context (v : vals) (K : list fld) (V : forall g, v g = if known K g then fval w x d g else nav g).
Notation kn g := (known K g).

Lemma resolve_hour_ok : (kn FI = true -> kn Fp = true /\ hours_of w d < 24) ->
  resolve_hour v = Ok (if kn FH || kn FI then hours_of w d else nav FH).
Proof.
  intros HI. pose proof (hours_range w d W D) as HR. unfold resolve_hour. rewrite !V. destruct (kn FI) eqn:KI.
  - destruct (HI eq_refl) as [-> H24]. rewrite orb_true_r. cbn [fval nav]. pose proof (twelve_range (hours_of w d)) as T.
    destruct (Z.eqb_spec (twelve (hours_of w d)) 0); [lia|]. destruct (Z.leb_spec 1 (twelve (hours_of w d))); [|lia].
    destruct (Z.leb_spec (twelve (hours_of w d)) 12); [|lia]. cbn [andb negb].
    set (p := if hours_of w d <? 12 then 0 else 1). assert (negb (p =? -1) = true) as -> by (unfold p; destruct (hours_of w d <? 12); reflexivity).
    assert (PP : exists p', (if twelve (hours_of w d) =? 12 then int_ (p - 1) else Ok p) = Ok p' /\ -1 <= p' <= 1 /\ twelve (hours_of w d) + p' * 12 = hours_of w d).
    { unfold p, twelve. set (h := hours_of w d) in *. pose proof (Z.div_mod h 12 ltac:(lia)) as E. pose proof (Z.mod_pos_bound h 12 ltac:(lia)).
      destruct (Z.ltb_spec h 12).
      - assert (h / 12 = 0) as Q by (apply Z.div_small; lia). destruct (Z.eqb_spec (h mod 12) 0).
        + exists (-1). rewrite int_ok by lia. change (12 =? 12) with true. cbv iota. split; [reflexivity|lia].
        + exists 0. destruct (Z.eqb_spec (h mod 12) 12); [lia|]. split; [reflexivity|lia].
      - assert (h / 12 = 1) as Q by div_lia. destruct (Z.eqb_spec (h mod 12) 0).
        + exists 0. rewrite int_ok by lia. change (12 =? 12) with true. cbv iota. split; [reflexivity|lia].
        + exists 1. destruct (Z.eqb_spec (h mod 12) 12); [lia|]. split; [reflexivity|lia]. }
    destruct PP as (p' & -> & PB & PE). cbn [bind]. rewrite int_ok by lia. cbn [bind]. rewrite int_ok by lia. cbn [bind]. rewrite PE.
    destruct (kn FH); [|reflexivity]. destruct (Z.eqb_spec (hours_of w d) (-2147483648)); [lia|]. rewrite Z.eqb_refl. reflexivity.
  - rewrite orb_false_r. change (nav FI =? 0) with true. cbv iota. reflexivity.
Qed.
Lemma tk : 1 <= ticks w <= 1000000000000.
Proof.
  pose proof (ticks_pos w). split; [lia|]. unfold ticks. change 1000000000000 with (10 ^ 12). apply Z.pow_le_mono_r; lia.
Qed.
Definition tod : hms := HMS (hours_of w d) (minutes_of w d) (seconds_of w d) (d mod ticks w) false.
Lemma resolve_tod_ok t0 has0 : kn FM = true -> kn Fs = true ->
  resolve_tod w v (hours_of w d) (-1) t0 has0 = Ok (tod, true).
Proof.
  intros KM KS. pose proof (hours_range w d W D) as HR. pose proof tk as TK. destruct (parts_range w d ltac:(lia)) as (_ & M1 & S1 & F1).
  unfold resolve_tod. cbv zeta. destruct (Z.eqb_spec (hours_of w d) (nav FH)) as [Q|_]; [cbn [nav] in Q; lia|]. cbn [negb].
  rewrite ll_ok by nia. cbn [bind].
  destruct (hms_props (ticks w) (hours_of w d * (3600 * ticks w)) TK ltac:(nia)) as (t & -> & A1 & A2 & A3 & A4 & A5 & A6 & _). cbn [bind].
  assert (h_ t = hours_of w d) as TH.
  { rewrite Z.abs_eq in A6 by nia. set (k := ticks w) in *. set (h := hours_of w d) in *. clearbody k h.
    assert (QQ : ((h_ t * 60 + m_ t) * 60 + s_ t) = h * 3600).
    { assert (Q1 : (((h_ t * 60 + m_ t) * 60 + s_ t) * k + sub_ t) / k = (h * 3600 * k + 0) / k) by (f_equal; lia).
      rewrite !Z.div_add_l, (Z.div_small (sub_ t)), (Z.div_small 0) in Q1 by lia. lia. }
    lia. }
  assert (neg_ t = false) as TN by (rewrite A5; apply Z.ltb_ge; nia).
  rewrite (V FM), KM, (V Fs), KS. cbn [fval]. cbn [nav]. destruct (Z.eqb_spec (minutes_of w d) (-2147483648)); [lia|]. cbn [negb].
  pose proof (Z.mod_pos_bound d (60 * ticks w) ltac:(lia)) as SB.
  destruct (Z.eqb_spec (d mod (60 * ticks w)) (-9223372036854775808)); [lia|]. cbn [negb h_ m_ s_ sub_ neg_].
  rewrite Z.quot_div_nonneg by lia.
  assert (SE : d mod (60 * ticks w) = seconds_of w d * ticks w + d mod ticks w).
  { unfold seconds_of. fold (ticks w). set (k := ticks w) in *. rewrite (Z.mul_comm 60), Z.rem_mul_r by lia. lia. }
  rewrite SE. rewrite Z.div_add_l, (Z.div_small (d mod ticks w)), Z.add_0_r by lia.
  rewrite !ll_ok by nia. cbn [bind]. rewrite !ll_ok by nia. cbn [bind negb Z.eqb Pos.eqb]. unfold tod. rewrite TH, TN. do 3 f_equal. lia.
Qed.
Lemma tod_back : hms_to_duration (ticks w) tod = Ok d.
Proof.
  pose proof (hours_range w d W D) as HR. pose proof tk as TK. destruct (parts_range w d ltac:(lia)) as (_ & M1 & S1 & F1).
  assert (E : d = (hours_of w d * 3600 + minutes_of w d * 60 + seconds_of w d) * ticks w + d mod ticks w).
  { unfold hours_of, minutes_of, seconds_of. fold (ticks w). set (k := ticks w) in *. rewrite (Z.mul_comm 3600), (Z.mul_comm 60).
    rewrite <- !Z.div_div by lia. pose proof (Z.div_mod d k ltac:(lia)). set (q := d / k) in *. set (r := d mod k) in *. clearbody q r. 
    replace (q / 3600) with (q / 60 / 60) by (rewrite Z.div_div by lia; reflexivity).
    pose proof (Z.div_mod q 60 ltac:(lia)). pose proof (Z.div_mod (q / 60) 60 ltac:(lia)). nia. }
  unfold tod. rewrite to_duration_eq by lia. f_equal. symmetry. exact E.
Qed.
End Res.

Lemma str_of_ext (R R' : ascii -> str) (P : ascii -> Prop) l : covered P l -> (forall c, P c -> R c = R' c) -> str_of R l = str_of R' l.
Proof.
  intros L H. induction L as [|i l I _ IH]; [reflexivity|]. unfold str_of in *. cbn [map concat]. rewrite IH.
  destruct i as [c|c]; cbn [item_str]; [reflexivity|now rewrite (H c I)].
Qed.
Lemma covered_ok (P : ascii -> Prop) l : (forall c, P c -> memb c par_in = true) -> covered P l -> Forall ok_item l.
Proof.
  intros H L. induction L as [|i l I _ IH]; constructor; [|exact IH]. destruct i as [c|c]; [exact I|now apply H].
Qed.
Lemma covered_mono (P Q : ascii -> Prop) l : (forall c, P c -> Q c) -> covered P l -> covered Q l.
Proof. intros H L. induction L as [|i l I _ IH]; constructor; [|exact IH]. destruct i as [c|c]; [exact I|now apply H]. Qed.
Lemma ok_c_str l : Forall ok_item l -> c_str (fmt_of l) = fmt_of l.
Proof.
  intros L. apply (c_str_items (fun c => memb c par_in = true)); [|exact L]. intros c M. memb_cases M; discriminate.
Qed.
Lemma holds_start t : holds (str_is t) t.
Proof. split; [reflexivity|]. split; [now left|discriminate]. Qed.

Section Assemble.
Context (w : nat) (x : ymd) (d : Z) (W : (w <= 12)%nat) (C : in_calendar x) (Y : 0 <= yr x <= 9999).
Context (D : 0 <= d < 360000 * ticks w).
Context (l : list item) (F : Forall ok_item l) (A : apart l).
Notation kn g := (known (all_flds l) g).

Lemma stream_loop f0 : exists s' v, failb s' = false /\ (forall g, v g = if kn g then fval w x d g else nav g) /\
  from_stream w (fmt_of l) f0 (stream (text w x d l)) =
  ('(x, wd, j) <- resolve_date v ;;
   H <- resolve_hour v ;;
   '(t, has) <- resolve_tod w v H j (f_tod f0) (f_has f0) ;;
   Ok (Parsed (Fields x (if wd =? 8 then f_wd f0 else weekday (uns wd)) t has) [] (v Foff) s')).
Proof.
  destruct (loop_items w x d W C Y D l F A (str_is (text w x d l)) init_vals [] [] (holds_start _)) as (s' & v & E & FB & V).
  { intros g. reflexivity. }
  exists s', v. split; [exact FB|]. split. { intros g. rewrite V. change (known [] g) with false. now rewrite orb_false_r. }
  unfold from_stream. change (negb (good (stream (text w x d l)))) with false. cbv iota. rewrite (ok_c_str l F).
  change (stream (text w x d l)) with (str_is (text w x d l)). rewrite E. cbn [bind p_is p_cmd p_v p_zone]. rewrite andb_false_r. cbn [bind].
  rewrite FB. reflexivity.
Qed.

Lemma date_known : determines l x ->
  (kn Fy = true -> kn FY = true \/ kn FC = true \/ 1969 <= yr x <= 2068) /\
  (((kn FY || kn Fy) = true /\ ((kn Fm = true /\ kn Fd = true) \/ kn Fj = true \/ ((kn FU = true \/ kn FW = true) /\ kn Fwd = true))) \/
   (kn FG = true /\ kn FV = true /\ kn Fwd = true)).
Proof.
  intros [T1 T2]. split.
  - intros K. apply Fy_has in K; [|exact F]. destruct (T1 K) as [H|[H|H]]; [left; now apply has_FY|right; left; now apply has_FC|now right; right].
  - destruct T2 as [[T2 T3]|(G & V & Wd)].
    + left. split.
      * apply orb_true_iff. destruct T2 as [H|[H _]]; [left; now apply has_FY|right; now apply has_Fy].
      * destruct T3 as [[H1 H2]|[H|[H1 H2]]].
        -- left. split; [now apply has_Fm|now apply has_Fd].
        -- right; left. now apply has_Fj.
        -- right; right. split; [now apply has_UW|now apply has_Fwd].
    + right. split; [now apply has_FG|]. split; [now apply has_FV|now apply has_Fwd].
Qed.
End Assemble.

Lemma time_known l : determines_time l -> let kn := known (all_flds l) in
  (kn FH || kn FI) = true /\ kn FM = true /\ kn Fs = true.
Proof.
  intros (T1 & T2 & T3 & T4) kn. split; [|split; [now apply has_FM|now apply has_Fs]].
  apply orb_true_iff. destruct T1 as [H|H]; [left; now apply has_FH|right; now apply has_FI].
Qed.
Lemma hours_24 w d : (w <= 12)%nat -> 0 <= d < 86400 * ticks w -> 0 <= hours_of w d < 24.
Proof.
  intros W D. pose proof (ticks_pos w). unfold hours_of. fold (ticks w). split; [apply Z.div_pos; lia|]. apply Z.div_lt_upper_bound; lia.
Qed.

(** Dates *)
Lemma to_days_x x : in_calendar x -> to_days x = Ok (num x).
Proof. apply to_days_ok. Qed.
Lemma date_in_directive x c : 0 <= yr x <= 9999 -> memb c date_in = true -> date_directive x c.
Proof.
  intros Y M. unfold date_directive. memb_cases M; try (left; reflexivity); right.
  all: try (left; split; [reflexivity|lia]); right.
  all: try (left; split; [now auto|lia]); right.
  all: split; [reflexivity|lia].
Qed.
Lemma parse_ymd_back x l : in_calendar x -> 0 <= yr x <= 9999 -> covered (fun c => memb c date_in = true) l -> apart l ->
  determines l x -> format_ymd (fmt_of l) x = Ok (str_of (date_str x) l) /\ parse_ymd (fmt_of l) (str_of (date_str x) l) = Ok x.
Proof.
  intros C Y L A DT. split.
  - apply to_stream_ymd; [exact C|]. refine (covered_mono _ _ _ _ L). intros c. now apply date_in_directive.
  - assert (F : Forall ok_item l) by (refine (covered_ok _ _ _ L); intros c M; memb_cases M; reflexivity).
    assert (E : str_of (date_str x) l = text 0 x 0 l).
    { unfold text. apply (str_of_ext _ _ _ l L). intros c M. unfold sys_str, moment_str.
      assert (Q : Ascii.eqb c "z" = false /\ Ascii.eqb c "Z" = false /\ Ascii.eqb c "c" = false /\ memb c (!"HMSTXRQIpr") = false)
        by (memb_cases M; repeat split).
      destruct Q as (-> & -> & -> & ->). reflexivity. }
    rewrite E. assert (W : (0 <= 12)%nat) by lia. assert (D : 0 <= 0 < 360000 * ticks 0) by (change (ticks 0) with 1; lia).
    destruct (stream_loop 0 x 0 W C Y D l F A no_fields) as (s' & v & FB & V & R).
    unfold parse_ymd, parse_fields. rewrite R. destruct (date_known x l F DT) as [K1 K2].
    rewrite (resolve_date_ok 0 x 0 C Y v _ V K1 (no_Fg l F) K2). cbn [bind].
    assert (NT : forall g (cs : str), (forall c, memb c date_in = true -> ~ In g (flds c)) -> known (all_flds l) g = false).
    { intros g _ H. destruct (known (all_flds l) g) eqn:Q; [|reflexivity]. exfalso. unfold known in Q. apply existsb_exists in Q.
      destruct Q as (g' & I1 & I2). apply fld_eqb_eq in I2. subst g'. unfold all_flds in I1. apply in_flat_map in I1.
      destruct I1 as ([c|c] & I1 & I2); [contradiction|]. unfold covered in L. rewrite Forall_forall in L. specialize (L _ I1). exact (H c L I2). }
    assert (NH : known (all_flds l) FH = false) by (apply (NT FH []); intros c M I; memb_cases M; cbn [flds In] in I; intuition discriminate).
    assert (NI : known (all_flds l) FI = false) by (apply (NT FI []); intros c M I; memb_cases M; cbn [flds In] in I; intuition discriminate).
    assert (NM : known (all_flds l) FM = false) by (apply (NT FM []); intros c M I; memb_cases M; cbn [flds In] in I; intuition discriminate).
    assert (NS : known (all_flds l) Fs = false) by (apply (NT Fs []); intros c M I; memb_cases M; cbn [flds In] in I; intuition discriminate).
    rewrite (resolve_hour_ok 0 x 0 W D v _ V) by (rewrite NI; discriminate). rewrite NH, NI. cbn [orb bind].
    unfold resolve_tod. cbv zeta. rewrite (V FM), NM, (V Fs), NS, !Z.eqb_refl. cbn [negb bind Z.eqb Pos.eqb r_fields f_ymd].
    rewrite (ymd_ok_x x C). reflexivity.
Qed.

(** Time points *)
Section Moment.
Context (w : nat) (x : ymd) (d : Z) (W : (w <= 12)%nat) (C : in_calendar x) (Y : 0 <= yr x <= 9999).
Context (D : 0 <= d < 86400 * ticks w).
Context (l : list item) (F : Forall ok_item l) (A : apart l) (DT : determines l x) (TT : determines_time l).
Lemma from_stream_moment : exists wd s', from_stream w (fmt_of l) tod_fields (stream (text w x d l)) =
  Ok (Parsed (Fields x wd (tod w d) true) [] (if known (all_flds l) Foff then 0 else nav Foff) s').
Proof.
  pose proof (ticks_pos w) as TK. assert (D' : 0 <= d < 360000 * ticks w) by lia. destruct (time_known l TT) as (T1 & T2 & T3).
  destruct (stream_loop w x d W C Y D' l F A tod_fields) as (s' & v & FB & V & R).
  destruct (date_known x l F DT) as [K1 K2].
  rewrite R, (resolve_date_ok w x d C Y v _ V K1 (no_Fg l F) K2). cbn [bind].
  rewrite (resolve_hour_ok w x d W D' v _ V), T1.
  2:{ intros KI. split; [|apply hours_24; assumption]. apply has_Fp. apply TT. now apply FI_has. }
  cbn [bind]. rewrite (resolve_tod_ok w x d W D' v _ V _ _ T2 T3). cbn [bind]. rewrite (V Foff). eauto.
Qed.
Lemma tod_conventional : conventional w (tod w d) = true.
Proof.
  pose proof (ticks_pos w) as TK. pose proof (hours_24 w d W D). destruct (parts_range w d ltac:(lia)) as (_ & M1 & S1 & F1).
  unfold conventional, tod. cbn [neg_ h_ m_ sub_ s_]. repeat match goal with |- context [?a <? ?b] => destruct (Z.ltb_spec a b); [|lia] end. reflexivity.
Qed.
Context (B : -9223372036854775808 <= num x * (86400 * ticks w)) (B2 : num x * (86400 * ticks w) + d <= 9223372036854775807).
Lemma parse_local_back : parse_local w (fmt_of l) (text w x d l) = Ok (num x * (86400 * ticks w) + d).
Proof.
  pose proof (ticks_pos w) as TK. assert (D' : 0 <= d < 360000 * ticks w) by lia.
  destruct from_stream_moment as (wd & s' & R). unfold parse_local. rewrite R. cbn [bind r_fields f_ymd f_tod].
  rewrite (ymd_ok_x x C), tod_conventional. cbn [andb require bind]. rewrite to_days_x by assumption. cbn [bind].
  rewrite (tod_back w d W D'). cbn [bind]. rewrite !ll_ok by lia. cbn [bind]. apply ll_ok. lia.
Qed.
Lemma parse_sys_back : parse_sys w (fmt_of l) (text w x d l) = Ok (num x * (86400 * ticks w) + d).
Proof.
  pose proof (ticks_pos w) as TK. assert (D' : 0 <= d < 360000 * ticks w) by lia. pose proof (numb x C Y) as NB.
  destruct from_stream_moment as (wd & s' & R). unfold parse_sys. rewrite R. cbn [bind r_fields f_ymd f_tod r_off].
  rewrite (ymd_ok_x x C), tod_conventional. cbn [andb require bind]. rewrite to_days_x by assumption. cbn [bind].
  rewrite ll_ok by lia. cbn [bind].
  assert ((if (if known (all_flds l) Foff then 0 else nav Foff) =? nav Foff then 0 else if known (all_flds l) Foff then 0 else nav Foff) = 0) as ->.
  { destruct (known (all_flds l) Foff); [reflexivity|now rewrite Z.eqb_refl]. }
  rewrite ll_ok by lia. cbn [bind].
  rewrite (tod_back w d W D'). cbn [bind]. rewrite ll_ok by lia. cbn [bind]. rewrite ll_ok by lia. f_equal. lia.
Qed.
End Moment.

(** Durations *)
Lemma not_known (P : ascii -> Prop) l g : covered P l -> (forall c, P c -> ~ In g (flds c)) -> known (all_flds l) g = false.
Proof.
  intros L H. destruct (known (all_flds l) g) eqn:Q; [|reflexivity]. exfalso. unfold known in Q. apply existsb_exists in Q.
  destruct Q as (g' & I1 & I2). apply fld_eqb_eq in I2. subst g'. unfold all_flds in I1. apply in_flat_map in I1.
  destruct I1 as ([c|c] & I1 & I2); [contradiction|]. unfold covered in L. rewrite Forall_forall in L. specialize (L _ I1). exact (H c L I2).
Qed.
Lemma resolve_date_none v : (forall g, In g [FY; Fy; FC; FG; Fg; Fm; Fd; Fj; Fwd; FU; FW; FV] -> v g = nav g) ->
  resolve_date v = Ok (no_ymd, 8, -1).
Proof.
  intros H. unfold resolve_date. rewrite !H by (cbn [In]; tauto). reflexivity.
Qed.
Lemma parse_duration_back w d l : (w <= 12)%nat -> 0 <= d < 360000 * ticks w ->
  covered (fun c => memb c (!"%HMSTXRIp") = true) l -> (has l (!"Ip") -> d < 86400 * ticks w) -> determines_time l ->
  format_duration w (fmt_of l) d = Ok (str_of (duration_str w d) l) /\
  parse_duration w (fmt_of l) (str_of (duration_str w d) l) = Ok d.
Proof.
  intros W D L IP TT. pose proof (ticks_pos w) as TK1. pose proof (ticks_le w 12 W) as K2. change (ticks 12) with 1000000000000 in K2. split.
  - apply format_duration_eq; [exact W|lia|]. unfold covered in *. rewrite Forall_forall in *. intros [c|c] I; specialize (L _ I); cbv beta iota in L |- *; [exact L|].
    unfold duration_directive, time_directive.
    assert (Q : memb c (!"%nt") = true \/ memb c (!"HMSTXRQ") = true \/ memb c (!"Ip") = true) by (memb_cases L; cbn; tauto).
    destruct Q as [Q|[Q|Q]]; [now left|right; left; now left|]. right; left; right. split; [memb_cases Q; reflexivity|].
    apply hours_24; [exact W|]. split; [lia|]. apply IP. exists c. auto.
  - set (x := epoch). assert (C : in_calendar x) by (split; [unfold year_in_range, x, epoch; cbn [yr]; lia|apply epoch_exists]).
    assert (Y : 0 <= yr x <= 9999) by (unfold x, epoch; cbn [yr]; lia).
    assert (F : Forall ok_item l) by (refine (covered_ok _ _ _ L); intros c M; memb_cases M; reflexivity).
    assert (A : apart l).
    { clear - L. induction L as [|[c|c] l I L IH]; cbn [apart]; auto. split; [|exact IH]. intros M. exfalso. memb_cases I; discriminate M. }
    assert (E : str_of (duration_str w d) l = text w x d l).
    { unfold text. apply (str_of_ext _ _ _ l L). intros c M. unfold sys_str, moment_str, duration_str.
      assert (Q : Ascii.eqb c "z" = false /\ Ascii.eqb c "Z" = false /\ Ascii.eqb c "c" = false /\ Ascii.eqb c "j" = false /\
        (memb c (!"HMSTXRQIpr") = true \/ c = "%"%char))
        by (memb_cases M; repeat split; cbn; auto).
      destruct Q as (-> & -> & -> & -> & [->| ->]); reflexivity. }
    rewrite E. destruct (stream_loop w x d W C Y D l F A no_fields) as (s' & v & FB & V & R).
    unfold parse_duration. rewrite R. rewrite resolve_date_none.
    2:{ intros g I. rewrite V. rewrite (not_known _ l g L); [reflexivity|]. intros c M Q. cbv beta in M.
        memb_cases M; cbn [flds In] in Q; cbn [In] in I; intuition (subst; discriminate). }
    cbn [bind]. destruct (time_known l TT) as (T1 & T2 & T3).
    rewrite (resolve_hour_ok w x d W D v _ V), T1.
    2:{ intros KI. apply FI_has in KI; [|exact F]. split; [apply has_Fp; now apply TT|].
        apply hours_24; [exact W|]. split; [lia|]. apply IP. destruct KI as (c & I & M). exists c. split; [exact I|]. memb_cases M; reflexivity. }
    cbn [bind]. rewrite (resolve_tod_ok w x d W D v _ V _ _ T2 T3). cbn [bind r_fields f_has f_tod require]. apply tod_back; assumption.
Qed.
