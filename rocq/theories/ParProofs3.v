(** Reading back each directive. *)
From Verif Require Import Base IntModel ToNumModel DateModel DateSpec DateProofs DateProofs2 StrProofs2 FmtModel FmtSpec FmtProofs FmtProofs2 FmtProofs3 FmtProofs4 FmtProofs6 ParModel ParSpec ParProofs1 ParProofs2.
Local Open Scope Z_scope.
Local Open Scope outcome_scope.

Lemma read_RU m M a s n r : read_unsigned m M s = (n, str_is r) -> -2147483648 <= n <= 2147483647 ->
  read (RU m M :: a) s = ('(l, s') <- read a (str_is r) ;; Ok (n :: l, s')).
Proof. intros E H. cbn [read]. rewrite E. cbn [failb str_is]. now rewrite conv_int by exact H. Qed.
Lemma read_RS m M a s n r : read_signed m M s = Ok (n, str_is r) ->
  read (RS m M :: a) s = ('(l, s') <- read a (str_is r) ;; Ok (n :: l, s')).
Proof. intros E. cbn [read]. rewrite E. reflexivity. Qed.
Lemma read_RC c a r : c <> NUL -> read (RC c :: a) (str_is (c :: r)) = read a (str_is r).
Proof. intros H. cbn [read]. rewrite read_c_ok by exact H. reflexivity. Qed.
Lemma read_nul a r : read (RC NUL :: a) (str_is r) = read a (str_is r).
Proof. reflexivity. Qed.

Lemma fld_eqb_eq a b : fld_eqb a b = true <-> a = b.
Proof. split; [destruct a, b; (reflexivity || discriminate)|intros ->; destruct b; reflexivity]. Qed.

Section Back.
Context (w : nat) (x : ymd) (d : Z).
Context (W : (w <= 12)%nat) (C : in_calendar x) (Y : 0 <= yr x <= 9999) (D : 0 <= d < 360000 * ticks w).

(** What the variables of from_stream stand for *)
Definition fval (g : fld) : Z :=
  match g with
  | FY => yr x | Fy => yr x mod 100 | FC => yr x / 100 | Fm => mo x | Fd => dy x
  | Fj => num x - jan1 (yr x) + 1 | Fwd => wdx x
  | FU => rank 0 (yr x) (num x) | FW => rank 1 (yr x) (num x)
  | FG => isoy (num x) | FV => isow (num x) | Fg => 0
  | FH => hours_of w d | FI => twelve (hours_of w d) | Fp => if hours_of w d <? 12 then 0 else 1
  | FM => minutes_of w d | Fs => d mod (60 * ticks w) | Foff => 0
  end.
Definition known (K : list fld) (g : fld) : bool := existsb (fld_eqb g) K.
Definition vrel (v : vals) (K : list fld) : Prop := forall g, v g = if known K g then fval g else nav g.

Lemma known_cons f K g : known (f :: K) g = fld_eqb g f || known K g. Proof. reflexivity. Qed.
Lemma set_ok f n s v z m i iw K b : failb s = false -> vrel v K -> n = fval f ->
  exists v', checked_set f n (P s v z b m i iw) = P s v' z b m i iw /\ vrel v' (f :: K).
Proof.
  intros F V ->. unfold checked_set. cbn [p_is p_v p_zone p_cmd p_md p_w p_inw]. rewrite F. rewrite (V f).
  assert (G : forall g, upd v f (fval f) g = if known (f :: K) g then fval g else nav g).
  { intros g. unfold upd. rewrite known_cons. destruct (fld_eqb f g) eqn:E.
    - apply fld_eqb_eq in E. subst. now replace (fld_eqb g g) with true by (symmetry; now apply fld_eqb_eq).
    - replace (fld_eqb g f) with false; [apply V|]. symmetry. destruct (fld_eqb g f) eqn:E2; [|reflexivity].
      apply fld_eqb_eq in E2. subst. now rewrite (proj2 (fld_eqb_eq f f) eq_refl) in E. }
  destruct (known K f) eqn:KF.
  - destruct (fval f =? nav f); [eexists; split; [reflexivity|exact G]|]. rewrite Z.eqb_refl.
    eexists. split; [reflexivity|]. intros g. rewrite (V g), known_cons. destruct (fld_eqb g f) eqn:E; [|reflexivity].
    apply fld_eqb_eq in E. subst. now rewrite KF.
  - rewrite Z.eqb_refl. eexists. split; [reflexivity|exact G].
Qed.

(** The variables a directive sets *)
Definition flds (c : ascii) : list fld :=
  match c with
  | "Y"%char => [FY] | "y"%char => [Fy] | "C"%char => [FC] | "m"%char | "b"%char | "B"%char | "h"%char => [Fm]
  | "d"%char => [Fd] | "F"%char => [Fd; Fm; FY] | "D"%char | "x"%char => [Fd; Fm; Fy]
  | "a"%char | "A"%char | "u"%char | "w"%char => [Fwd] | "j"%char => [Fj] | "U"%char => [FU] | "W"%char => [FW]
  | "V"%char => [FV] | "G"%char => [FG] | "H"%char => [FH] | "M"%char => [FM] | "S"%char => [Fs]
  | "T"%char | "X"%char => [Fs; FM; FH] | "R"%char => [FM; FH] | "I"%char => [FI] | "p"%char => [Fp]
  | "z"%char => [Foff] | _ => []
  end.

Lemma hours_range : 0 <= hours_of w d <= 99.
Proof.
  pose proof (ticks_pos w). unfold hours_of. fold (ticks w). split; [apply Z.div_pos; lia|].
  assert (d / (3600 * ticks w) < 100); [|lia]. apply Z.div_lt_upper_bound; lia.
Qed.
Lemma isoy_range : -1 <= isoy (num x) <= 9999.
Proof.
  clear W D. assert (E : exists_date x) by apply C. pose proof (isoy_near x E) as N. split; [lia|].
  destruct (Z.eq_dec (isoy (num x)) 10000) as [G|]; [|lia]. exfalso.
  pose proof (isoy_bounds (num x)) as B. rewrite G in B. pose proof (year_bounds x E) as YB.
  assert (jan1 (yr x + 1) <= jan1 10000).
  { destruct (Z.eq_dec (yr x + 1) 10000) as [->|]; [lia|]. pose proof (jan1_mono (yr x + 1) 10000 ltac:(lia)). lia. }
  change (jan1 10000) with 2932897 in *. destruct YB as [_ YB]. assert (NU : num x < 2932897) by lia. clear G N YB H. destruct (thursday_props (num x)) as [T1 T2].
  unfold weekday_of in *. set (t := thursday (num x)) in *. set (n := num x) in *. clearbody t n. div_lia.
Qed.

Let st (r : str) (v : vals) (z : str) : pst := P (str_is r) v z true NUL (-1) false.
Definition reads (c : ascii) (t r : str) (v : vals) (z : str) (K : list fld) : Prop :=
  exists e v', in_directive w c (st (t ++ r) v z) = Ok (P (IS r e false) v' z false NUL (-1) false) /\
  (e = true -> r = []) /\ vrel v' (flds c ++ K).

Lemma one_ok f a t r v z K n : read [a] (str_is (t ++ r)) = Ok ([n], str_is r) -> n = fval f -> vrel v K ->
  exists v', one f a (st (t ++ r) v z) = Ok (st r v' z) /\ vrel v' (f :: K).
Proof.
  intros R N V. unfold one. cbn [p_is st]. unfold st. cbn [p_is]. rewrite R. cbn [bind vof nth]. unfold with_is.
  cbn [p_is p_v p_zone p_cmd p_md p_w p_inw].
  destruct (set_ok f n (str_is r) v z NUL (-1) false K true eq_refl V N) as (v' & E & V').
  exists v'. rewrite E. auto.
Qed.
Lemma read1_u k n r : (1 <= k <= 9)%nat -> 0 <= n < 10 ^ Z.of_nat k -> read [RU 1 (Z.of_nat k)] (str_is (pad k n ++ r)) = Ok ([n], str_is r).
Proof. intros K N. pose proof (pow9 k). rewrite (read_RU _ _ _ _ n r); [reflexivity| |lia]. apply read_u_pad; lia. Qed.
Lemma read1_s k n r : (1 <= k <= 9)%nat -> - 10 ^ Z.of_nat k < n < 10 ^ Z.of_nat k -> read [RS 1 (Z.of_nat k)] (str_is (sgn_str k n ++ r)) = Ok ([n], str_is r).
Proof. intros K N. rewrite (read_RS _ _ _ _ n r); [reflexivity|]. apply read_s_sgn; lia. Qed.
Lemma read1_sp k n r : (1 <= k <= 9)%nat -> 0 <= n < 10 ^ Z.of_nat k -> read [RS 1 (Z.of_nat k)] (str_is (pad k n ++ r)) = Ok ([n], str_is r).
Proof. intros K N. rewrite (read_RS _ _ _ _ n r); [reflexivity|]. apply read_s_pad; lia. Qed.

Lemma clock_ok r v z K : vrel v K -> exists v', clock w FH (st (clock_str w d ++ r) v z) = Ok (st r v' z) /\ vrel v' (flds "T" ++ K).
Proof.
  intros V. destruct (parts_range w d ltac:(lia)) as (_ & M1 & S1 & F1). pose proof hours_range as H1. pose proof (ticks_pos w) as TP.
  unfold clock, st. cbn [p_is]. unfold clock_str. rewrite <- app_assoc. cbn [app]. rewrite <- app_assoc. cbn [app].
  rewrite (read_RU 1 2 _ _ (hours_of w d) (":"%char :: pad 2 (minutes_of w d) ++ ":"%char :: sec_str w d ++ r));
    [|apply (read_u_pad 2); [lia|change (10 ^ Z.of_nat 2) with 100; lia|lia]|lia].
  rewrite read_RC by discriminate.
  rewrite (read_RU 1 2 _ _ (minutes_of w d) (":"%char :: sec_str w d ++ r));
    [|apply (read_u_pad 2); [lia|change (10 ^ Z.of_nat 2) with 100; lia|lia]|lia].
  rewrite read_RC by discriminate. cbn [read bind failb str_is vof nth]. fold (str_is (sec_str w d ++ r)).
  unfold sec_str. rewrite <- app_assoc. rewrite read_sec by lia. rewrite round_sec_exact by lia. cbn [bind].
  unfold with_is. cbn [p_is p_v p_zone p_cmd p_md p_w p_inw].
  destruct (set_ok FH (hours_of w d) (str_is r) v z NUL (-1) false K true eq_refl V eq_refl) as (v1 & E1 & V1). rewrite E1.
  destruct (set_ok FM (minutes_of w d) (str_is r) v1 z NUL (-1) false _ true eq_refl V1 eq_refl) as (v2 & E2 & V2). rewrite E2.
  destruct (set_ok Fs (seconds_of w d * ticks w + d mod ticks w) (str_is r) v2 z NUL (-1) false _ true eq_refl V2) as (v3 & E3 & V3).
  { cbn [fval]. unfold seconds_of. fold (ticks w). set (k := ticks w) in *. rewrite (Z.mul_comm 60), Z.rem_mul_r by lia. lia. }
  rewrite E3. exists v3. split; [reflexivity|exact V3].
Qed.
Lemma kw_ok l t m i r v z : 
  (exists e j, scan_keyword l (str_is (t ++ r)) = (j, IS r e false) /\ (e = true -> r = []) /\ j mod m = i) ->
  exists e j, keyword l (st (t ++ r) v z) = (j, P (IS r e false) v z true NUL (-1) false) /\ (e = true -> r = []) /\ j mod m = i.
Proof. intros (e & j & A & B & E). exists e, j. unfold keyword, st. cbn [p_is]. rewrite A. auto. Qed.

Lemma finish f n r e v z K : vrel v K -> n = fval f ->
  exists v', reset (checked_set f n (P (IS r e false) v z true NUL (-1) false)) = P (IS r e false) v' z false NUL (-1) false /\ vrel v' (f :: K).
Proof.
  intros V E. destruct (set_ok f n (IS r e false) v z NUL (-1) false K true eq_refl V E) as (v' & A & B). exists v'. rewrite A. auto.
Qed.

Tactic Notation "use_one" constr(f) constr(k) tactic(tac) := match goal with V : vrel ?v ?K |- context [one f ?a (P (str_is (?t ++ ?r)) ?v ?z _ _ _ _)] =>
  let v' := fresh "v'" in let E := fresh "E" in let V' := fresh "V'" in let R := fresh "R" in
  assert (R : read [a] (str_is (t ++ r)) = Ok ([fval f], str_is r)) by (cbn [fval]; apply k; tac);
  destruct (one_ok f a t r v z K (fval f) R eq_refl V) as (v' & E & V'); unfold st in E; rewrite E; cbn [bind];
    exists false, v'; split; [reflexivity|split; [discriminate|exact V']] end.

Lemma date_reads c r v z K : memb c (!"YyCmdFDxBbhAawujUWVG") = true -> (memb c (!"abh") = true -> no_letter r) -> vrel v K ->
  reads c (date_str x c) r v z K.
Proof.
  intros H NL V. unfold reads. assert (E : exists_date x) by apply C.
  assert (MD : 1 <= mo x <= 12 /\ 1 <= dy x <= 31).
  { pose proof E as Q. apply exists_date_spec in Q. pose proof (mlen_bound (yr x) (mo x)). lia. }
  pose proof (wdx_range x) as WR. pose proof (year_bounds x E) as YB. pose proof (jan1_succ (yr x)) as JS.
  pose proof (rank_range 0 (yr x) (num x) ltac:(lia) YB) as RU0. pose proof (rank_range 1 (yr x) (num x) ltac:(lia) YB) as RW0.
  pose proof (isow_range (num x)) as RV. pose proof isoy_range as RG.
  assert (YM : 0 <= yr x mod 100 <= 99) by (pose proof (Z.mod_pos_bound (yr x) 100); lia).
  assert (YD : 0 <= yr x / 100 <= 99) by (split; [apply Z.div_pos; lia|]; assert (yr x / 100 < 100); [apply Z.div_lt_upper_bound; lia|lia]).
  assert (P1 : 10 ^ Z.of_nat 1 = 10) by reflexivity. assert (P2 : 10 ^ Z.of_nat 2 = 100) by reflexivity.
  assert (P3 : 10 ^ Z.of_nat 3 = 1000) by reflexivity. assert (P4 : 10 ^ Z.of_nat 4 = 10000) by reflexivity.
  pose proof (month_name_full (Z.to_nat (mo x - 1)) ltac:(lia)) as MF. rewrite Z2Nat.id in MF by lia.
  pose proof (month_name_short (Z.to_nat (mo x - 1)) ltac:(lia)) as MS. rewrite Z2Nat.id in MS by lia.
  pose proof (day_name_full (Z.to_nat (wdx x)) ltac:(lia)) as DF. rewrite Z2Nat.id in DF by lia.
  pose proof (day_name_short (Z.to_nat (wdx x)) ltac:(lia)) as DS. rewrite Z2Nat.id in DS by lia.
  unfold st.
  memb_cases H; cbn [in_directive date_str p_md p_is p_w wd_or Ascii.eqb Bool.eqb NUL Z.eqb Pos.eqb flds app].
  - use_one FY (read1_s 4) lia.
  - rewrite Z.abs_eq by lia. use_one Fy (read1_u 2) lia.
  - use_one FC (read1_s 2) lia.
  - use_one Fm (read1_sp 2) lia.
  - use_one Fd (read1_sp 2) lia.
  - (* F *)
    rewrite <- app_assoc. cbn [app]. rewrite <- app_assoc. cbn [app].
    rewrite (read_RS 1 4 _ _ (yr x) ("-"%char :: pad 2 (mo x) ++ "-"%char :: pad 2 (dy x) ++ r)) by (apply (read_s_sgn 4); lia).
    rewrite read_RC by discriminate.
    rewrite (read_RU 1 2 _ _ (mo x) ("-"%char :: pad 2 (dy x) ++ r)) by (try apply (read_u_pad 2); lia).
    rewrite read_RC by discriminate.
    rewrite (read1_u 2) by lia. cbn [bind vof nth]. unfold with_is. cbn [p_is p_v p_zone p_cmd p_md p_w p_inw].
    destruct (set_ok FY (yr x) (str_is r) v z NUL (-1) false K true eq_refl V eq_refl) as (v1 & E1 & V1). rewrite E1.
    destruct (set_ok Fm (mo x) (str_is r) v1 z NUL (-1) false _ true eq_refl V1 eq_refl) as (v2 & E2 & V2). rewrite E2.
    destruct (finish Fd (dy x) r false v2 z _ V2 eq_refl) as (v3 & E3 & V3). unfold str_is. rewrite E3.
    exists false, v3. split; [reflexivity|]. split; [discriminate|exact V3].
  - (* D *)
    rewrite <- app_assoc. cbn [app]. rewrite <- app_assoc. cbn [app].
    rewrite (read_RU 1 2 _ _ (mo x) ("/"%char :: pad 2 (dy x) ++ "/"%char :: pad 2 (yr x mod 100) ++ r)) by (try apply (read_u_pad 2); lia).
    rewrite ?read_nul, read_RC, ?read_nul by discriminate.
    rewrite (read_RU 1 2 _ _ (dy x) ("/"%char :: pad 2 (yr x mod 100) ++ r)) by (try apply (read_u_pad 2); lia).
    rewrite ?read_nul, read_RC, ?read_nul by discriminate.
    rewrite (read1_sp 2) by lia. cbn [bind vof nth]. unfold with_is. cbn [p_is p_v p_zone p_cmd p_md p_w p_inw].
    destruct (set_ok Fy (yr x mod 100) (str_is r) v z NUL (-1) false K true eq_refl V eq_refl) as (v1 & E1 & V1). rewrite E1.
    destruct (set_ok Fm (mo x) (str_is r) v1 z NUL (-1) false _ true eq_refl V1 eq_refl) as (v2 & E2 & V2). rewrite E2.
    destruct (finish Fd (dy x) r false v2 z _ V2 eq_refl) as (v3 & E3 & V3). unfold str_is. rewrite E3.
    exists false, v3. split; [reflexivity|]. split; [discriminate|exact V3].
  - (* D *)
    rewrite <- app_assoc. cbn [app]. rewrite <- app_assoc. cbn [app].
    rewrite (read_RU 1 2 _ _ (mo x) ("/"%char :: pad 2 (dy x) ++ "/"%char :: pad 2 (yr x mod 100) ++ r)) by (try apply (read_u_pad 2); lia).
    rewrite ?read_nul, read_RC, ?read_nul by discriminate.
    rewrite (read_RU 1 2 _ _ (dy x) ("/"%char :: pad 2 (yr x mod 100) ++ r)) by (try apply (read_u_pad 2); lia).
    rewrite ?read_nul, read_RC, ?read_nul by discriminate.
    rewrite (read1_sp 2) by lia. cbn [bind vof nth]. unfold with_is. cbn [p_is p_v p_zone p_cmd p_md p_w p_inw].
    destruct (set_ok Fy (yr x mod 100) (str_is r) v z NUL (-1) false K true eq_refl V eq_refl) as (v1 & E1 & V1). rewrite E1.
    destruct (set_ok Fm (mo x) (str_is r) v1 z NUL (-1) false _ true eq_refl V1 eq_refl) as (v2 & E2 & V2). rewrite E2.
    destruct (finish Fd (dy x) r false v2 z _ V2 eq_refl) as (v3 & E3 & V3). unfold str_is. rewrite E3.
    exists false, v3. split; [reflexivity|]. split; [discriminate|exact V3].
  - (* B *)
    destruct (kw_ok month_names (nth (Z.to_nat (mo x - 1)) months []) 12 (mo x - 1) r v z) as (e & j & A & B & J); [apply full_scan, MF|].
    unfold st in A. rewrite A. cbn [failb p_is].
    destruct (finish Fm (j mod 12 + 1) r e v z _ V ltac:(cbn [fval]; lia)) as (v1 & E1 & V1). rewrite E1.
    exists e, v1. auto.
  - (* b *)
    destruct (kw_ok month_names (short (nth (Z.to_nat (mo x - 1)) months [])) 12 (mo x - 1) r v z) as (e & j & A & B & J); [apply name_scan; [apply MS|apply NL; reflexivity]|].
    unfold st in A. rewrite A. cbn [failb p_is].
    destruct (finish Fm (j mod 12 + 1) r e v z _ V ltac:(cbn [fval]; lia)) as (v1 & E1 & V1). rewrite E1.
    exists e, v1. auto.
  - (* h *)
    destruct (kw_ok month_names (short (nth (Z.to_nat (mo x - 1)) months [])) 12 (mo x - 1) r v z) as (e & j & A & B & J); [apply name_scan; [apply MS|apply NL; reflexivity]|].
    unfold st in A. rewrite A. cbn [failb p_is].
    destruct (finish Fm (j mod 12 + 1) r e v z _ V ltac:(cbn [fval]; lia)) as (v1 & E1 & V1). rewrite E1.
    exists e, v1. auto.
  - (* A *)
    destruct (kw_ok weekday_names (nth (Z.to_nat (wdx x)) day_names []) 7 (wdx x) r v z) as (e & j & A & B & J); [apply full_scan, DF|].
    unfold st in A. rewrite A. cbn [failb p_is].
    destruct (finish Fwd (j mod 7) r e v z _ V ltac:(cbn [fval]; lia)) as (v1 & E1 & V1). rewrite E1.
    exists e, v1. auto.
  - (* a *)
    destruct (kw_ok weekday_names (short (nth (Z.to_nat (wdx x)) day_names [])) 7 (wdx x) r v z) as (e & j & A & B & J); [apply name_scan; [apply DS|apply NL; reflexivity]|].
    unfold st in A. rewrite A. cbn [failb p_is].
    destruct (finish Fwd (j mod 7) r e v z _ V ltac:(cbn [fval]; lia)) as (v1 & E1 & V1). rewrite E1.
    exists e, v1. auto.
  - (* w *)
    rewrite (read1_u 1) by lia. cbn [bind failb str_is vof nth]. destruct (Z.leb_spec 0 (wdx x)); [|lia].
    destruct (Z.leb_spec (wdx x) 6); [|lia]. cbn [andb]. destruct (Z.eqb_spec (wdx x) 8); [lia|].
    unfold with_is. cbn [p_is p_v p_zone p_cmd p_md p_w p_inw]. fold (str_is r).
    destruct (finish Fwd (wdx x) r false v z _ V eq_refl) as (v1 & E1 & V1). unfold str_is. rewrite E1.
    exists false, v1. split; [reflexivity|]. split; [discriminate|exact V1].
  - (* u *)
    set (t := if wdx x =? 0 then 7 else wdx x). assert (T1 : 1 <= t <= 7) by (unfold t; destruct (Z.eqb_spec (wdx x) 0); lia).
    assert (T2 : (if t =? 7 then 0 else t) = wdx x).
    { unfold t. destruct (Z.eqb_spec (wdx x) 0); [cbn; lia|]. destruct (Z.eqb_spec (wdx x) 7); lia. }
    rewrite (read1_u 1) by lia. cbn [bind failb str_is vof nth]. destruct (Z.leb_spec 1 t); [|lia].
    destruct (Z.leb_spec t 7); [|lia]. cbn [andb]. rewrite T2. destruct (Z.eqb_spec (wdx x) 8); [lia|].
    unfold with_is. cbn [p_is p_v p_zone p_cmd p_md p_w p_inw]. fold (str_is r).
    destruct (finish Fwd (wdx x) r false v z _ V eq_refl) as (v1 & E1 & V1). unfold str_is. rewrite E1.
    exists false, v1. split; [reflexivity|]. split; [discriminate|exact V1].
  - use_one Fj (read1_u 3) lia.
  - use_one FU (read1_u 2) lia.
  - use_one FW (read1_u 2) lia.
  - use_one FV (read1_u 2) lia.
  - use_one FG (read1_s 4) lia.
Qed.

Lemma time_reads c r v z K : memb c (!"HMSTXRIp") = true -> vrel v K -> reads c (time_str w d c) r v z K.
Proof.
  intros H V. unfold reads. destruct (parts_range w d ltac:(lia)) as (_ & M1 & S1 & F1).
  pose proof hours_range as H1. pose proof (twelve_range (hours_of w d)) as T1. pose proof (ticks_pos w) as TP.
  assert (P2 : 10 ^ Z.of_nat 2 = 100) by reflexivity.
  memb_cases H; cbn [in_directive time_str p_md p_is p_w wd_or Ascii.eqb Bool.eqb NUL Z.eqb Pos.eqb flds app].
  - unfold st. cbn [in_directive p_md p_is p_w wd_or Ascii.eqb Bool.eqb NUL Z.eqb Pos.eqb]. use_one FH (read1_u 2) lia.
  - unfold st. cbn [in_directive p_md p_is p_w wd_or Ascii.eqb Bool.eqb NUL Z.eqb Pos.eqb]. use_one FM (read1_u 2) lia.
  - unfold st. cbn [in_directive p_md p_is p_w wd_or Ascii.eqb Bool.eqb NUL Z.eqb Pos.eqb].
    unfold sec_str. rewrite <- app_assoc. rewrite read_sec by lia. rewrite round_sec_exact by lia. cbn [bind].
    unfold with_is. cbn [p_is p_v p_zone p_cmd p_md p_w p_inw].
    destruct (finish Fs (seconds_of w d * ticks w + d mod ticks w) r false v z _ V) as (v3 & E3 & V3).
    { cbn [fval]. unfold seconds_of. fold (ticks w). set (k := ticks w) in *. rewrite (Z.mul_comm 60), Z.rem_mul_r by lia. lia. }
    unfold str_is. rewrite E3. exists false, v3. split; [reflexivity|]. split; [discriminate|exact V3].
  - destruct (clock_ok r v z K V) as (v' & E & V'). unfold st in *. cbn [in_directive p_md Ascii.eqb Bool.eqb NUL]. rewrite E. cbn [bind].
    exists false, v'. split; [reflexivity|]. split; [discriminate|exact V'].
  - destruct (clock_ok r v z K V) as (v' & E & V'). unfold st in *. cbn [in_directive p_md Ascii.eqb Bool.eqb NUL]. rewrite E. cbn [bind].
    exists false, v'. split; [reflexivity|]. split; [discriminate|exact V'].
  - unfold st. cbn [in_directive p_md p_is p_w wd_or Ascii.eqb Bool.eqb NUL Z.eqb Pos.eqb].
    rewrite <- app_assoc. cbn [app].
    rewrite (read_RU 1 2 _ _ (hours_of w d) (":"%char :: pad 2 (minutes_of w d) ++ r)) by (try apply (read_u_pad 2); lia).
    change "000"%char with NUL. rewrite ?read_nul, read_RC, ?read_nul by discriminate.
    rewrite (read_RU 1 2 _ _ (minutes_of w d) r) by (try apply (read_u_pad 2); lia).
    rewrite read_nul. cbn [read bind vof nth]. unfold with_is. cbn [p_is p_v p_zone p_cmd p_md p_w p_inw].
    destruct (set_ok FH (hours_of w d) (str_is r) v z NUL (-1) false K true eq_refl V eq_refl) as (v1 & E1 & V1).
    change "000"%char with NUL. rewrite E1.
    destruct (finish FM (minutes_of w d) r false v1 z _ V1 eq_refl) as (v3 & E3 & V3). unfold str_is. rewrite E3.
    exists false, v3. split; [reflexivity|]. split; [discriminate|exact V3].
  - unfold st. cbn [in_directive p_md p_is p_w wd_or Ascii.eqb Bool.eqb NUL Z.eqb Pos.eqb].
    rewrite (read1_sp 2) by lia. cbn [bind vof nth]. set (t := twelve (hours_of w d)) in *.
    destruct (Z.leb_spec 1 t); [|lia]. destruct (Z.leb_spec t 12); [|lia]. cbn [andb]. unfold with_is. cbn [p_is p_v p_zone p_cmd p_md p_w p_inw].
    destruct (finish FI t r false v z _ V eq_refl) as (v3 & E3 & V3). unfold str_is. change "000"%char with NUL. rewrite E3.
    exists false, v3. split; [reflexivity|]. split; [discriminate|exact V3].
  - destruct (kw_ok ampm_names (half (hours_of w d)) 0 (if hours_of w d <? 12 then 0 else 1) r v z) as (e & j & A & B & J).
    { apply full_scan, half_full. }
    assert (J' : j = if hours_of w d <? 12 then 0 else 1).
    { rewrite <- J. symmetry. apply Zmod_0_r. }
    unfold st in *. cbn [in_directive p_md Ascii.eqb Bool.eqb NUL]. change "000"%char with NUL. rewrite A.
    destruct (finish Fp j r e v z _ V J') as (v1 & E1 & V1). rewrite E1. exists e, v1. auto.
Qed.

Lemma zone_reads r v z K : vrel v K -> reads "z" (!"+0000") r v z K.
Proof.
  intros V. unfold reads, st. cbn [in_directive]. unfold offset_in. cbn [p_is peek good str_is eofb failb negb andb rest lit list_ascii_of_string app Ascii.eqb Bool.eqb p_md NUL].
  assert (E1 : read [RS 2 2] (str_is ("+" :: "0" :: "0" :: "0" :: "0" :: r)%char) = Ok ([0], str_is ("0" :: "0" :: r)%char)) by reflexivity.
  rewrite E1. cbn [bind failb str_is good eofb negb andb peek rest]. change (is_digit "0") with true. cbv iota.
  assert (E2 : read [RU 2 2] (str_is ("0" :: "0" :: r)%char) = Ok ([0], str_is r)) by reflexivity. rewrite E2.
  cbn [bind failb vof nth]. change (60 * Z.abs 0 + 0) with 0. rewrite ll_ok by lia. cbn [bind]. unfold with_is.
  cbn [p_is p_v p_zone p_cmd p_md p_w p_inw].
  destruct (finish Foff 0 r false v z K V eq_refl) as (v1 & E3 & V1). unfold str_is. cbn [failb bind]. rewrite E3.
  exists false, v1. split; [reflexivity|]. split; [discriminate|exact V1].
Qed.

(** * The loop over the format *)
Definition par_in : str := !"%YyCmdFDxBbhAawujUWVGHMSTXRIpz".
Definition text (l : list item) : str := str_of (sys_str w x d) l.
Definition ok_item (i : item) : Prop := match i with Lit c => ordinary c | Dir c => memb c par_in = true end.
Definition all_flds (l : list item) : list fld := flat_map (fun i => match i with Lit _ => [] | Dir c => flds c end) l.

Lemma par_split c : memb c par_in = true ->
  c = "%"%char \/ (memb c (!"YyCmdFDxBbhAawujUWVG") = true /\ sys_str w x d c = date_str x c) \/
  (memb c (!"HMSTXRIp") = true /\ sys_str w x d c = time_str w d c) \/ c = "z"%char.
Proof.
  intros H. memb_cases H; try (now left); try (right; left; split; reflexivity); try (right; right; left; split; reflexivity).
  right; right; right; reflexivity.
Qed.
Lemma dir_reads c r v z K : memb c par_in = true -> c <> "%"%char -> (memb c (!"abh") = true -> no_letter r) -> vrel v K ->
  reads c (sys_str w x d c) r v z K.
Proof.
  intros H NP NL V. destruct (par_split c H) as [E|[[E ->]|[[E ->]|E]]]; [contradiction|now apply date_reads|now apply time_reads|].
  subst. now apply zone_reads.
Qed.
Lemma par_in_dir c : memb c par_in = true -> c <> "%"%char -> memb c in_directives = true.
Proof. intros H NP. memb_cases H; try reflexivity. now destruct NP. Qed.

(** Texts of directives do not start with white space *)
Definition starts (t : str) : Prop := match t with [] => False | c :: _ => is_space c = false end.
Lemma dig_starts c s : is_dig c -> starts (c :: s).
Proof.
  intros H. cbn [starts]. destruct (is_space c) eqn:E; [exfalso|reflexivity]. unfold is_space in E.
  apply memb_in in E. cbn [In] in E. unfold is_dig in H.
  repeat (destruct E as [<-|E]; [vm_compute in H; destruct H as [H _]; now destruct H|]). destruct E.
Qed.
Lemma pad_starts k n s : 0 <= n -> starts (pad k n ++ s).
Proof. intros H. destruct (pad_ne k n H) as (c & t & -> & Dc). cbn [app]. now apply dig_starts. Qed.
Lemma sgn_starts k n s : starts (sgn_str k n ++ s).
Proof. unfold sgn_str. destruct (Z.ltb_spec n 0); [reflexivity|apply pad_starts; lia]. Qed.
Lemma starts_app t s : starts t -> starts (t ++ s).
Proof. destruct t; [contradiction|exact (fun H => H)]. Qed.

Lemma dir_starts c : memb c par_in = true -> starts (sys_str w x d c).
Proof.
  intros H. assert (E : exists_date x) by apply C.
  assert (MD : 1 <= mo x <= 12 /\ 1 <= dy x <= 31).
  { pose proof E as Q. apply exists_date_spec in Q. pose proof (mlen_bound (yr x) (mo x)). lia. }
  pose proof (wdx_range x) as WR. pose proof (year_bounds x E) as YB.
  pose proof (rank_range 0 (yr x) (num x) ltac:(lia) YB) as RU0. pose proof (rank_range 1 (yr x) (num x) ltac:(lia) YB) as RW0.
  pose proof (isow_range (num x)) as RV. destruct (parts_range w d ltac:(lia)) as (H0 & M1 & S1 & F1).
  pose proof (twelve_range (hours_of w d)) as T1.
  assert (PS : forall k n, 0 <= n -> starts (pad k n)) by (intros; rewrite <- app_nil_r; now apply pad_starts).
  assert (SS : forall k n, starts (sgn_str k n)) by (intros; rewrite <- app_nil_r; now apply sgn_starts).
  assert (MN : forall i, (i < 12)%nat -> starts (nth i months []) /\ starts (short (nth i months []))).
  { intros i I. do 12 (destruct i as [|i]; [split; reflexivity|]). lia. }
  assert (DN : forall i, (i < 7)%nat -> starts (nth i day_names []) /\ starts (short (nth i day_names []))).
  { intros i I. do 7 (destruct i as [|i]; [split; reflexivity|]). lia. }
  assert (HF : forall h, starts (half h)) by (intros h; unfold half; destruct (h <? 12); reflexivity).
  assert (SC : starts (sec_str w d)) by (apply pad_starts; lia).
  assert (CL : starts (clock_str w d)) by (apply pad_starts; lia).
  destruct (par_split c H) as [->|[[Q ->]|[[Q ->]| ->]]]; [reflexivity| | |reflexivity]; memb_cases Q; cbn [date_str time_str];
    try (apply PS; lia); try apply SS; try apply HF; try apply SC; try apply CL; try (apply pad_starts; lia); try apply sgn_starts;
    try (apply MN; lia); try (apply DN; lia).
  - apply PS. apply Z.mod_pos_bound. lia.
  - apply PS. destruct (wdx x =? 0); lia.
Qed.
Lemma dir_no_letter c s : memb c par_in = true -> memb c names = false -> no_letter (sys_str w x d c ++ s).
Proof.
  intros H N. assert (E : exists_date x) by apply C.
  assert (MD : 1 <= mo x <= 12 /\ 1 <= dy x <= 31).
  { pose proof E as Q. apply exists_date_spec in Q. pose proof (mlen_bound (yr x) (mo x)). lia. }
  pose proof (wdx_range x) as WR. pose proof (year_bounds x E) as YB.
  pose proof (rank_range 0 (yr x) (num x) ltac:(lia) YB) as RU0. pose proof (rank_range 1 (yr x) (num x) ltac:(lia) YB) as RW0.
  pose proof (isow_range (num x)) as RV. destruct (parts_range w d ltac:(lia)) as (H0 & M1 & S1 & F1).
  pose proof (twelve_range (hours_of w d)) as T1.
  assert (PS : forall k n t, 0 <= n -> no_letter (pad k n ++ t)).
  { intros k n t Hn. destruct (pad_ne k n Hn) as (e & u & -> & De). cbn [app no_letter]. unfold letter, is_dig in *. lia. }
  assert (SS : forall k n t, no_letter (sgn_str k n ++ t)).
  { intros k n t. unfold sgn_str. destruct (Z.ltb_spec n 0); [|apply PS; lia]. cbn [app no_letter]. unfold letter.
    change (uc "-") with 45. lia. }
  destruct (par_split c H) as [->|[[Q ->]|[[Q ->]| ->]]].
  - cbn. unfold letter. change (uc "%") with 37. lia.
  - memb_cases Q; try discriminate N; cbn [date_str]; rewrite <- ?app_assoc; try (apply PS; lia); try apply SS.
    + apply PS. apply Z.mod_pos_bound. lia.
    + apply PS. destruct (wdx x =? 0); lia.
  - memb_cases Q; try discriminate N; cbn [time_str]; unfold clock_str, sec_str; rewrite <- ?app_assoc; apply PS; lia.
  - cbn. unfold letter. change (uc "+") with 43. lia.
Qed.

Lemma skip_starts t : starts t -> skip_ws t = (t, false).
Proof. destruct t as [|c t]; [contradiction|]. cbn. now intros ->. Qed.
Lemma skip_idem t : fst (skip_ws (fst (skip_ws t))) = fst (skip_ws t) /\ (fst (skip_ws t) = [] -> snd (skip_ws t) = true).
Proof.
  induction t as [|c t IH]; [split; reflexivity|]. cbn [skip_ws]. destruct (is_space c) eqn:E; [exact IH|].
  cbn [fst snd]. split; [cbn [skip_ws]; now rewrite E|discriminate].
Qed.
Lemma skip_ws_eof t : snd (skip_ws t) = true -> fst (skip_ws t) = [].
Proof. induction t as [|c t IH]; [reflexivity|]. cbn [skip_ws]. destruct (is_space c); [exact IH|discriminate]. Qed.
(** The stream holds [t], perhaps without the leading white space *)
Definition holds (s : ist) (t : str) : Prop :=
  failb s = false /\ (rest s = t \/ rest s = fst (skip_ws t)) /\ (eofb s = true -> rest s = []).
Lemma holds_starts s t : holds s t -> starts t -> s = str_is t.
Proof.
  intros (F & R & E) T. rewrite (skip_starts t T) in R. cbn [fst] in R. assert (rest s = t) as Q by tauto.
  destruct s as [r e f]. cbn [rest failb eofb] in *. subst. destruct e; [|reflexivity]. specialize (E eq_refl). subst. destruct T.
Qed.
Lemma apart_next c l : apart (Dir c :: l) -> Forall ok_item l -> memb c (!"abh") = true -> no_letter (text l).
Proof.
  cbn [apart]. intros [A _] F M. specialize (A M). destruct l as [|[e|e] l]; [exact Logic.I| |].
  - unfold text, str_of. cbn [map concat item_str app no_letter]. exact A.
  - apply Forall_cons_iff in F. destruct F as [F _]. unfold text, str_of. cbn [map concat item_str]. apply dir_no_letter; assumption.
Qed.

Lemma loop_items l : Forall ok_item l -> apart l -> forall s v z K, holds s (text l) -> vrel v K ->
  exists s' v', loop w (fmt_of l) (P s v z false NUL (-1) false) = Ok (P s' v' z false NUL (-1) false) /\
  failb s' = false /\ (forall g, v' g = if known (all_flds l) g || known K g then fval g else nav g).
Proof.
  induction l as [|i l IH]; intros F A s v z K H V.
  - exists s, v. split; [reflexivity|]. split; [apply H|]. exact V.
  - apply Forall_cons_iff in F. destruct F as [Fi F]. destruct i as [c|c].
    + unfold fmt_of. cbn [map concat show app]. fold (fmt_of l). cbn [ok_item] in Fi. destruct Fi as [N1 N2].
      assert (T : text (Lit c :: l) = c :: text l) by reflexivity. rewrite T in H.
      assert (EP : Ascii.eqb c "%" = false) by now apply Ascii.eqb_neq.
      pose proof H as (HF & HR & HE). cbn [loop p_is p_inw]. rewrite HF. cbn [andb]. unfold step. cbn [p_cmd p_is]. rewrite EP.
      destruct (is_space c) eqn:SP.
      * assert (memb c in_directives = false /\ Ascii.eqb c "E" || Ascii.eqb c "O" = false) as [-> ->].
        { unfold is_space in SP. apply memb_in in SP. cbn [In] in SP. repeat (destruct SP as [<-|SP]; [split; reflexivity|]). destruct SP. }
        cbn [bind]. cbn [skip_ws] in HR. rewrite SP in HR. destruct (skip_idem (text l)) as [I1 I2].
        destruct (good s) eqn:G.
        -- cbn [bind]. unfold with_is. cbn [p_is p_v p_zone p_cmd p_md p_w p_inw].
           apply (IH F A _ v z K); [|exact V]. unfold ws. unfold holds.
           destruct HR as [R|R]; rewrite R.
           ++ cbn [skip_ws]. rewrite SP. destruct (skip_ws (text l)) as [q e] eqn:Q. cbn [failb rest eofb fst snd] in *.
              split; [exact HF|]. split; [now right|]. unfold good in G. destruct (eofb s); [discriminate|]. cbn [orb]. intros ->.
              rewrite <- (skip_ws_eof (text l)); [now rewrite Q|now rewrite Q].
           ++ destruct (skip_ws (fst (skip_ws (text l)))) as [q e] eqn:Q. cbn [failb rest eofb fst snd] in *.
              split; [exact HF|]. split; [now right|]. unfold good in G. destruct (eofb s); [discriminate|]. cbn [orb]. intros ->.
              rewrite <- (skip_ws_eof (fst (skip_ws (text l)))); [now rewrite Q|now rewrite Q].
        -- cbn [bind]. apply (IH F A _ v z K); [|exact V]. unfold good in G. rewrite HF in G. cbn [negb] in G. rewrite andb_true_r in G.
           apply negb_false_iff in G. specialize (HE G). split; [exact HF|]. split; [|intros _; exact HE].
           destruct HR as [R|R]; [rewrite HE in R; discriminate|]. now right.
      * assert (HS : s = str_is (c :: text l)) by (apply holds_starts; [exact H|exact SP]). subst s. clear HF HR HE H.
        assert (RC : forall q, Ok (with_is (P (str_is (c :: text l)) v z false NUL (-1) false) (read_c c (str_is (c :: text l)))) = q ->
           q = Ok (P (str_is (text l)) v z false NUL (-1) false)).
        { intros q <-. unfold with_is. cbn [p_is p_v p_zone p_cmd p_md p_w p_inw]. now rewrite read_c_ok by exact N2. }
        assert (HN : holds (str_is (text l)) (text l)) by (split; [reflexivity|split; [now left|discriminate]]).
        destruct (IH F A (str_is (text l)) v z K HN V) as (s' & v' & E & R).
        exists s', v'. split; [|exact R]. cbn [p_is p_v p_zone p_cmd p_md p_w p_inw].
        destruct (memb c in_directives); [|destruct (Ascii.eqb c "E" || Ascii.eqb c "O")]; rewrite (RC _ eq_refl); cbn [bind]; exact E.
    + unfold fmt_of. cbn [map concat show app]. fold (fmt_of l). cbn [ok_item] in Fi.
      assert (T : text (Dir c :: l) = sys_str w x d c ++ text l) by reflexivity. rewrite T in H.
      apply holds_starts in H; [|apply starts_app, dir_starts; exact Fi]. subst s.
      cbn [loop p_is p_inw failb str_is]. cbn [andb]. unfold step at 1. change (memb "%" in_directives) with false.
      cbn [Ascii.eqb Bool.eqb orb p_cmd bind p_v p_zone p_md p_w p_is failb p_inw andb]. fold (str_is (sys_str w x d c ++ text l)).
      cbn [failb str_is]. fold (str_is (sys_str w x d c ++ text l)).
      assert (NX : exists s1 v1, step w c (P (str_is (sys_str w x d c ++ text l)) v z true NUL (-1) false) = Ok (P s1 v1 z false NUL (-1) false) /\
        holds s1 (text l) /\ vrel v1 (flds c ++ K)).
      { destruct (Ascii.eqb_spec c "%"%char) as [->|NP].
        - exists (str_is (text l)), v. split; [reflexivity|]. split; [|exact V]. split; [reflexivity|split; [now left|discriminate]].
        - unfold step. rewrite (par_in_dir c Fi NP). cbn [p_cmd].
          destruct (dir_reads c (text l) v z K Fi NP (apart_next c l A F) V) as (e & v1 & E1 & E2 & E3).
          exists (IS (text l) e false), v1. unfold str_is in *. split; [exact E1|]. split; [|exact E3].
          split; [reflexivity|]. split; [now left|exact E2]. }
      destruct NX as (s1 & v1 & E1 & H1 & V1). rewrite E1. cbn [bind].
      destruct (IH F (proj2 A) s1 v1 z _ H1 V1) as (s' & v' & E & E' & R).
      exists s', v'. split; [exact E|]. split; [exact E'|]. intros g. rewrite R. unfold all_flds, known. cbn [flat_map]. rewrite !existsb_app.
      rewrite orb_assoc, (orb_comm (existsb (fld_eqb g) (flds c))). reflexivity.
Qed.
End Back.
