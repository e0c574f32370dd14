(** Proofs about cat with objects *)
From Coq Require Import ZArith List Reals Lia Lra.
From Flocq Require Import Core.Core IEEE754.BinarySingleNaN.
From Verif Require StrProofs2.
From Verif Require Import Base FmtModel FmtSpec FmtProofs CatModel ToNumSpec ToNumProofs CatSpec.
Import ListNotations.
Local Open Scope Z_scope.

(** * Numbers *)
Lemma digits_of_dec_u fuel : forall n, 0 <= n < 10 ^ Z.of_nat fuel -> (0 < fuel)%nat -> digits_of fuel n = dec_u n.
Proof.
  induction fuel as [|fuel IH]; intros n Hn Hf; [lia|]. cbn [digits_of]. rewrite dec_u_eq by lia.
  destruct (Z.ltb_spec n 10); [reflexivity|].
  rewrite Nat2Z.inj_succ, Z.pow_succ_r in Hn by lia.
  assert (Hd : 0 <= n / 10 < 10 ^ Z.of_nat fuel) by (split; [apply Z.div_pos; lia|apply Z.div_lt_upper_bound; lia]).
  rewrite IH; [reflexivity|exact Hd|]. destruct fuel; [|lia]. cbn in Hd. assert (1 <= n / 10) by (apply Z.div_le_lower_bound; lia). lia.
Qed.
Lemma dec_decimal z : dec z = decimal_of z.
Proof.
  assert (X : forall n, 0 <= n -> dec_u n = decimal_of_nonneg n).
  { intros n Hn. unfold decimal_of_nonneg. symmetry. apply digits_of_dec_u; [|lia]. split; [exact Hn|]. apply log2_fuel. exact Hn. }
  unfold dec, decimal_of. destruct (Z.ltb_spec z 0); [f_equal|]; apply X; lia.
Qed.
Lemma value_digits s : value s = digits_value s. Proof. reflexivity. Qed.
Lemma all_digits_dig s : all_digits s <-> Forall is_dig s.
Proof. unfold all_digits, is_dig, dec_digit. rewrite Forall_forall. reflexivity. Qed.
Lemma up_to_nul_spec s t : c_string s t <-> t = up_to_nul s.
Proof.
  assert (U : forall s, exists r, (s = up_to_nul s \/ s = up_to_nul s ++ "000"%char :: r) /\ ~ In "000"%char (up_to_nul s)).
  { induction s0 as [|c s0 (r & H & N)]; cbn [up_to_nul]; [exists []; auto|].
    destruct (Ascii.eqb_spec c "000") as [->|Hc].
    - exists s0. split; [right; reflexivity|auto].
    - exists r. split; [|intros [E|E]; [congruence|contradiction]]. destruct H as [H|H]; [left; f_equal; exact H|right; cbn; f_equal; exact H]. }
  split; [|intros ->; apply U]. intros (r & H & Hn). revert s H.
  induction t as [|c t IH]; intros s H.
  - destruct H as [->| ->]; reflexivity.
  - assert (Hc : c <> "000"%char) by (intros ->; apply Hn; left; reflexivity).
    destruct H as [->| ->]; cbn [app up_to_nul]; (destruct (Ascii.eqb_spec c "000"); [contradiction|]); f_equal; apply IH; auto; intros Hi; apply Hn; right; exact Hi.
Qed.
Lemma nearest_frac N D : 0 <= N -> 0 < D ->
  ZnearestE (IZR N / IZR D) = (let q := N / D in let r := N mod D in if 2 * r <? D then q else if D <? 2 * r then q + 1 else if Z.even q then q else q + 1).
Proof.
  intros HN HD. pose proof (Z.div_mod N D ltac:(lia)) as E. pose proof (Z.mod_pos_bound N D HD) as B.
  set (q := N / D) in *. set (r := N mod D) in *. cbn zeta.
  assert (HDR : (0 < IZR D)%R) by (apply IZR_lt; exact HD).
  assert (HF : Zfloor (IZR N / IZR D) = q) by (apply Zfloor_div; lia).
  assert (HX : (IZR N / IZR D - IZR q = IZR r / IZR D)%R).
  { rewrite E, plus_IZR, mult_IZR. field. lra. }
  unfold Znearest. rewrite HF, HX.
  assert (HH : forall x : R, (x / IZR D = (2 * x) * / (2 * IZR D))%R) by (intros; field; lra).
  assert (H2 : (/ 2 = IZR D * / (2 * IZR D))%R) by (field; lra).
  assert (HI : (0 < / (2 * IZR D))%R) by (apply Rinv_0_lt_compat; lra).
  assert (HCe : r <> 0 -> Zceil (IZR N / IZR D) = q + 1).
  { intros Hr. rewrite Zceil_floor_neq; rewrite HF; [reflexivity|]. intros Eq. rewrite Eq in HX at 1.
    assert (Hz : (IZR r / IZR D = 0)%R) by lra. apply Hr. apply eq_IZR.
    replace (IZR r) with (IZR r / IZR D * IZR D)%R by (field; lra). rewrite Hz. ring. }
  destruct (Z.ltb_spec (2 * r) D) as [L|L].
  - rewrite Rcompare_Lt; [reflexivity|]. rewrite HH, H2. apply Rmult_lt_compat_r; [exact HI|]. rewrite <- mult_IZR. apply IZR_lt. exact L.
  - destruct (Z.ltb_spec D (2 * r)) as [L2|L2].
    + rewrite Rcompare_Gt; [apply HCe; lia|]. rewrite HH, H2. apply Rmult_lt_compat_r; [exact HI|]. rewrite <- mult_IZR. apply IZR_lt. exact L2.
    + rewrite Rcompare_Eq; [|rewrite HH, H2; f_equal; rewrite <- mult_IZR; f_equal; lia].
      destruct (Z.even q); cbn [negb]; [reflexivity|apply HCe; lia].
Qed.
Lemma millionths_spec s m e H : millionths m e = ZnearestE (Rabs (B2R (B754_finite (prec := 53) (emax := 1024) s m e H)) * 1000000).
Proof.
  unfold B2R. rewrite <- F2R_Zabs. cbn [Fnum Fexp]. replace (Z.abs (cond_Zopp s (Z.pos m))) with (Z.pos m) by (destruct s; reflexivity).
  unfold millionths. destruct (Z.leb_spec 0 e) as [L|L].
  -
    replace (F2R {| Fnum := Z.pos m; Fexp := e |} * 1000000)%R with (IZR (Z.pos m * 2 ^ e * 1000000)).
    + rewrite Zrnd_IZR by apply valid_rnd_N. reflexivity.
    + unfold F2R. cbn [Fnum Fexp]. rewrite !mult_IZR. f_equal. f_equal. rewrite <- IZR_Zpower by exact L. reflexivity.
  - replace (F2R {| Fnum := Z.pos m; Fexp := e |} * 1000000)%R with (IZR (Z.pos m * 1000000) / IZR (2 ^ (- e)))%R.
    + rewrite nearest_frac; [reflexivity|lia|]. apply Z.pow_pos_nonneg; lia.
    + unfold F2R. cbn [Fnum Fexp]. rewrite mult_IZR. unfold Rdiv. replace (bpow radix2 e) with (/ IZR (2 ^ (- e)))%R; [ring|].
      replace (IZR (2 ^ (- e))) with (bpow radix2 (- e)) by (rewrite <- IZR_Zpower by lia; reflexivity).
      rewrite bpow_opp, Rinv_inv. reflexivity.
Qed.
Lemma fixed_spec n : 0 <= n -> exists d1 d2, fixed n = d1 ++ ["."%char] ++ d2 /\ d1 = decimal_of (digits_value d1) /\
  all_digits d1 /\ all_digits d2 /\ length d2 = 6%nat /\ digits_value (d1 ++ d2) = n.
Proof.
  intros Hn. assert (Q : 0 <= n / 1000000) by (apply Z.div_pos; lia). pose proof (Z.mod_pos_bound n 1000000 ltac:(lia)) as B.
  exists (dec (n / 1000000)), (put_right "0" 6 (n mod 1000000)). split; [reflexivity|].
  rewrite put_right_pad by lia. destruct (pad_padded 6 (n mod 1000000) ltac:(lia) ltac:(lia)) as (P1 & P2 & P3).
  assert (L6 : length (pad 6 (n mod 1000000)) = 6%nat).
  { destruct P3 as [P3|[P3 P4]]; [exact P3|exfalso]. destruct (dec_u_dig (n mod 1000000) ltac:(lia)) as (D1 & D2 & D3 & D4).
    unfold pad in *. assert (L : (6 < length (dec_u (n mod 1000000)))%nat).
    { rewrite app_length, repeat_length in P3. lia. }
    replace (6 - length (dec_u (n mod 1000000)))%nat with 0%nat in * by lia. cbn [repeat app] in *.
    destruct (dec_u (n mod 1000000)) as [|c s] eqn:Ed; [cbn in L; lia|]. cbn [hd] in P4.
    rewrite value_cons in D2. inversion D1 as [|? ? Dc Ds]; subst. assert (uc c <> 48).
    { intros Z0. apply P4. unfold is_dig in Dc. apply StrProofs2.uc_inj. rewrite Z0. reflexivity. }
    unfold is_dig in Dc. pose proof (value_bound s Ds). cbn in L. unfold zlen in D2.
    assert (10 ^ 6 <= 10 ^ Z.of_nat (length s)) by (apply Z.pow_le_mono_r; lia). nia. }
  rewrite dec_nonneg by exact Q. destruct (dec_u_dig _ Q) as (D1 & D2 & _). rewrite <- value_digits, D2.
  split; [rewrite <- dec_decimal; symmetry; apply dec_nonneg; exact Q|]. split; [apply all_digits_dig; exact D1|].
  split; [apply all_digits_dig; exact P1|]. split; [exact L6|].
  rewrite digits_value_app, <- (value_digits (dec_u _)), <- (value_digits (pad _ _)), D2, P2. unfold zlen. rewrite L6. pose proof (Z.div_mod n 1000000). lia.
Qed.
Lemma fixed_unique d1 d2 : d1 = decimal_of (digits_value d1) -> all_digits d1 -> all_digits d2 -> length d2 = 6%nat ->
  d1 ++ ["."%char] ++ d2 = fixed (digits_value (d1 ++ d2)).
Proof.
  intros E A1 A2 L. apply all_digits_dig in A1, A2. pose proof (value_bound _ A2) as B2. pose proof (value_bound _ A1) as B1.
  rewrite value_digits in B1, B2. rewrite digits_value_app. unfold zlen in *. rewrite L in *. change (10 ^ Z.of_nat 6) with 1000000 in *.
  unfold fixed. replace ((digits_value d1 * 1000000 + digits_value d2) / 1000000) with (digits_value d1)
    by (apply (Z.div_unique _ _ _ (digits_value d2)); lia).
  replace ((digits_value d1 * 1000000 + digits_value d2) mod 1000000) with (digits_value d2)
    by (apply (Z.mod_unique _ _ (digits_value d1)); lia).
  rewrite dec_decimal, <- E. f_equal. cbn [app]. f_equal. rewrite put_right_pad by lia. apply padded_pad; [lia|].
  split; [exact A2|]. split; [reflexivity|]. left. exact L.
Qed.
Lemma nearest_nonneg x : (0 <= x)%R -> 0 <= ZnearestE x.
Proof. intros H. apply Zrnd_le with (rnd := ZnearestE) in H; [|apply valid_rnd_N]. rewrite Zrnd_IZR in H by apply valid_rnd_N. exact H. Qed.
Lemma six_spec x s : six_decimals x s <-> s = to_string_f x.
Proof.
  assert (F : forall (sg : bool) n, 0 <= n -> forall z, z = n ->
    ((exists d1 d2, s = (if sg then ["-"%char] else []) ++ d1 ++ ["."%char] ++ d2 /\ d1 = decimal_of (digits_value d1) /\
      all_digits d1 /\ all_digits d2 /\ length d2 = 6%nat /\ digits_value (d1 ++ d2) = z) <-> s = sign_of sg ++ fixed n)).
  { intros sg n Hn z ->. split.
    - intros (d1 & d2 & -> & E & A1 & A2 & L & <-). rewrite (fixed_unique d1 d2 E A1 A2 L). reflexivity.
    - intros ->. destruct (fixed_spec n Hn) as (d1 & d2 & -> & H). exists d1, d2. split; [reflexivity|exact H]. }
  destruct x as [sg|sg| |sg m e H].
  - cbn [six_decimals to_string_f]. apply F; [lia|]. cbn [B2R]. rewrite Rabs_R0, Rmult_0_l. exact (Zrnd_IZR ZnearestE 0).
  - destruct sg; reflexivity.
  - reflexivity.
  - cbn [six_decimals to_string_f]. apply F.
    + rewrite (millionths_spec sg m e H). apply nearest_nonneg. apply Rmult_le_pos; [apply Rabs_pos|lra].
    + symmetry. apply millionths_spec.
Qed.

(** * Objects *)
Definition buffered (os : objects) (w : list shown) (k : nat) (o : shown) (c : csv) : Prop :=
  match buffer o with
  | None => sv_ c = Outside (text o)
  | Some j => sv_ c = Inside j /\ (exists p, nth_error w j = Some p /\ text p = text o /\ buffer p = Some j) /\ (j = k -> str_ c = text o)
  end.
Definition rel (os : objects) (w : list shown) : Prop :=
  length os = length w /\
  forall k o, nth_error w k = Some o ->
    (if ended o then nth_error os k = Some None else exists c, nth_error os k = Some (Some c) /\ buffered os w k o c) /\
    match buffer o with Some j => exists p, nth_error w j = Some p /\ text p = text o /\ buffer p = Some j | None => True end.
Lemma rel_read os w k : rel os w -> read_obj os k = match usable w k with Some t => Ok t | None => UB end.
Proof.
  intros [L H]. unfold read_obj, usable. destruct (nth_error w k) as [o|] eqn:E.
  2: { assert (nth_error os k = None) as -> by (apply nth_error_None; apply nth_error_None in E; lia). reflexivity. }
  destruct (H k o E) as [H1 _]. destruct (ended o) eqn:Eo; [rewrite H1; reflexivity|]. destruct H1 as (c & -> & Hb).
  unfold buffered in Hb. unfold read. destruct (buffer o) as [j|]; [|rewrite Hb; reflexivity].
  destruct Hb as (-> & (p & Hp & Ht & Hbp) & _). unfold lives. rewrite Hp. destruct (H j p Hp) as [H2 _].
  destruct (ended p) eqn:Ep; cbn [negb]; [rewrite H2; reflexivity|]. destruct H2 as (cj & -> & Hc).
  unfold buffered in Hc. rewrite Hbp in Hc. destruct Hc as (_ & _ & Hc). rewrite Hc by reflexivity. rewrite Ht. reflexivity.
Qed.
Lemma rel_ext os w c o : rel os w -> ended o = false ->
  match buffer o with
  | None => sv_ c = Outside (text o)
  | Some j => sv_ c = Inside j /\ ((j = length w /\ str_ c = text o) \/ exists p, nth_error w j = Some p /\ text p = text o /\ buffer p = Some j)
  end -> rel (os ++ [Some c]) (w ++ [o]).
Proof.
  intros [L H] He Hb. assert (LN : forall k p, nth_error w k = Some p -> nth_error (w ++ [o]) k = Some p).
  { intros k p E. rewrite nth_error_app1; [exact E|]. apply nth_error_Some. congruence. }
  assert (LL : nth_error (w ++ [o]) (length w) = Some o) by (rewrite nth_error_app2, Nat.sub_diag by lia; reflexivity).
  split; [rewrite !app_length; cbn; lia|]. intros k p E. destruct (Nat.lt_ge_cases k (length w)) as [K|K].
  - rewrite nth_error_app1 in E by exact K. destruct (H k p E) as [H1 H2]. rewrite nth_error_app1 by lia. split.
    + destruct (ended p); [exact H1|]. destruct H1 as (c1 & E1 & B1). exists c1. split; [exact E1|]. unfold buffered in *.
      destruct (buffer p) as [j|]; [|exact B1]. destruct B1 as (B1 & (q & Q1 & Q2) & B3). split; [exact B1|]. split; [|exact B3].
      exists q. split; [apply LN; exact Q1|exact Q2].
    + destruct (buffer p) as [j|]; [|exact I]. destruct H2 as (q & Q1 & Q2). exists q. split; [apply LN; exact Q1|exact Q2].
  - assert (k = length w). { assert (k < length (w ++ [o]))%nat by (apply nth_error_Some; congruence). rewrite app_length in H0; cbn in H0; lia. }
    subst k. rewrite LL in E. injection E as <-. rewrite He.
    assert (nth_error (os ++ [Some c]) (length w) = Some (Some c)) as -> by (rewrite <- L, nth_error_app2, Nat.sub_diag by lia; reflexivity).
    split.
    + exists c. split; [reflexivity|]. unfold buffered. destruct (buffer o) as [j|] eqn:Eb; [|exact Hb].
      destruct Hb as (Hs & Hb). split; [exact Hs|]. split.
      * destruct Hb as [[-> Hc]|(q & Q1 & Q2)]; [exists o; auto|]. exists q. split; [apply LN; exact Q1|exact Q2].
      * intros ->. destruct Hb as [[_ Hc]|(q & Q1 & _)]; [exact Hc|]. assert (length w < length w)%nat by (apply nth_error_Some; congruence). lia.
    + destruct (buffer o) as [j|] eqn:Eb; [|exact I]. destruct Hb as (Hs & [[-> Hc]|(q & Q1 & Q2)]); [exists o; auto|].
      exists q. split; [apply LN; exact Q1|exact Q2].
Qed.
Lemma denotes_fun t a s s' : denotes t a s -> denotes t a s' -> s = s'.
Proof.
  destruct a; cbn [denotes]; try congruence.
  - rewrite !up_to_nul_spec. congruence.
  - rewrite !six_spec. congruence.
Qed.
Lemma shown_fun w a o o' : shown_of w a o -> shown_of w a o' -> o = o'.
Proof.
  intros [E1 H1] [E2 H2]. assert (K : text o = text o' /\ buffer o = buffer o').
  { destruct a; try (destruct H1 as [D1 B1], H2 as [D2 B2]; split; [eapply denotes_fun; eassumption|congruence]).
    destruct H1 as (p & P1 & P2 & P3 & P4), H2 as (q & Q1 & Q2 & Q3 & Q4). assert (p = q) by congruence. subst. split; congruence. }
  destruct K. destruct o, o'; cbn in *; congruence.
Qed.
Lemma make_ok os w a : rel os w ->
  match make os a with
  | Ok c => exists o, shown_of w a o /\ rel (os ++ [Some c]) (w ++ [o])
  | _ => forall o, ~ shown_of w a o
  end.
Proof.
  intros HR. assert (L : length os = length w) by apply HR.
  destruct a; cbn [make].
  - exists (Shown s None false). split; [split; [reflexivity|split; reflexivity]|]. apply rel_ext; auto. reflexivity.
  - exists (Shown (up_to_nul s) None false). split; [split; [reflexivity|split; [apply up_to_nul_spec; reflexivity|reflexivity]]|]. apply rel_ext; auto. reflexivity.
  - exists (Shown [c] (Some (length w)) false). split; [split; [reflexivity|split; reflexivity]|]. apply rel_ext; auto. cbn. rewrite L. auto.
  - exists (Shown (decimal_of z) (Some (length w)) false). split; [split; [reflexivity|split; reflexivity]|]. apply rel_ext; auto. cbn.
    rewrite L. unfold to_string. rewrite dec_decimal. auto.
  - exists (Shown (to_string_f x) (Some (length w)) false). split; [split; [reflexivity|split; [apply six_spec; reflexivity|reflexivity]]|].
    apply rel_ext; auto. cbn. rewrite L. auto.
  - destruct HR as [_ H]. destruct (nth_error w k) as [p|] eqn:Ep.
    + destruct (H k p Ep) as [H1 H2]. destruct (ended p) eqn:E.
      * rewrite H1. intros o (_ & q & Q1 & Q2 & _). congruence.
      * destruct H1 as (c & -> & Hb). exists (Shown (text p) (buffer p) false). split.
        { split; [reflexivity|]. exists p. cbn. auto. }
        apply rel_ext; [split; assumption|reflexivity|]. cbn. unfold buffered in Hb. destruct (buffer p) as [j|]; [|exact Hb].
        destruct Hb as (-> & Hb & _). split; [reflexivity|]. right. exact Hb.
    + assert (nth_error os k = None) as -> by (apply nth_error_None; apply nth_error_None in Ep; lia).
      intros o (_ & q & Q1 & _). congruence.
Qed.
Lemma usable_app os w e k : rel os w -> (k < length w)%nat -> usable (w ++ e) k = usable w k.
Proof.
  intros [L H] K. unfold usable. rewrite nth_error_app1 by exact K. destruct (nth_error w k) as [p|] eqn:E; [|reflexivity].
  destruct (ended p); [reflexivity|]. destruct (H k p E) as [_ H2]. destruct (buffer p) as [j|]; [|reflexivity].
  destruct H2 as (q & Q & _). unfold lives. rewrite nth_error_app1 by (apply nth_error_Some; congruence). reflexivity.
Qed.
Lemma usable_lt w k t : usable w k = Some t -> (k < length w)%nat.
Proof. unfold usable. destruct (nth_error w k) eqn:E; [|discriminate]. intros _. apply nth_error_Some. congruence. Qed.
Lemma usable_new os w a o c : rel os w -> rel (os ++ [Some c]) (w ++ [o]) -> shown_of w a o ->
  forall s, usable (w ++ [o]) (length w) = Some s <-> denotes (usable w) a s.
Proof.
  intros HR HR2 [E HS] s. unfold usable at 1. rewrite nth_error_app2, Nat.sub_diag by lia. cbn [nth_error]. rewrite E.
  assert (LW : lives (w ++ [o]) (length w) = true) by (unfold lives; rewrite nth_error_app2, Nat.sub_diag by lia; cbn; rewrite E; reflexivity).
  destruct a; try (destruct HS as [D B]; rewrite B, ?LW; cbn [denotes] in *).
  - rewrite D. split; [congruence|intros ->; reflexivity].
  - rewrite up_to_nul_spec in *. rewrite D. split; [congruence|intros ->; reflexivity].
  - rewrite D. split; [congruence|intros ->; reflexivity].
  - rewrite D. split; [congruence|intros ->; reflexivity].
  - rewrite six_spec in *. rewrite D. split; [congruence|intros ->; reflexivity].
  - destruct HS as (p & P1 & P2 & P3 & P4). cbn [denotes]. rewrite P3, P4. unfold usable. rewrite P1, P2.
    destruct (buffer p) as [j|] eqn:Ej; [|reflexivity].
    destruct (proj2 HR k p P1) as [_ H2]. rewrite Ej in H2. destruct H2 as (q & Q & _).
    unfold lives. rewrite nth_error_app1 by (apply nth_error_Some; congruence). reflexivity.
Qed.
Lemma Forall2_impl_in' {A B} (P : A -> Prop) (Q R : A -> B -> Prop) l m : Forall2 Q l m -> Forall P l ->
  (forall a b, P a -> Q a b -> R a b) -> Forall2 R l m.
Proof. intros F H I. induction F; [constructor|]. inversion H; subst. constructor; auto. Qed.
(** the objects that the arguments are bound to *)
Definition means (w : list shown) (args : list arg) (w' : list shown) (ks : list nat) : Prop :=
  Forall2 (fun a k => forall s, usable w' k = Some s <-> denotes (usable w) a s) args ks.
Definition known (w : list shown) (a : arg) : Prop := match a with Obj k => (k < length w)%nat | _ => True end.
Lemma known_app w e a : known w a -> known (w ++ e) a.
Proof. destruct a; cbn [known]; auto. rewrite app_length. lia. Qed.
Lemma denotes_app os w e a s : rel os w -> known w a -> denotes (usable (w ++ e)) a s <-> denotes (usable w) a s.
Proof. intros HR K. destruct a; cbn [denotes]; try reflexivity. cbn [known] in K. rewrite (usable_app os w e k HR K). reflexivity. Qed.
Lemma means_back os w e args w' ks : rel os w -> Forall (known w) args -> means (w ++ e) args w' ks -> means w args w' ks.
Proof.
  intros HR K M. unfold means in *. induction M as [|a k args ks H M IH]; [constructor|]. inversion K; subst.
  constructor; [|apply IH; assumption]. intros s. rewrite H. eapply denotes_app; eassumption.
Qed.
Lemma init_list_ok args : forall os w, rel os w -> Forall (known w) args ->
  match init_list os args with
  | Ok (os', ks) => exists e, rel os' (w ++ e) /\ means w args (w ++ e) ks
  | UB => forall ts, ~ Forall2 (denotes (usable w)) args ts
  | _ => False
  end.
Proof.
  induction args as [|a args IH]; intros os w HR HK; cbn [init_list].
  { exists []. rewrite app_nil_r. split; [exact HR|constructor]. }
  inversion HK as [|? ? Ka Kr]; subst. pose proof (make_ok os w a HR) as M.
  assert (NU : (forall o, ~ shown_of w a o) -> forall ts, ~ Forall2 (denotes (usable w)) (a :: args) ts).
  { intros N ts F. inversion F as [|? t ? ? D _]; subst. destruct a; cbn [denotes] in D; [..|].
    1-5: eapply (N (Shown t _ false)); (split; [reflexivity|split; [exact D|reflexivity]]).
    unfold usable in D. destruct (nth_error w k) as [p|] eqn:Ep; [|discriminate]. destruct (ended p) eqn:Ee; [discriminate|].
    apply (N (Shown (text p) (buffer p) false)). split; [reflexivity|]. exists p. auto. }
  assert (MU : match make os a with Throw _ | Diverge => False | _ => True end).
  { destruct a; cbn [make]; auto. destruct (nth_error os k) as [[c|]|]; exact I. }
  destruct (make os a) as [c|e| |]; cbn [bind]; try contradiction; [|apply NU; exact M].
  destruct M as (o & SO & HR'). assert (L : length os = length w) by apply HR.
  specialize (IH (os ++ [Some c]) (w ++ [o]) HR' (Forall_impl _ (fun a => known_app w [o] a) Kr)).
  destruct (init_list (os ++ [Some c]) args) as [[os' ks]|e| |]; cbn [bind fst snd]; try contradiction.
  - destruct IH as (e & R2 & M2). rewrite <- app_assoc in R2. exists ([o] ++ e). split; [exact R2|].
    constructor.
    + intros s. rewrite app_assoc, L. rewrite (usable_app _ _ e (length w) HR') by (rewrite app_length; cbn; lia).
      apply (usable_new os w a o c HR HR' SO).
    + rewrite app_assoc. apply (means_back os w [o]); assumption.
  - intros ts F. inversion F as [|? t ? tr D Dr]; subst. apply (IH tr). eapply Forall2_impl_in'; [exact Dr|exact Kr|].
    intros b u Kb Db. apply (denotes_app os); assumption.
Qed.
Lemma bind_refs_ok args : forall os w, rel os w -> Forall (known w) args ->
  exists os' ks e, bind_refs os args = Ok (os', ks) /\ rel os' (w ++ e) /\ means w args (w ++ e) ks.
Proof.
  induction args as [|a args IH]; intros os w HR HK; cbn [bind_refs].
  { exists os, [], []. rewrite app_nil_r. split; [reflexivity|]. split; [exact HR|constructor]. }
  inversion HK as [|? ? Ka Kr]; subst. assert (L : length os = length w) by apply HR.
  assert (T : (forall k, a <> Obj k) -> exists c, make os a = Ok c) by (destruct a; intros N; try (eexists; reflexivity); destruct (N k eq_refl)).
  assert (B : (exists k, a = Obj k) \/ exists c, make os a = Ok c /\ bind_ref os a = Ok (os ++ [Some c], length os)).
  { destruct a; [right; eexists; split; reflexivity ..|left; eexists; reflexivity]. }
  destruct B as [[k ->]|(c & Mc & ->)].
  - cbn [bind_ref bind fst snd]. destruct (IH os w HR Kr) as (os' & ks & e & -> & R2 & M2). cbn [bind fst snd].
    exists os', (k :: ks), e. split; [reflexivity|]. split; [exact R2|]. constructor; [|exact M2].
    intros s. cbn [known denotes] in *. rewrite (usable_app os w e k HR Ka). reflexivity.
  - cbn [bind fst snd]. pose proof (make_ok os w a HR) as M. rewrite Mc in M. destruct M as (o & SO & HR').
    destruct (IH (os ++ [Some c]) (w ++ [o]) HR' (Forall_impl _ (fun a => known_app w [o] a) Kr)) as (os' & ks & e & -> & R2 & M2).
    cbn [bind fst snd]. exists os', (length os :: ks), ([o] ++ e). split; [reflexivity|]. rewrite app_assoc. split; [exact R2|].
    constructor.
    + intros s. rewrite L. rewrite (usable_app _ _ e (length w) HR') by (rewrite app_length; cbn; lia).
      apply (usable_new os w a o c HR HR' SO).
    + apply (means_back os w [o]); assumption.
Qed.
Lemma append_all_ok os w ks : rel os w -> forall res,
  match append_all os res ks with
  | Ok r => exists ts, Forall2 (fun k s => usable w k = Some s) ks ts /\ r = res ++ concat ts
  | UB => forall ts, ~ Forall2 (fun k s => usable w k = Some s) ks ts
  | _ => False
  end.
Proof.
  intros HR. induction ks as [|k ks IH]; intros res; cbn [append_all].
  { exists []. split; [constructor|]. rewrite app_nil_r. reflexivity. }
  rewrite (rel_read os w k HR). destruct (usable w k) as [t|] eqn:E; cbn [bind].
  - specialize (IH (res ++ t)). destruct (append_all os (res ++ t) ks); try contradiction.
    + destruct IH as (ts & F & ->). exists (t :: ts). split; [constructor; assumption|]. cbn [concat]. rewrite app_assoc. reflexivity.
    + intros ts F. inversion F; subst. eapply IH; eassumption.
  - intros ts F. inversion F; subst. congruence.
Qed.
Lemma means_texts w args w' ks ts : means w args w' ks ->
  (Forall2 (fun k s => usable w' k = Some s) ks ts <-> Forall2 (denotes (usable w)) args ts).
Proof.
  intros M. revert ts. induction M as [|a k args ks H M IH]; intros ts.
  - split; intros F; inversion F; constructor.
  - split; intros F; inversion F; subst; constructor; try (apply H; assumption); apply IH; assumption.
Qed.
Lemma cat_ok os w args : rel os w ->
  match cat_args os args with
  | Ok r => exists ts, Forall2 (denotes (usable w)) args ts /\ r = concat ts
  | UB => forall ts, ~ Forall2 (denotes (usable w)) args ts
  | _ => False
  end.
Proof.
  intros HR. unfold cat_args. assert (L : length os = length w) by apply HR.
  destruct (forallb (created os) args) eqn:EC; cbn [negb].
  2: { intros ts F. assert (forallb (created os) args = true); [|congruence]. clear EC. apply forallb_forall. intros a Ha.
    assert (X : exists t, denotes (usable w) a t).
    { clear - F Ha. induction F; [destruct Ha|]. destruct Ha as [<-|Ha]; [eexists; eassumption|auto]. }
    destruct X as [t Ht]. destruct a; try reflexivity. cbn [denotes created] in *. apply Nat.ltb_lt. apply usable_lt in Ht. lia. }
  assert (HK : Forall (known w) args).
  { apply Forall_forall. intros a Ha. rewrite forallb_forall in EC. specialize (EC a Ha). destruct a; cbn [known created] in *; auto.
    apply Nat.ltb_lt in EC. lia. }
  assert (X : match (if Nat.leb (length args) 3 then bind_refs os args else init_list os args) with
    | Ok (os', ks) => exists e, rel os' (w ++ e) /\ means w args (w ++ e) ks
    | UB => forall ts, ~ Forall2 (denotes (usable w)) args ts
    | _ => False end).
  { destruct (Nat.leb _ 3); [|apply init_list_ok; assumption].
    destruct (bind_refs_ok args os w HR HK) as (os' & ks & e & -> & H). exists e. exact H. }
  destruct (if Nat.leb (length args) 3 then bind_refs os args else init_list os args) as [[os' ks]|e| |]; cbn [bind fst snd]; auto.
  destruct X as (e & R2 & M2). pose proof (append_all_ok os' (w ++ e) ks R2 []) as A.
  destruct (append_all os' [] ks); auto.
  - destruct A as (ts & F & ->). exists ts. split; [apply (means_texts _ _ _ _ _ M2); exact F|reflexivity].
  - intros ts F. apply (A ts). apply (means_texts _ _ _ _ _ M2). exact F.
Qed.
Lemma Forall2_denotes_fun t args : forall ts us, Forall2 (denotes t) args ts -> Forall2 (denotes t) args us -> ts = us.
Proof.
  induction args as [|a args IH]; intros ts us F G; inversion F; inversion G; subst; [reflexivity|].
  f_equal; [eapply denotes_fun; eassumption|]. apply IH; assumption.
Qed.
Lemma nth_end (w : list shown) k j : nth_error (end_of w k) j =
  match nth_error w j with Some o => Some (if Nat.eqb j k then Shown (text o) (buffer o) true else o) | None => None end.
Proof.
  unfold end_of. revert w j. induction k as [|k IH]; intros w j.
  - cbn [firstn skipn app]. destruct w as [|o w]; destruct j; try reflexivity. cbn. destruct (nth_error w j); reflexivity.
  - destruct w as [|o w]; [destruct j; reflexivity|]. destruct j as [|j]; [reflexivity|]. cbn [firstn skipn app nth_error Nat.eqb]. apply IH.
Qed.
Lemma nth_end_os (w : objects) k j : nth_error (firstn k w ++ match skipn k w with _ :: r => None :: r | [] => [] end) j =
  match nth_error w j with Some o => Some (if Nat.eqb j k then None else o) | None => None end.
Proof.
  revert w j. induction k as [|k IH]; intros w j.
  - cbn [firstn skipn app]. destruct w as [|o w]; destruct j; try reflexivity. cbn. destruct (nth_error w j); reflexivity.
  - destruct w as [|o w]; [destruct j; reflexivity|]. destruct j as [|j]; [reflexivity|]. cbn [firstn skipn app nth_error Nat.eqb]. apply IH.
Qed.
Lemma end_length w k : length (end_of w k) = length w.
Proof. unfold end_of. rewrite app_length. rewrite <- (firstn_skipn k w) at 3. rewrite app_length. destruct (skipn k w); reflexivity. Qed.
Lemma end_os_length (w : objects) k : length (firstn k w ++ match skipn k w with _ :: r => None :: r | [] => [] end) = length w.
Proof. rewrite app_length. rewrite <- (firstn_skipn k w) at 3. rewrite app_length. destruct (skipn k w); reflexivity. Qed.
Lemma rel_end os w k : rel os w -> rel (firstn k os ++ match skipn k os with _ :: r => None :: r | [] => [] end) (end_of w k).
Proof.
  intros [L H]. split; [rewrite end_os_length, end_length; exact L|].
  assert (X : forall j p, nth_error w j = Some p -> exists p', nth_error (end_of w k) j = Some p' /\ text p' = text p /\ buffer p' = buffer p).
  { intros j p E. rewrite nth_end, E. destruct (Nat.eqb j k); eexists; split; try reflexivity; auto. }
  intros j o E. rewrite nth_end in E. destruct (nth_error w j) as [p|] eqn:Ep; [|discriminate]. injection E as <-.
  destruct (H j p Ep) as [H1 H2]. rewrite nth_end_os. split.
  - destruct (Nat.eqb j k) eqn:Ej; cbn [ended].
    + destruct (nth_error os j) eqn:Eo; [reflexivity|]. apply nth_error_None in Eo.
      assert (j < length w)%nat by (apply nth_error_Some; congruence). lia.
    + destruct (ended p); [rewrite H1; reflexivity|]. destruct H1 as (c & -> & Hb). exists c. split; [reflexivity|].
      unfold buffered in *. destruct (buffer p) as [i|]; [|exact Hb]. destruct Hb as (B1 & (q & Q1 & Q2 & Q3) & B3).
      split; [exact B1|]. split; [|exact B3]. destruct (X i q Q1) as (q' & X1 & X2 & X3). exists q'. split; [exact X1|]. split; congruence.
  - replace (buffer (if Nat.eqb j k then Shown (text p) (buffer p) true else p)) with (buffer p) by (destruct (Nat.eqb j k); reflexivity).
    replace (text (if Nat.eqb j k then Shown (text p) (buffer p) true else p)) with (text p) by (destruct (Nat.eqb j k); reflexivity).
    destruct (buffer p) as [i|]; [|exact I]. destruct H2 as (q & Q1 & Q2 & Q3).
    destruct (X i q Q1) as (q' & X1 & X2 & X3). exists q'. split; [exact X1|]. split; congruence.
Qed.
Theorem acts_ok l : forall os w, rel os w ->
  match acts os l with
  | Ok r => results w l r
  | UB => forall r, ~ results w l r
  | _ => False
  end.
Proof.
  induction l as [|a l IH]; intros os w HR; cbn [acts]; [constructor|]. destruct a as [a|k|args]; cbn [act_step].
  - pose proof (make_ok os w a HR) as M.
    assert (MU : match make os a with Throw _ | Diverge => False | _ => True end).
    { destruct a; cbn [make]; auto. destruct (nth_error os k) as [[c|]|]; exact I. }
    destruct (make os a) as [c|e| |]; cbn [bind fst snd]; try contradiction.
    + destruct M as (o & SO & HR'). specialize (IH _ _ HR'). destruct (acts (os ++ [Some c]) l); cbn [bind]; auto.
      * econstructor; eassumption.
      * intros r R. inversion R; subst. replace o0 with o in * by (eapply shown_fun; eassumption). eapply IH; eassumption.
    + intros r R. inversion R; subst. eapply M; eassumption.
  - cbn [bind fst snd]. specialize (IH _ _ (rel_end os w k HR)).
    destruct (acts _ l); cbn [bind]; auto.
    + constructor. exact IH.
    + intros r R. inversion R; subst. eapply IH; eassumption.
  - pose proof (cat_ok os w args HR) as C. destruct (cat_args os args) as [s|e| |]; cbn [bind fst snd]; try contradiction.
    + destruct C as (ts & F & ->). specialize (IH _ _ HR). destruct (acts os l); cbn [bind]; auto.
      * constructor; assumption.
      * intros r R. inversion R; subst. eapply IH; eassumption.
    + intros r R. inversion R; subst. eapply C; eassumption.
Qed.
Lemma results_fun w l r : results w l r -> forall r', results w l r' -> r = r'.
Proof.
  intros R. induction R as [w|w a o l r S R IH|w k l r R IH|w args ts l r F R IH]; intros r' R'; inversion R'; subst; auto.
  - apply IH. replace o with o0 by (eapply shown_fun; eassumption). assumption.
  - f_equal; [f_equal; eapply Forall2_denotes_fun; eassumption|auto].
Qed.
