(** What was in the text if the loop over the format has succeeded. *)
From Verif Require Import Base IntModel ToNumModel DateModel DateSpec DateProofs DateProofs2 FmtModel FmtSpec FmtProofs FmtProofs2 FmtProofs3 FmtProofs4 ParModel ParSpec ParProofs1 ParProofs6 ParProofs7 ParProofs8 ParProofs9 ParProofs10 ParTimeProofs1.
Local Open Scope Z_scope.
Local Open Scope outcome_scope.
Local Open Scope char_scope.

Lemma fld_dec (f g : fld) : {f = g} + {f <> g}. Proof. decide equality. Qed.
Lemma num_4 z t : number_up_to 4 z t -> -9999 <= z <= 9999.
Proof. intros (sg & ds & n & _ & D & SG). pose proof (nm_range 4 ds n D) as B. change (10 ^ Z.of_nat 4) with 10000 in B. destruct SG as [[_ ->]|[[_ ->]|[_ ->]]]; lia. Qed.
Lemma num_2 z t : number_up_to 2 z t -> -99 <= z <= 99.
Proof. intros (sg & ds & n & _ & D & SG). pose proof (nm_range 2 ds n D) as B. change (10 ^ Z.of_nat 2) with 100 in B. destruct SG as [[_ ->]|[[_ ->]|[_ ->]]]; lia. Qed.
Lemma dig_2 z t : digits_up_to 2 z t -> 0 <= z <= 99.
Proof. intros D. pose proof (nm_range 2 t z D) as B. change (10 ^ Z.of_nat 2) with 100 in B. lia. Qed.
Lemma dig_3 z t : digits_up_to 3 z t -> 0 <= z <= 999.
Proof. intros D. pose proof (nm_range 3 t z D) as B. change (10 ^ Z.of_nat 3) with 1000 in B. lia. Qed.
Lemma seconds_range w q t : (w <= 7)%nat -> seconds_text w q t -> 0 <= q <= 1000000000000000000.
Proof.
  intros W (a & p & b & E & D & _ & LN & N). apply Forall_app in D. destruct D as [DA DB]. pose proof (value_bound a DA) as VA. pose proof (value_bound b DB) as VB.
  assert (K := k_range w W). fold (ticks w) in N. set (k := ticks w) in *. set (P := 10 ^ zlen b) in *.
  assert (LA : 10 ^ zlen a <= 10 ^ 10).
  { apply Z.pow_le_mono_r; [lia|]. rewrite E, app_length in LN. unfold zlen. destruct (Nat.eqb w 0); lia. }
  change (10 ^ 10) with 10000000000 in LA.
  assert (0 <= (value a * P + value b) * k) by nia. assert (PP : 0 < P) by (unfold P; apply Z.pow_pos_nonneg; unfold zlen; lia). split; [nia|].
  assert ((value a * P + value b) * k <= 10000000000 * P * k) by nia.
  assert (2 * (q * P) <= (2 * (10000000000 * k) + 1) * P) by nia. nia.
Qed.
(** * Several variables set *)
Definition csets (p : pst) (L : list (fld * Z)) : pst := fold_left (fun p a => checked_set (fst a) (snd a) p) L p.
Definition ext (v v' : vals) : Prop := forall g, v g <> nav g -> v' g = v g.
Definition said (v : vals) (L : list (fld * Z)) : Prop := Forall (fun a => v (fst a) = snd a \/ snd a = nav (fst a)) L.
Definition kept (L : list (fld * Z)) (v v' : vals) : Prop := forall g, v' g = v g \/ In (g, v' g) L.
Lemma ext_refl v : ext v v. Proof. now intros g. Qed.
Lemma ext_trans v1 v2 v3 : ext v1 v2 -> ext v2 v3 -> ext v1 v3.
Proof. intros A B g H. rewrite B; [now apply A|]. now rewrite A. Qed.
Lemma said_ext v v' L : ext v v' -> said v L -> said v' L.
Proof.
  intros E. unfold said. apply Forall_impl. intros [f n] H. cbn [fst snd] in *. destruct H as [H|H]; [|now right].
  destruct (Z.eq_dec n (nav f)) as [|N]; [now right|left]. rewrite E; [exact H|congruence].
Qed.
Lemma upd_same v f x : upd v f x f = x. Proof. unfold upd. now destruct f. Qed.
Lemma upd_other v f x g : f <> g -> upd v f x g = v g. Proof. unfold upd. destruct (fld_eqb f g) eqn:E; [|reflexivity]. intros H. apply fld_eqb_true in E. contradiction. Qed.
Record same (p p' : pst) : Prop := Same { e_s : p_is p' = p_is p; e_c : p_cmd p' = p_cmd p; e_m : p_md p' = p_md p; e_w : p_w p' = p_w p; e_i : p_inw p' = p_inw p }.
Lemma same_refl p : same p p. Proof. now constructor. Qed.
Lemma same_trans p q r : same p q -> same q r -> same p r.
Proof. intros [] []. constructor; congruence. Qed.
Lemma cset_ok f x p : failb (p_is (checked_set f x p)) = false -> failb (p_is p) = false /\ same p (checked_set f x p) /\
  ext (p_v p) (p_v (checked_set f x p)) /\ (p_v (checked_set f x p) f = x) /\ (forall g, f <> g -> p_v (checked_set f x p) g = p_v p g).
Proof.
  unfold checked_set. destruct (failb (p_is p)) eqn:F; [congruence|]. destruct (Z.eqb_spec (p_v p f) (nav f)) as [E|E].
  - intros _. split; [reflexivity|]. split; [now constructor|]. cbn [p_v]. split; [|split; [apply upd_same|intros g; apply upd_other]].
    intros g H. apply upd_other. congruence.
  - destruct (Z.eqb_spec (p_v p f) x) as [E2|E2]; [|discriminate]. intros _. split; [reflexivity|]. split; [apply same_refl|]. split; [apply ext_refl|]. auto.
Qed.
Lemma csets_ok L : forall p, failb (p_is (csets p L)) = false -> failb (p_is p) = false /\ same p (csets p L) /\
  ext (p_v p) (p_v (csets p L)) /\ said (p_v (csets p L)) L /\ kept L (p_v p) (p_v (csets p L)).
Proof.
  induction L as [|[f x] L IH]; intros p H.
  - cbn in *. split; [exact H|]. split; [apply same_refl|]. split; [apply ext_refl|]. split; [constructor|intros g; now left].
  - unfold csets in *. cbn [fold_left fst snd] in *. destruct (IH _ H) as (F1 & S1 & E1 & A1 & K1). destruct (cset_ok f x p F1) as (F2 & S2 & E2 & A2 & K2).
    split; [exact F2|]. split; [now apply (same_trans _ _ _ S2)|]. split; [now apply (ext_trans _ _ _ E2)|]. split.
    + constructor; [|exact A1]. cbn [fst snd]. destruct (Z.eq_dec x (nav f)) as [|N]; [now right|left]. rewrite E1; [exact A2|congruence].
    + intros g. destruct (K1 g) as [E|I]; [|right; now right]. rewrite E. destruct (fld_dec f g) as [->|N]; [right; left; now rewrite A2|left; now apply K2].
Qed.

(** * What a directive has read *)
Section Dir.
Context (w : nat) (W7 : (w <= 7)%nat).
Inductive tfacts : ascii -> str -> list (fld * Z) -> Prop :=
| f_H t n : digits_up_to 2 n t -> tfacts "H" t [(FH, n)]
| f_I t z : number_up_to 2 z t -> 1 <= z <= 12 -> tfacts "I" t [(FI, z)]
| f_am t k i : 0 <= i -> nth_error ampm_names (Z.to_nat i) = Some k -> same_word t k -> tfacts "p" t [(Fp, i)]
| f_M t n : digits_up_to 2 n t -> tfacts "M" t [(FM, n)]
| f_S t q : seconds_text w q t -> tfacts "S" t [(Fs, q)]
| f_R h m a b : digits_up_to 2 a h -> digits_up_to 2 b m -> tfacts "R" (h ++ ":" :: m) [(FH, a); (FM, b)]
| f_T c h m t a b q : c = "T" \/ c = "X" -> digits_up_to 2 a h -> digits_up_to 2 b m -> seconds_text w q t -> tfacts c (h ++ ":" :: m ++ ":" :: t) [(FH, a); (FM, b); (Fs, q)]
| f_r h m t a b q bl u k i : digits_up_to 2 a h -> digits_up_to 2 b m -> seconds_text w q t -> Forall white bl ->
    0 <= i -> nth_error ampm_names (Z.to_nat i) = Some k -> same_word u k -> tfacts "r" (h ++ ":" :: m ++ ":" :: t ++ bl ++ u) [(FI, a); (FM, b); (Fs, q); (Fp, i)].
Inductive facts : ascii -> str -> list (fld * Z) -> Prop :=
| f_Y t z : number_up_to 4 z t -> facts "Y" t [(FY, z)]
| f_y t n : digits_up_to 2 n t -> facts "y" t [(Fy, n)]
| f_m t z : number_up_to 2 z t -> facts "m" t [(Fm, z)]
| f_d c t z : c = "d" \/ c = "e" -> number_up_to 2 z t -> facts c t [(Fd, z)]
| f_F y m d z a b : number_up_to 4 z y -> digits_up_to 2 a m -> digits_up_to 2 b d -> facts "F" (y ++ "-" :: m ++ "-" :: d) [(FY, z); (Fm, a); (Fd, b)]
| f_D c y m d z a b : c = "D" \/ c = "x" -> number_up_to 2 z y -> digits_up_to 2 a m -> digits_up_to 2 b d -> facts c (m ++ "/" :: d ++ "/" :: y) [(Fy, z); (Fm, a); (Fd, b)]
| f_B c t k i : memb c (!"bBh") = true -> 0 <= i -> nth_error month_names (Z.to_nat i) = Some k -> same_word t k -> facts c t [(Fm, i mod 12 + 1)]
| f_A c t k i : c = "a" \/ c = "A" -> 0 <= i -> nth_error weekday_names (Z.to_nat i) = Some k -> same_word t k -> facts c t [(Fwd, i mod 7)]
| f_u t n : digits_up_to 1 n t -> 1 <= n <= 7 -> facts "u" t [(Fwd, n mod 7)]
| f_w t n : digits_up_to 1 n t -> 0 <= n <= 6 -> facts "w" t [(Fwd, n)]
| f_j t n : digits_up_to 3 n t -> facts "j" t [(Fj, n)]
| f_U t n : digits_up_to 2 n t -> facts "U" t [(FU, n)]
| f_W t n : digits_up_to 2 n t -> facts "W" t [(FW, n)]
| f_p : facts "%" (!"%") []
| f_C t z : number_up_to 2 z t -> facts "C" t [(FC, z)]
| f_G t z : number_up_to 4 z t -> facts "G" t [(FG, z)]
| f_g t n : digits_up_to 2 n t -> facts "g" t [(Fg, n)]
| f_V t n : digits_up_to 2 n t -> facts "V" t [(FV, n)]
| f_time c t L : tfacts c t L -> facts c t L
| f_z t o : offset_text o t -> facts "z" t [(Foff, o)]
| f_c ta b1 tb b2 td b3 tc b4 ty La Lb Ld Lc Ly : Forall white (b1 ++ b2 ++ b3 ++ b4) -> facts "a" ta La -> facts "b" tb Lb -> facts "d" td Ld -> tfacts "T" tc Lc -> facts "Y" ty Ly ->
    facts "c" (ta ++ b1 ++ tb ++ b2 ++ td ++ b3 ++ tc ++ b4 ++ ty) (La ++ Lb ++ Ld ++ Lc ++ Ly).
(** The directives that set a variable *)
Definition setters (f : fld) : str :=
  match f with
  | FV => !"V" | FG => !"G" | Fg => !"g" | FC => !"C" | FU => !"U" | FW => !"W" | Fwd => !"aAuwc" | Fy => !"yDx"
  | FH => !"HRTXc" | FI => !"Ir" | Fp => !"pr" | FM => !"MRTXrc" | Fs => !"STXrc" | Foff => !"z" | Fj => !"j" | _ => sound_in ++ !"c"
  end.
Lemma facts_setters c t L f : facts c t L -> memb c (setters f) = false -> ~ In f (map fst L).
Proof.
  assert (T : forall c t L, tfacts c t L -> memb c (setters f) = false -> ~ In f (map fst L)).
  { clear. intros c t L F M I. destruct F; cbn [map fst In] in I; repeat match goal with H : _ \/ _ |- _ => destruct H | H : False |- _ => destruct H end; subst; cbn [setters] in M; discriminate M. }
  intros F. induction F as [| | | | | | | | | | | | | | | | | |c t L F|t o F|ta b1 tb b2 td b3 tc b4 ty La Lb Ld Lc Ly BW FA IA FB IB FD ID FC FY IY]; intros M I; [..|now apply (T c t L F M)| |].
  20:{ rewrite !map_app, !in_app_iff in I. specialize (T "T" tc Lc FC).
    assert (X : memb "a" (setters f) = false /\ memb "b" (setters f) = false /\ memb "d" (setters f) = false /\ memb "T" (setters f) = false /\ memb "Y" (setters f) = false) by (clear - M; destruct f; try discriminate M; repeat split; reflexivity).
    tauto. }
  all: cbn [map fst In] in I; repeat match goal with H : _ \/ _ |- _ => destruct H | H : False |- _ => destruct H end; subst; cbn [setters app sound_in] in M; try discriminate M;
  match goal with H : memb _ _ = true |- _ => memb_cases H; discriminate M end.
Qed.
(** Where the variables come from *)
Definition num_ok (f : fld) (n : Z) : Prop := n = nav f \/ (f <> Foff /\ rng f n /\ (f = Fs -> 0 <= n)) \/ (f = Foff /\ -10000 <= n <= 10000).
Lemma offset_range o t : offset_text o t -> -10000 <= o <= 10000.
Proof.
  intros (sg & a & b & _ & D & LA & LB & H). apply Forall_app in D. destruct D as [DA DB]. pose proof (value_bound a DA) as VA. pose proof (value_bound b DB) as VB.
  unfold zlen in VA, VB. rewrite LA in VA. assert (10 ^ Z.of_nat (length b) <= 100) by (destruct LB as [->| ->]; cbn; lia). change (10 ^ Z.of_nat 2) with 100 in VA. lia.
Qed.
Lemma facts_num c t L : facts c t L -> Forall (fun a => num_ok (fst a) (snd a)) L.
Proof.
  assert (D1 : forall n t, digits_up_to 1 n t -> 0 <= n <= 9) by (intros n t0 D; pose proof (nm_range 1 t0 n D) as B; change (10 ^ Z.of_nat 1) with 10 in B; lia).
  assert (AP : forall (i : Z) k, 0 <= i -> nth_error ampm_names (Z.to_nat i) = Some k -> i <= 1).
  { intros i k P E. assert (X : (Z.to_nat i < 2)%nat) by (apply (nth_error_Some ampm_names); congruence). lia. }
  assert (T : forall c t L, tfacts c t L -> Forall (fun a => num_ok (fst a) (snd a)) L).
  { clear - W7 AP. intros c t L F. destruct F; repeat match goal with H : seconds_text _ _ _ |- _ => apply (seconds_range w _ _ W7) in H | H : digits_up_to 2 _ _ |- _ => apply dig_2 in H | H : nth_error _ _ = Some _ |- _ => apply AP in H; [|assumption] end;
    repeat apply Forall_cons; try apply Forall_nil; cbn [fst snd]; unfold num_ok; cbn [rng nav]; right; left; (split; [discriminate|]); (split; [lia|]); (discriminate || lia). }
  induction 1 as [| | | | | | | | | | | | | | | | | |c t L F|t o F|ta b1 tb b2 td b3 tc b4 ty La Lb Ld Lc Ly BW FA IA FB IB FD ID FC FY IY]; [..|now apply (T c t)| |].
  20:{ specialize (T _ _ _ FC). rewrite !Forall_app. tauto. }
  19:{ constructor; [|constructor]. right. right. split; [reflexivity|now apply (offset_range o t)]. }
  all: repeat match goal with H : digits_up_to 2 _ _ |- _ => apply dig_2 in H | H : digits_up_to 3 _ _ |- _ => apply dig_3 in H | H : digits_up_to 1 _ _ |- _ => apply D1 in H | H : number_up_to 2 _ _ |- _ => apply num_2 in H | H : number_up_to 4 _ _ |- _ => apply num_4 in H end;
    repeat apply Forall_cons; try apply Forall_nil; cbn [fst snd]; unfold num_ok; cbn [rng nav]; right; left; (split; [discriminate|]); (split; [|discriminate]); try lia.
  all: match goal with |- context [?i mod ?m] => pose proof (Z.mod_pos_bound i m ltac:(lia)); lia end.
Qed.
Definition nums (v : vals) : Prop := forall f, num_ok f (v f).
Lemma nums_kept c t L v v' : facts c t L -> kept L v v' -> nums v -> nums v'.
Proof.
  intros F K N f. destruct (K f) as [-> |I]; [apply N|]. apply facts_num in F. rewrite Forall_forall in F. apply (F _ I).
Qed.
Definition untouched (l : list item) (v v' : vals) : Prop := forall f, uses l (setters f) = false -> v' f = v f.
Definition ready (p : pst) : Prop := okst (p_is p) /\ p_cmd p = false /\ p_md p = NUL /\ p_w p = -1 /\ p_inw p = false.
Definition reads (c : ascii) (p p' : pst) : Prop :=
  ready p' /\ exists t L, rest (p_is p) = t ++ rest (p_is p') /\ facts c t L /\ ext (p_v p) (p_v p') /\ said (p_v p') L /\ kept L (p_v p) (p_v p').
Lemma done c p s L t : okst s -> facts c t L -> rest (p_is p) = t ++ rest s -> failb (p_is (reset (csets (with_is p s) L))) = false -> reads c p (reset (csets (with_is p s) L)).
Proof.
  intros O F R FB. cbn [reset p_is] in FB. destruct (csets_ok L _ FB) as (_ & S & E & A & K). split.
  - unfold ready. cbn [reset p_is p_cmd p_md p_w p_inw]. rewrite (e_s _ _ S). cbn [with_is p_is]. auto.
  - exists t, L. cbn [reset p_is p_v]. rewrite (e_s _ _ S). cbn [with_is p_is]. auto.
Qed.
Ltac nRI := let z := fresh in let H := fresh in intros z H; cbn in H; intuition discriminate.
Lemma aok_s k : (1 <= k <= 4)%nat -> a_ok (RS 1 (Z.of_nat k)). Proof. intros K. split; [reflexivity|]. exists k. auto. Qed.
Lemma aok_u k : (1 <= k <= 4)%nat -> a_ok (RU 1 (Z.of_nat k)). Proof. intros K. split; [reflexivity|]. exists k. auto. Qed.
Ltac aok1 := first [exact I | exact (aok_s 4 ltac:(lia)) | exact (aok_s 2 ltac:(lia)) | exact (aok_u 2 ltac:(lia)) | exact (aok_u 3 ltac:(lia)) | exact (aok_u 1 ltac:(lia))].
Ltac aok := repeat (apply Forall_cons; [aok1|]); apply Forall_nil.
Lemma one_reads c f a p p' (G : forall t z, fits [a] [z] t -> facts c t [(f, z)]) : okst (p_is p) -> a_ok a -> (forall z, a <> RI z) -> (forall b, a <> RC b) ->
  (p1 <- one f a p ;; Ok (reset p1)) = Ok p' -> failb (p_is p') = false -> reads c p p'.
Proof.
  intros O A NI NC H FB. unfold one in H. destruct (read [a] (p_is p)) as [[l s]| | |] eqn:R; try discriminate. cbn [bind] in H. injection H as <-.
  change (reset (checked_set f (vof l 0) (with_is p s))) with (reset (csets (with_is p s) [(f, vof l 0)])) in *.
  assert (FS : failb s = false) by (cbn [reset p_is] in FB; apply csets_ok in FB; apply FB).
  destruct (read_inv [a] ltac:(now constructor) ltac:(intros z [Q|[]]; now apply (NI z)) _ _ _ O R FS) as (O' & t & T & Q).
  apply (done c p s _ t); auto. apply G. destruct a as [b|z|m M|m M]; [now destruct (NC b)|now destruct (NI z)| |];
  cbn [fits] in *; destruct Q as (n & l' & ds & t' & -> & -> & D & ->); exists n, [], ds, []; auto.
Qed.
Lemma fits_u k t z : fits [RU 1 (Z.of_nat k)] [z] t -> digits_up_to k z t.
Proof. cbn [fits]. intros (n & l & ds & t' & E & -> & D & ->). injection E as <- <-. rewrite app_nil_r. unfold nlen in D. now rewrite Nat2Z.id in D. Qed.
Lemma fits_s k t z : fits [RS 1 (Z.of_nat k)] [z] t -> number_up_to k z t.
Proof. cbn [fits]. intros (n & l & ds & t' & E & -> & D & ->). injection E as <- <-. rewrite app_nil_r. unfold nlen in D. now rewrite Nat2Z.id in D. Qed.
Lemma names_w : Forall (fun k : str => k <> []) weekday_names. Proof. repeat constructor; discriminate. Qed.
Lemma names_m : Forall (fun k : str => k <> []) month_names. Proof. repeat constructor; discriminate. Qed.
Lemma kw_m c p p' : memb c (!"bBh") = true -> okst (p_is p) ->
  (let (i, p1) := keyword month_names p in Ok (reset (checked_set Fm (if failb (p_is p1) then 0 else i mod 12 + 1) p1))) = Ok p' -> failb (p_is p') = false -> reads c p p'.
Proof.
  intros M O H FB. unfold keyword in H. destruct (scan_keyword month_names (p_is p)) as [i s] eqn:K. injection H as <-. cbn [with_is p_is] in *.
  change (checked_set Fm ?a ?q) with (csets q [(Fm, a)]) in FB |- *.
  assert (FS : failb s = false) by (cbn [reset p_is] in FB; apply csets_ok in FB; apply FB).
  destruct (keyword_inv _ _ _ _ names_m O K FS) as (O' & L & t & k & T & E & SW). rewrite FS in *. apply (done _ p s _ t); [exact O'|exact (f_B _ _ _ _ M L E SW)|exact T|exact FB].
Qed.
Lemma kw_w c p p' : c = "a" \/ c = "A" -> okst (p_is p) ->
  (let (i, p1) := keyword weekday_names p in Ok (reset (if failb (p_is p1) then p1 else checked_set Fwd (i mod 7) p1))) = Ok p' -> failb (p_is p') = false -> reads c p p'.
Proof.
  intros M O H FB. unfold keyword in H. destruct (scan_keyword weekday_names (p_is p)) as [i s] eqn:K. injection H as <-. cbn [with_is p_is] in *.
  destruct (failb s) eqn:FS; [cbn in FB; congruence|].
  change (checked_set Fwd ?a ?q) with (csets q [(Fwd, a)]) in FB |- *.
  destruct (keyword_inv _ _ _ _ names_w O K FS) as (O' & L & t & k & T & E & SW). apply (done _ p s _ t); [exact O'|exact (f_A _ _ _ _ M L E SW)|exact T|exact FB].
Qed.
Lemma space_white c : is_space c = true <-> white c.
Proof.
  unfold white. split.
  - intros H. unfold is_space in H. memb_cases H; cbv; auto; right; split; discriminate.
  - destruct c as [[] [] [] [] [] [] [] []]; try reflexivity; intros [H|[H1 H2]]; exfalso; first [discriminate H | apply H1; reflexivity | apply H2; reflexivity].
Qed.
Lemma ws_white r : let (r', e) := skip_ws r in exists t, r = t ++ r' /\ Forall white t /\ (e = true -> r' = []).
Proof.
  induction r as [|c r IH]; cbn [skip_ws].
  - exists []. repeat constructor.
  - destruct (is_space c) eqn:S; [|exists []; repeat constructor; discriminate]. destruct (skip_ws r) as [r' e]. destruct IH as (t & -> & F & E). exists (c :: t). split; [reflexivity|]. split; [constructor; [now apply space_white|exact F]|exact E].
Qed.
(** The time *)
Lemma kept_app L1 L2 v1 v2 v3 : kept L1 v1 v2 -> kept L2 v2 v3 -> kept (L1 ++ L2) v1 v3.
Proof. intros K1 K2 g. rewrite in_app_iff. destruct (K2 g) as [E|I]; [rewrite E|auto]. destruct (K1 g); auto. Qed.
Lemma done2 c p s1 s2 L1 L2 t : okst s2 -> facts c t (L1 ++ L2) -> rest (p_is p) = t ++ rest s2 -> failb (p_is (csets (with_is p s1) L1)) = false ->
  failb (p_is (reset (csets (with_is (csets (with_is p s1) L1) s2) L2))) = false -> reads c p (reset (csets (with_is (csets (with_is p s1) L1) s2) L2)).
Proof.
  intros O F R FB1 FB2. destruct (csets_ok L1 _ FB1) as (_ & S1 & E1 & A1 & K1). set (p1 := csets (with_is p s1) L1) in *. cbn [reset p_is] in FB2.
  destruct (csets_ok L2 _ FB2) as (_ & S2 & E2 & A2 & K2). cbn [with_is p_v] in *. split.
  - unfold ready. cbn [reset p_is p_cmd p_md p_w p_inw]. rewrite (e_s _ _ S2). cbn [with_is p_is]. auto.
  - exists t, (L1 ++ L2). cbn [reset p_is p_v]. rewrite (e_s _ _ S2). cbn [with_is p_is]. split; [exact R|]. split; [exact F|]. split; [now apply (ext_trans _ _ _ E1)|].
    split; [apply Forall_app; split; [now apply (said_ext (p_v p1))|exact A2]|]. now apply (kept_app _ _ _ (p_v p1)).
Qed.
Lemma clock_reads fh p p1 : okst (p_is p) -> clock w fh p = Ok p1 -> failb (p_is p1) = false ->
  exists s h m t a b q, okst s /\ rest (p_is p) = (h ++ ":" :: m ++ ":" :: t) ++ rest s /\ digits_up_to 2 a h /\ digits_up_to 2 b m /\ seconds_text w q t /\
    p1 = csets (with_is p s) [(fh, a); (FM, b); (Fs, q)].
Proof.
  intros O H FB. unfold clock in H. destruct (read _ (p_is p)) as [[l s1]| | |] eqn:R; try discriminate. cbn [bind] in H.
  destruct (if failb s1 then (ld_zero, s1) else read_long_double 1 (sec_chars w) s1) as [x s] eqn:RL.
  destruct (round_sec w x) as [q0| | |] eqn:RS; try discriminate. cbn [bind] in H. injection H as <-.
  change (checked_set Fs q0 (checked_set FM ?u (checked_set fh ?y ?z))) with (csets z [(fh, y); (FM, u); (Fs, q0)]) in *.
  assert (FS : failb s = false) by (apply csets_ok in FB; apply FB).
  destruct (failb s1) eqn:F1; [injection RL as <- <-; congruence|].
  assert (X := fun A B => read_inv _ A B _ _ _ O R F1). destruct (X ltac:(aok) ltac:(nRI)) as (O1 & t0 & T0 & Q).
  destruct (seconds_inv w s1 x s W7 O1 RL FS) as (O2 & t & q & T & RQ & ST). rewrite RS in RQ. injection RQ as ->.
  cbn [fits] in Q. destruct Q as (a & l1 & h & t1 & -> & -> & D1 & t2 & -> & b & l2 & m & t3 & -> & -> & D2 & t4 & -> & ->).
  exists s, h, m, t, a, b, q. split; [exact O2|]. split; [rewrite T0, T, <- !app_assoc; cbn [app]; rewrite <- !app_assoc; reflexivity|]. split; [exact D1|]. split; [exact D2|]. split; [exact ST|]. reflexivity.
Qed.
Lemma names_p : Forall (fun k : str => k <> []) ampm_names. Proof. repeat constructor; discriminate. Qed.
Lemma kw_fail l s i s' : scan_keyword l s = (i, s') -> failb s = true -> failb s' = true.
Proof. intros K F. unfold scan_keyword in K. rewrite F in K. destruct (kw_first _ _); injection K as <- <-; [exact F|reflexivity]. Qed.
Lemma ws_ok s : okst s -> okst (ws s) /\ exists t, rest s = t ++ rest (ws s) /\ Forall white t.
Proof.
  intros O. unfold ws. pose proof (ws_white (rest s)) as WW. destruct (skip_ws (rest s)) as [r e]. destruct WW as (t & E & F & EE). cbn [rest]. split; [|now exists t].
  apply sok_str_r; [apply O|exact O|exact EE|]. intros EB. destruct O as [_ O]. rewrite (O EB) in E. destruct t; [now destruct r|discriminate].
Qed.
(** The offset *)
Lemma ru22 s n s' : okst s -> read_unsigned 2 2 s = (n, s') -> failb s' = false ->
  exists a b, rest s = a :: b :: rest s' /\ is_digit a = true /\ is_digit b = true /\ n = value [a; b] /\ 0 <= n <= 99 /\ s' = str_is (rest s').
Proof.
  intros O R F. destruct (okst_cases s O) as [E|[E1 E2]].
  2:{ unfold read_unsigned, good in R. rewrite E2 in R. cbn [negb andb] in R. injection R as <- <-. discriminate F. }
  rewrite E in R. unfold read_unsigned in R. cbn [good str_is eofb failb negb andb rest] in R. destruct (rest s) as [|a [|b r]]; cbn [ru_loop] in R.
  - injection R as <- <-. discriminate F.
  - destruct (is_digit a); injection R as <- <-; discriminate F.
  - destruct (is_digit a) eqn:DA; [|injection R as <- <-; discriminate F]. change (uns (0 + 1)) with 1 in R. change (1 =? 2)%Z with false in R. cbv iota in R.
    destruct (is_digit b) eqn:DB; [|injection R as <- <-; discriminate F]. change (uns (1 + 1)) with 2 in R. change (2 =? 2)%Z with true in R. change (2 <? 2)%Z with false in R. cbv iota in R. injection R as <- <-.
    exists a, b. cbn [rest orb]. split; [reflexivity|]. split; [exact DA|]. split; [exact DB|]. split; [|split; [|reflexivity]].
    + destruct a as [[] [] [] [] [] [] [] []]; try discriminate DA; destruct b as [[] [] [] [] [] [] [] []]; try discriminate DB; reflexivity.
    + destruct a as [[] [] [] [] [] [] [] []]; try discriminate DA; destruct b as [[] [] [] [] [] [] [] []]; try discriminate DB; vm_compute; split; discriminate.
Qed.
Lemma dig_is a : is_digit a = true -> is_dig a.
Proof. destruct a as [[] [] [] [] [] [] [] []]; try discriminate; intros _; vm_compute; split; discriminate. Qed.
Lemma rs22 s l s' : okst s -> read [RS 2 2] s = Ok (l, s') -> failb s' = false ->
  exists sg a b, rest s = sg ++ a :: b :: rest s' /\ is_digit a = true /\ is_digit b = true /\ 0 <= value [a; b] <= 99 /\ s' = str_is (rest s') /\ Z.abs (vof l 0) = value [a; b] /\
    ((sg = [] /\ a <> "-") \/ sg = !"+" \/ sg = !"-").
Proof.
  intros O R F. cbn [read] in R. unfold read_signed in R. change (Z.max 2 1) with 2 in R. change (2 >? 0) with true in R. cbv iota in R.
  destruct (okst_cases s O) as [E|[E1 E2]].
  2:{ unfold peek, good in R. rewrite E2 in R. cbn in R. injection R as <- <-. discriminate F. }
  rewrite E in R. unfold peek in R. cbn [good str_is eofb failb negb andb rest] in R. destruct (rest s) as [|c r]; [cbn in R; injection R as <- <-; discriminate F|].
  destruct (is_digit c || Ascii.eqb c "-" || Ascii.eqb c "+") eqn:Q; [|cbn in R; injection R as <- <-; discriminate F].
  set (s2 := if Ascii.eqb c "-" || Ascii.eqb c "+" then get _ else _) in R.
  assert (S2 : exists sg, okst s2 /\ c :: r = sg ++ rest s2 /\ ((sg = [] /\ c <> "-") \/ sg = !"+" \/ sg = !"-")).
  { unfold s2. destruct (Ascii.eqb_spec c "-") as [->|N1]; cbn [orb].
    - exists (!"-"). split; [apply okst_str|]. auto.
    - destruct (Ascii.eqb_spec c "+") as [->|N2]; [exists (!"+")|exists []]; (split; [apply okst_str|]); auto. }
  destruct S2 as (sg & O2 & S1 & S2). clearbody s2. destruct (read_unsigned 2 2 s2) as [n s3] eqn:RU.
  destruct (failb s3) eqn:F3; [cbn in R; injection R as <- <-; discriminate F|].
  destruct (ru22 s2 n s3 O2 RU F3) as (a & b & T & DA & DB & V & B & S3).
  assert (X : s' = s3 /\ Z.abs (vof l 0) = n).
  { rewrite conv_small in R by lia. destruct (Ascii.eqb c "-").
    - rewrite int_ok in R by (unfold is_int; lia). cbn [bind] in R. rewrite F3 in R. cbn in R. injection R as <- <-. split; [reflexivity|]. cbn [vof nth]. lia.
    - cbn [bind] in R. rewrite F3 in R. cbn in R. injection R as <- <-. split; [reflexivity|]. cbn [vof nth]. lia. }
  destruct X as [-> X]. exists sg, a, b. rewrite S1, T, X, <- V. split; [reflexivity|]. do 4 (split; [auto|]). split; [reflexivity|].
  destruct S2 as [[-> N]|S2]; [left; split; [reflexivity|]|right; exact S2]. cbn [app] in S1. rewrite T in S1. injection S1 as -> _. exact N.
Qed.
Lemma peek_ok s : okst s -> (exists c r, rest s = c :: r /\ peek s = (Some c, s)) \/ (exists s', peek s = (None, s') /\ good s' = false).
Proof.
  intros O. destruct (okst_cases s O) as [E|[E1 E2]].
  - rewrite E. unfold peek. cbn [good str_is eofb failb negb andb rest]. destruct (rest s) as [|c r]; [right; eexists; split; [reflexivity|reflexivity]|left; exists c, r; auto].
  - right. unfold peek, good. rewrite E2. cbn [negb andb]. eexists. split; [reflexivity|]. unfold set_fail, set_eof. cbn [eofb failb]. now rewrite ?andb_false_r.
Qed.
Lemma offset_inv p p1 : okst (p_is p) -> p_md p = NUL -> offset_in p = Ok p1 -> failb (p_is p1) = false ->
  exists s t o, okst s /\ rest (p_is p) = t ++ rest s /\ offset_text o t /\ p1 = csets (with_is p s) [(Foff, o)].
Proof.
  intros O N H FB. unfold offset_in in H. rewrite N in H. change (Ascii.eqb NUL NUL) with true in H. cbv zeta iota in H.
  destruct (peek_ok _ O) as [(c & r & RC & PK)|(s' & PK & GD)]; rewrite PK in H.
  2:{ exfalso. destruct (read [RS 2 2] s') as [[l s1]| | |] eqn:R; try discriminate. cbn [bind] in H. assert (F1 : failb s1 = true) by (cbn [read] in R; unfold read_signed, peek in R; rewrite GD in R; cbn in R; injection R as <- <-; reflexivity).
    rewrite F1 in H. cbn [bind] in H. injection H as <-. unfold checked_set in FB. cbn [with_is p_is] in FB. rewrite F1 in FB. cbn [with_is p_is] in FB. congruence. }
  destruct (read [RS 2 2] (p_is p)) as [[l s1]| | |] eqn:R; try discriminate. cbn [bind] in H.
  assert (FX : forall o s, failb s = true -> Ok (checked_set Foff o (with_is p s)) = Ok p1 -> False).
  { intros o s F H'. injection H' as <-. unfold checked_set in FB. cbn [with_is p_is] in FB. rewrite F in FB. cbn [with_is p_is] in FB. congruence. }
  destruct (failb s1) eqn:F1.
  { exfalso. cbn [bind] in H. destruct (Ascii.eqb c "-"); [destruct (arith llong_t (- nav Foff)) as [y| | |]; try discriminate|]; cbn [bind] in H; now apply FX in H. }
  destruct (rs22 _ l s1 O R F1) as (sg & a & b & T & DA & DB & VB & S1 & AV & SG).
  assert (G1 : good s1 = true) by (rewrite S1; reflexivity). rewrite G1 in H. rewrite AV in H.
  assert (O1 : okst s1) by (rewrite S1; apply okst_str).
  assert (NEG : (sg = [] \/ sg = !"+") /\ Ascii.eqb c "-" = false \/ sg = !"-" /\ Ascii.eqb c "-" = true).
  { rewrite RC in T. destruct SG as [[-> NA]|[->| ->]]; cbn [app lit list_ascii_of_string] in T; injection T as -> T; [left; split; [now left|now apply Ascii.eqb_neq]|left; split; [now right|reflexivity]|right; auto]. }
  assert (FIN : forall n tb s, okst s -> rest s1 = tb ++ rest s -> Forall is_dig tb -> (tb = [] \/ length tb = 2%nat) -> n = value tb -> 0 <= n <= 99 ->
    (toff' <- (if Ascii.eqb c "-" then arith llong_t (- (60 * value [a; b] + n)) else Ok (60 * value [a; b] + n)) ;; Ok (checked_set Foff toff' (with_is p s))) = Ok p1 ->
    exists s t o, okst s /\ rest (p_is p) = t ++ rest s /\ offset_text o t /\ p1 = csets (with_is p s) [(Foff, o)]).
  { intros n tb s OS TS D LB -> B H'. exists s, (sg ++ [a; b] ++ tb), (if Ascii.eqb c "-" then - (60 * value [a; b] + value tb) else 60 * value [a; b] + value tb).
    split; [exact OS|]. split; [rewrite T, TS, <- !app_assoc; reflexivity|]. split.
    - exists sg, [a; b], tb. split; [reflexivity|]. split; [apply Forall_app; split; [repeat constructor; now apply dig_is|exact D]|]. split; [reflexivity|]. split; [exact LB|]. destruct NEG as [[NS ->]|[NS ->]]; [left|right]; auto.
    - destruct (Ascii.eqb c "-"); [rewrite ll_ok in H' by lia|]; cbn [bind] in H'; injection H' as <-; reflexivity. }
  destruct (peek_ok _ O1) as [(e & r2 & RC2 & PK2)|(s' & PK2 & GD)]; rewrite PK2 in H.
  - destruct (is_digit e) eqn:DE.
    + cbn [read] in H. destruct (read_unsigned 2 2 s1) as [n s3] eqn:RU. destruct (failb s3) eqn:F3.
      { exfalso. cbn [bind] in H. rewrite F3 in H. cbn [bind] in H. destruct (Ascii.eqb c "-"); [destruct (arith llong_t _) as [y| | |]; try discriminate|]; cbn [bind] in H; now apply FX in H. }
      destruct (ru22 s1 n s3 O1 RU F3) as (a2 & b2 & T2 & DA2 & DB2 & V2 & B2 & S3). cbn [bind] in H. rewrite F3 in H. cbn [vof nth] in H. rewrite conv_small in H by lia. rewrite ll_ok in H by lia. cbn [bind] in H.
      apply (FIN n [a2; b2] s3); auto; [rewrite S3; apply okst_str|repeat constructor; now apply dig_is].
    + cbn [bind] in H. apply (FIN 0 [] s1); auto; [lia|]. rewrite Z.add_0_r. exact H.
  - cbn [bind] in H. destruct (failb s') eqn:F'.
    { exfalso. destruct (Ascii.eqb c "-"); [destruct (arith llong_t _) as [y| | |]; try discriminate|]; cbn [bind] in H; now apply FX in H. }
    assert (X : rest s1 = rest s' /\ okst s').
    { rewrite S1 in PK2 |- *. unfold peek in PK2. cbn [good str_is eofb failb negb andb rest] in PK2. destruct (rest s1); [|discriminate]. injection PK2 as <-. split; [reflexivity|]. split; reflexivity. }
    apply (FIN 0 [] s'); auto; [apply X|apply X|lia|]. rewrite Z.add_0_r. exact H.
Qed.
(** Several readings one after the other *)
Definition got (p p1 : pst) (t : str) (L : list (fld * Z)) : Prop :=
  okst (p_is p1) /\ rest (p_is p) = t ++ rest (p_is p1) /\ ext (p_v p) (p_v p1) /\ said (p_v p1) L /\ kept L (p_v p) (p_v p1).
Lemma got_csets p s L t : okst s -> rest (p_is p) = t ++ rest s -> failb (p_is (csets (with_is p s) L)) = false -> got p (csets (with_is p s) L) t L.
Proof.
  intros O R FB. destruct (csets_ok L _ FB) as (_ & S & E & A & K). unfold got. rewrite (e_s _ _ S). cbn [with_is p_is p_v] in *. auto.
Qed.
Lemma got_trans p q r t1 t2 L1 L2 : got p q t1 L1 -> got q r t2 L2 -> got p r (t1 ++ t2) (L1 ++ L2).
Proof.
  intros (O1 & T1 & E1 & A1 & K1) (O2 & T2 & E2 & A2 & K2). split; [exact O2|]. split; [now rewrite T1, T2, app_assoc|]. split; [now apply (ext_trans _ _ _ E1)|].
  split; [apply Forall_app; split; [now apply (said_ext _ _ _ E2)|exact A2]|now apply (kept_app _ _ _ _ _ K1)].
Qed.
Lemma got_ws p : okst (p_is p) -> exists t, Forall white t /\ got p (with_is p (ws (p_is p))) t [].
Proof. intros O. destruct (ws_ok _ O) as (O1 & t & T & B). exists t. split; [exact B|]. split; [exact O1|]. split; [exact T|]. split; [apply ext_refl|]. split; [constructor|]. intros g. now left. Qed.
Lemma ws_fail s : failb (ws s) = failb s. Proof. unfold ws. now destruct (skip_ws (rest s)). Qed.
Lemma cset_fail f x p : failb (p_is (checked_set f x p)) = false -> failb (p_is p) = false.
Proof. intros H. now apply cset_ok in H. Qed.
Lemma one_got f a p p1 (Q : str -> Z -> Prop) : (forall t z, fits [a] [z] t -> Q t z) -> okst (p_is p) -> a_ok a -> (forall z, a <> RI z) -> (forall b, a <> RC b) ->
  one f a p = Ok p1 -> failb (p_is p1) = false -> exists t z, Q t z /\ got p p1 t [(f, z)].
Proof.
  intros G O A NI NC H FB. unfold one in H. destruct (read [a] (p_is p)) as [[l s]| | |] eqn:R; try discriminate. cbn [bind] in H. injection H as <-.
  change (checked_set f (vof l 0) (with_is p s)) with (csets (with_is p s) [(f, vof l 0)]) in *.
  assert (FS : failb s = false) by (apply csets_ok in FB; apply FB).
  destruct (read_inv [a] ltac:(now constructor) ltac:(intros z [Q1|[]]; now apply (NI z)) _ _ _ O R FS) as (O' & t & T & Q1).
  exists t, (vof l 0). split; [|now apply got_csets]. apply G. destruct a as [b|z|m M|m M]; [now destruct (NC b)|now destruct (NI z)| |];
  cbn [fits] in *; destruct Q1 as (n & l' & ds & t' & -> & -> & D & ->); exists n, [], ds, []; auto.
Qed.
Lemma read_s_fail m M args s l s' : m >? 0 = true -> failb s = true -> read (RS m M :: args) s = Ok (l, s') -> failb s' = true.
Proof. intros Hm F R. cbn [read] in R. unfold read_signed, peek in R. rewrite (good_false s F), Hm in R. cbn in R. injection R as <- <-. reflexivity. Qed.
Lemma read_u_fail m M args s l s' : failb s = true -> read (RU m M :: args) s = Ok (l, s') -> failb s' = true.
Proof. intros F R. cbn [read] in R. unfold read_unsigned in R. rewrite (good_false s F) in R. cbn in R. injection R as <- <-. reflexivity. Qed.
Lemma one_back f M p p1 : one f (RS 1 M) p = Ok p1 -> failb (p_is p1) = false -> failb (p_is p) = false.
Proof.
  intros H FB. unfold one in H. destruct (read [RS 1 M] (p_is p)) as [[l s]| | |] eqn:R; try discriminate. cbn [bind] in H. injection H as <-. apply cset_fail in FB. cbn [with_is p_is] in FB.
  destruct (failb (p_is p)) eqn:F; [|reflexivity]. rewrite (read_s_fail 1 M [] _ l s eq_refl F R) in FB. discriminate.
Qed.
Lemma clock_back fh p p1 : clock w fh p = Ok p1 -> failb (p_is p1) = false -> failb (p_is p) = false.
Proof.
  intros H FB. unfold clock in H. destruct (read _ (p_is p)) as [[l s1]| | |] eqn:R; try discriminate. cbn [bind] in H.
  destruct (failb (p_is p)) eqn:F; [|reflexivity]. rewrite (read_u_fail _ _ _ _ l s1 F R) in H. destruct (round_sec w ld_zero) as [q0| | |]; try discriminate. cbn [bind] in H. injection H as <-.
  do 3 apply cset_fail in FB. cbn [with_is p_is] in FB. rewrite (read_u_fail _ _ _ _ l s1 F R) in FB. discriminate.
Qed.
Lemma full_reads p p' : okst (p_is p) -> p_md p = NUL -> in_directive w "c" p = Ok p' -> failb (p_is p') = false -> reads "c" p p'.
Proof.
  intros O N H FB. cbn [in_directive] in H. rewrite N in H. change (Ascii.eqb NUL "O") with false in H. cbv iota in H.
  unfold keyword in H. destruct (scan_keyword weekday_names (p_is p)) as [i s1] eqn:K1. set (p2 := checked_set Fwd (i mod 7) (with_is p s1)) in *.
  set (p3 := with_is p2 (ws (p_is p2))) in *. destruct (scan_keyword month_names (p_is p3)) as [j s4] eqn:K4. set (p5 := checked_set Fm (j mod 12 + 1) (with_is p3 s4)) in *.
  set (p6 := with_is p5 (ws (p_is p5))) in *. destruct (one Fd (RS 1 2) p6) as [p7| | |] eqn:H7; try discriminate. cbn [bind] in H.
  set (p8 := with_is p7 (ws (p_is p7))) in *. destruct (clock w FH p8) as [p9| | |] eqn:H9; try discriminate. cbn [bind] in H.
  set (p10 := with_is p9 (ws (p_is p9))) in *. destruct (one FY (RS 1 4) p10) as [p11| | |] eqn:H11; try discriminate. cbn [bind] in H. injection H as <-. cbn [reset p_is] in FB.
  assert (F10 := one_back _ _ _ _ H11 FB). assert (F9 : failb (p_is p9) = false) by (unfold p10 in F10; cbn [with_is p_is] in F10; now rewrite ws_fail in F10).
  assert (F8 := clock_back _ _ _ H9 F9). assert (F7 : failb (p_is p7) = false) by (unfold p8 in F8; cbn [with_is p_is] in F8; now rewrite ws_fail in F8).
  assert (F6 := one_back _ _ _ _ H7 F7). assert (F5 : failb (p_is p5) = false) by (unfold p6 in F6; cbn [with_is p_is] in F6; now rewrite ws_fail in F6).
  assert (F4 : failb s4 = false) by (unfold p5 in F5; now apply cset_fail in F5).
  assert (F3 : failb (p_is p3) = false) by (destruct (failb (p_is p3)) eqn:F; [|reflexivity]; rewrite (kw_fail _ _ _ _ K4 F) in F4; discriminate).
  assert (F2 : failb (p_is p2) = false) by (unfold p3 in F3; cbn [with_is p_is] in F3; now rewrite ws_fail in F3).
  assert (F1 : failb s1 = false) by (unfold p2 in F2; now apply cset_fail in F2).
  destruct (keyword_inv _ _ _ _ names_w O K1 F1) as (O1 & I1 & ta & ka & T1 & E1 & W1).
  assert (G2 : got p p2 ta [(Fwd, i mod 7)]) by (now apply (got_csets p s1 [(Fwd, i mod 7)] ta)).
  destruct (got_ws p2 ltac:(apply G2)) as (b1 & B1 & G3). fold p3 in G3.
  assert (O3 : okst (p_is p3)) by apply G3. destruct (keyword_inv _ _ _ _ names_m O3 K4 F4) as (O4 & I4 & tb & kb & T4 & E4 & W4).
  assert (G5 : got p3 p5 tb [(Fm, j mod 12 + 1)]) by (now apply (got_csets p3 s4 [(Fm, j mod 12 + 1)] tb)).
  destruct (got_ws p5 ltac:(apply G5)) as (b2 & B2 & G6). fold p6 in G6.
  destruct (one_got Fd (RS 1 2) p6 p7 (fun t z => number_up_to 2 z t) (fits_s 2) ltac:(apply G6) (aok_s 2 ltac:(lia)) ltac:(discriminate) ltac:(discriminate) H7 F7) as (td & zd & Dd & G7).
  destruct (got_ws p7 ltac:(apply G7)) as (b3 & B3 & G8). fold p8 in G8.
  destruct (clock_reads FH p8 p9 ltac:(apply G8) H9 F9) as (s9 & h & m & t & a & b & q & O9 & T9 & D1 & D2 & ST & E9).
  assert (G9 : got p8 p9 (h ++ ":" :: m ++ ":" :: t) [(FH, a); (FM, b); (Fs, q)]) by (rewrite E9 in F9 |- *; now apply got_csets).
  destruct (got_ws p9 ltac:(apply G9)) as (b4 & B4 & G10). fold p10 in G10.
  destruct (one_got FY (RS 1 4) p10 p11 (fun t z => number_up_to 4 z t) (fits_s 4) ltac:(apply G10) (aok_s 4 ltac:(lia)) ltac:(discriminate) ltac:(discriminate) H11 FB) as (ty & zy & Dy & G11).
  clearbody p2 p3 p5 p6 p8 p10.
  assert (GG := got_trans _ _ _ _ _ _ _ G2 (got_trans _ _ _ _ _ _ _ G3 (got_trans _ _ _ _ _ _ _ G5 (got_trans _ _ _ _ _ _ _ G6 (got_trans _ _ _ _ _ _ _ G7 (got_trans _ _ _ _ _ _ _ G8 (got_trans _ _ _ _ _ _ _ G9 (got_trans _ _ _ _ _ _ _ G10 G11)))))))).
  destruct GG as (OO & TT & EE & SS & KK). split; [unfold ready; cbn [reset p_is p_cmd p_md p_w p_inw]; auto|].
  exists (ta ++ b1 ++ tb ++ b2 ++ td ++ b3 ++ (h ++ ":" :: m ++ ":" :: t) ++ b4 ++ ty), ([(Fwd, i mod 7)] ++ [(Fm, j mod 12 + 1)] ++ [(Fd, zd)] ++ [(FH, a); (FM, b); (Fs, q)] ++ [(FY, zy)]).
  cbn [reset p_is p_v]. split; [exact TT|]. split; [|split; [exact EE|]; split; [exact SS|exact KK]].
  apply f_c; [rewrite !Forall_app; auto| | | | |].
  - apply (f_A "a" ta ka i); auto.
  - apply (f_B "b" tb kb j); auto.
  - apply f_d; auto.
  - apply f_T; auto.
  - now apply f_Y.
Qed.
Lemma dir_reads c p p' : memb c moment_in = true -> c <> "%" -> okst (p_is p) -> p_md p = NUL -> p_w p = -1 ->
  in_directive w c p = Ok p' -> failb (p_is p') = false -> reads c p p'.
Proof.
  intros M NP O N W H FB. assert (WO : forall n, wd_or p n = n) by (intros n; unfold wd_or; now rewrite W).
  destruct (Ascii.eqb_spec c "c") as [->|NC]; [now apply full_reads|].
  unfold moment_in in M. cbn [app sound_in clock_in] in M.
  assert (NU : Ascii.eqb NUL NUL = true) by reflexivity. assert (NE : Ascii.eqb NUL "E" = false) by reflexivity. assert (NO : Ascii.eqb NUL "O" = false) by reflexivity.
  memb_cases M; [congruence|..]; try (exfalso; congruence); clear NP NC; cbn [in_directive] in H; rewrite ?N, ?NU, ?NE, ?NO, ?WO in H.
  all: try (eapply one_reads; [|exact O| | | |exact H|exact FB]; [|aok1|congruence|congruence]; intros t z FT; (first [apply (fits_u 2) in FT|apply (fits_s 4) in FT|apply (fits_s 2) in FT|apply (fits_u 3) in FT]; first [constructor; auto; fail|apply f_time; constructor; auto; fail])).
  - (* F *)
    destruct (read _ (p_is p)) as [[l s]| | |] eqn:R; try discriminate. cbn [bind] in H. injection H as <-.
    change (checked_set Fd _ (checked_set Fm _ (checked_set FY _ ?q))) with (csets q [(FY, vof l 0); (Fm, vof l 1); (Fd, vof l 2)]) in FB |- *.
    assert (FS : failb s = false) by (cbn [reset p_is] in FB; apply csets_ok in FB; apply FB).
    assert (X := fun A B => read_inv _ A B _ _ _ O R FS). destruct (X ltac:(aok) ltac:(nRI)) as (O' & t & T & Q). apply (done _ p s _ t); auto.
    cbn [fits] in Q. destruct Q as (z & l1 & y & t1 & -> & -> & D1 & t2 & -> & a & l2 & m & t3 & -> & -> & D2 & t4 & -> & b & l3 & d & t5 & -> & -> & D3 & ->).
    rewrite app_nil_r. cbn [vof nth]. constructor; auto.
  - (* D *)
    destruct (read _ (p_is p)) as [[l s]| | |] eqn:R; try discriminate. cbn [bind] in H. injection H as <-.
    change (checked_set Fd _ (checked_set Fm _ (checked_set Fy _ ?q))) with (csets q [(Fy, vof l 2); (Fm, vof l 0); (Fd, vof l 1)]) in FB |- *.
    assert (FS : failb s = false) by (cbn [reset p_is] in FB; apply csets_ok in FB; apply FB).
    assert (X := fun A B => read_inv _ A B _ _ _ O R FS). destruct (X ltac:(aok) ltac:(nRI)) as (O' & t & T & Q). apply (done _ p s _ t); auto.
    cbn [fits] in Q. rewrite NU in Q. destruct Q as (a & l1 & m & t1 & -> & -> & D1 & t2 & -> & b & l2 & d & t3 & -> & -> & D2 & t4 & -> & z & l3 & y & t5 & -> & -> & D3 & ->).
    rewrite app_nil_r. cbn [vof nth]. constructor; auto.
  - (* x *)
    destruct (read _ (p_is p)) as [[l s]| | |] eqn:R; try discriminate. cbn [bind] in H. injection H as <-.
    change (checked_set Fd _ (checked_set Fm _ (checked_set Fy _ ?q))) with (csets q [(Fy, vof l 2); (Fm, vof l 0); (Fd, vof l 1)]) in FB |- *.
    assert (FS : failb s = false) by (cbn [reset p_is] in FB; apply csets_ok in FB; apply FB).
    assert (X := fun A B => read_inv _ A B _ _ _ O R FS). destruct (X ltac:(aok) ltac:(nRI)) as (O' & t & T & Q). apply (done _ p s _ t); auto.
    cbn [fits] in Q. destruct Q as (a & l1 & m & t1 & -> & -> & D1 & t2 & -> & b & l2 & d & t3 & -> & -> & D2 & t4 & -> & z & l3 & y & t5 & -> & -> & D3 & ->).
    rewrite app_nil_r. cbn [vof nth]. constructor; auto.
  - now apply (kw_m "b").
  - now apply (kw_m "B").
  - now apply (kw_m "h").
  - apply (kw_w "a"); auto.
  - apply (kw_w "A"); auto.
  - (* u *)
    destruct (read _ (p_is p)) as [[l s]| | |] eqn:R; try discriminate. cbn [bind] in H. destruct (failb s) eqn:FS; [injection H as <-; cbn in FB; congruence|].
    assert (X := fun A B => read_inv _ A B _ _ _ O R FS). destruct (X ltac:(aok) ltac:(nRI)) as (O' & t & T & Q). cbn [fits] in Q. destruct Q as (n & l1 & ds & t1 & -> & -> & D & ->). cbn [vof nth] in H. change (Ascii.eqb "u" "u") with true in H. cbv iota in H.
    destruct ((1 <=? n)%Z && (n <=? 7)%Z) eqn:B; [|change ((8 =? 8)%Z) with true in H; injection H as <-; discriminate FB]. apply andb_prop in B. rewrite !Z.leb_le in B.
    assert (EM : (if (n =? 7)%Z then 0 else n) = n mod 7) by (destruct (Z.eqb_spec n 7) as [->|]; [reflexivity|now rewrite Z.mod_small by lia]).
    rewrite EM in H. assert (MB := Z.mod_pos_bound n 7 ltac:(lia)). destruct (Z.eqb_spec (n mod 7) 8) as [|_]; [lia|]. injection H as <-.
    change (checked_set Fwd (n mod 7) ?q) with (csets q [(Fwd, n mod 7)]) in FB |- *. apply (done _ p s _ ds); auto; [constructor; auto|now rewrite app_nil_r in T].
  - (* w *)
    destruct (read _ (p_is p)) as [[l s]| | |] eqn:R; try discriminate. cbn [bind] in H. destruct (failb s) eqn:FS; [injection H as <-; cbn in FB; congruence|].
    assert (X := fun A B => read_inv _ A B _ _ _ O R FS). destruct (X ltac:(aok) ltac:(nRI)) as (O' & t & T & Q). cbn [fits] in Q. destruct Q as (n & l1 & ds & t1 & -> & -> & D & ->). cbn [vof nth] in H. change (Ascii.eqb "w" "u") with false in H. cbv iota in H.
    destruct ((0 <=? n)%Z && (n <=? 6)%Z) eqn:B; [|change ((8 =? 8)%Z) with true in H; injection H as <-; discriminate FB]. apply andb_prop in B. rewrite !Z.leb_le in B.
    destruct (Z.eqb_spec n 8) as [|_]; [lia|]. injection H as <-.
    change (checked_set Fwd n ?q) with (csets q [(Fwd, n)]) in FB |- *. apply (done _ p s _ ds); auto; [constructor; auto|now rewrite app_nil_r in T].
  - (* I *)
    destruct (read _ (p_is p)) as [[l s]| | |] eqn:R; try discriminate. cbn [bind] in H. injection H as <-.
    destruct ((1 <=? vof l 0)%Z && (vof l 0 <=? 12)%Z) eqn:B; [|cbn in FB; discriminate FB]. apply andb_prop in B. rewrite !Z.leb_le in B.
    change (checked_set FI ?a ?q) with (csets q [(FI, a)]) in FB |- *. assert (FS : failb s = false) by (cbn [reset p_is] in FB; apply csets_ok in FB; apply FB).
    assert (X := fun A B => read_inv _ A B _ _ _ O R FS). destruct (X ltac:(aok) ltac:(nRI)) as (O' & t & T & Q). apply (done _ p s _ t); auto. apply f_time.
    cbn [fits] in Q. destruct Q as (n & l1 & ds & t1 & -> & -> & D & ->). rewrite app_nil_r. cbn [vof nth] in *. now constructor.
  - (* p *)
    unfold keyword in H. destruct (scan_keyword ampm_names (p_is p)) as [i s] eqn:K. injection H as <-. change (checked_set Fp i ?q) with (csets q [(Fp, i)]) in FB |- *.
    assert (FS : failb s = false) by (cbn [reset p_is] in FB; apply csets_ok in FB; apply FB).
    destruct (keyword_inv _ _ _ _ names_p O K FS) as (O' & L & t & k & T & E & SW). apply (done _ p s _ t); auto. apply f_time. now apply (f_am t k i).
  - (* S *)
    destruct (read_long_double 1 (sec_chars w) (p_is p)) as [x s] eqn:RL. destruct (round_sec w x) as [q0| | |] eqn:RS; try discriminate. cbn [bind] in H. injection H as <-.
    change (checked_set Fs q0 ?q) with (csets q [(Fs, q0)]) in FB |- *. assert (FS : failb s = false) by (cbn [reset p_is] in FB; apply csets_ok in FB; apply FB).
    destruct (seconds_inv w _ x s W7 O RL FS) as (O' & t & q & T & RQ & ST). rewrite RS in RQ. injection RQ as ->. apply (done _ p s _ t); auto. apply f_time. now constructor.
  - (* R *)
    destruct (read _ (p_is p)) as [[l s]| | |] eqn:R; try discriminate. cbn [bind] in H. injection H as <-.
    change (checked_set FM ?a (checked_set FH ?b ?q)) with (csets q [(FH, b); (FM, a)]) in FB |- *. assert (FS : failb s = false) by (cbn [reset p_is] in FB; apply csets_ok in FB; apply FB).
    assert (X := fun A B => read_inv _ A B _ _ _ O R FS). destruct (X ltac:(aok) ltac:(nRI)) as (O' & t & T & Q). apply (done _ p s _ t); auto. apply f_time.
    cbn [fits] in Q. rewrite ?NU in Q. destruct Q as (a & l1 & h & t1 & -> & -> & D1 & t2 & -> & b & l2 & m & t3 & -> & -> & D2 & ->). rewrite app_nil_r. now constructor.
  - (* T *)
    destruct (clock w FH p) as [p1| | |] eqn:CK; try discriminate. cbn [bind] in H. injection H as <-. cbn [reset p_is] in FB.
    destruct (clock_reads FH p p1 O CK FB) as (s & h & m & t & a & b & q & O' & T & D1 & D2 & ST & ->). apply (done _ p s _ (h ++ ":" :: m ++ ":" :: t)); auto. apply f_time. apply f_T; auto.
  - (* X *)
    destruct (clock w FH p) as [p1| | |] eqn:CK; try discriminate. cbn [bind] in H. injection H as <-. cbn [reset p_is] in FB.
    destruct (clock_reads FH p p1 O CK FB) as (s & h & m & t & a & b & q & O' & T & D1 & D2 & ST & ->). apply (done _ p s _ (h ++ ":" :: m ++ ":" :: t)); auto. apply f_time. apply f_T; auto.
  - (* r *)
    destruct (clock w FI p) as [p1| | |] eqn:CK; try discriminate. cbn [bind] in H. unfold keyword in H. cbn [with_is p_is] in H.
    destruct (scan_keyword ampm_names (ws (p_is p1))) as [i s2] eqn:K. injection H as <-. change (checked_set Fp i ?q) with (csets q [(Fp, i)]) in FB |- *.
    assert (FS : failb s2 = false) by (cbn [reset p_is] in FB; apply csets_ok in FB; apply FB).
    assert (F1 : failb (p_is p1) = false).
    { destruct (failb (p_is p1)) eqn:F1; [|reflexivity]. rewrite (kw_fail _ _ _ _ K) in FS; [discriminate|]. unfold ws. now destruct (skip_ws _). }
    destruct (clock_reads FI p p1 O CK F1) as (s & h & m & t & a & b & q & O1 & T & D1 & D2 & ST & E1).
    assert (EI : p_is p1 = s) by (rewrite E1 in F1 |- *; destruct (csets_ok _ _ F1) as (_ & S1 & _); apply (e_s _ _ S1)). rewrite EI in K.
    destruct (ws_ok s O1) as (O2 & bl & TB & WB). destruct (keyword_inv _ _ _ _ names_p O2 K FS) as (O' & L & u & k & TU & E & SW). clear EI. subst p1.
    change (with_is (with_is ?z _) s2) with (with_is z s2) in *.
    apply (done2 _ p s s2 _ _ (h ++ ":" :: m ++ ":" :: t ++ bl ++ u)); auto.
    + apply f_time. cbn [app]. now apply (f_r h m t a b q bl u k i).
    + rewrite T, TB, TU. rewrite <- !app_assoc. cbn [app]. rewrite <- !app_assoc. cbn [app]. rewrite <- !app_assoc. reflexivity.
  - (* z *)
    destruct (offset_in p) as [p1| | |] eqn:OI; try discriminate. cbn [bind] in H. injection H as <-. cbn [reset p_is] in FB.
    destruct (offset_inv p p1 O N OI FB) as (s & t & o & O' & T & OT & ->). apply (done _ p s _ t); auto. now apply f_z.
Qed.
(** A character of the format outside of directives *)
Lemma lit_reads c p p' : ordinary c -> ready p -> step w c p = Ok p' -> failb (p_is p') = false ->
  ready p' /\ p_v p' = p_v p /\ exists t, rest (p_is p) = t ++ rest (p_is p') /\ ((white c /\ Forall white t) \/ (~ white c /\ t = [c])).
Proof.
  intros [NP NN] (O & C & N & W & I) H FB. unfold step in H. rewrite C in H.
  assert (RC : is_space c = false -> Ok (with_is p (read_c c (p_is p))) = Ok p' -> ready p' /\ p_v p' = p_v p /\ exists t, rest (p_is p) = t ++ rest (p_is p') /\ ((white c /\ Forall white t) \/ (~ white c /\ t = [c]))).
  { intros NS H'. injection H' as <-. cbn [with_is p_is] in *. destruct (read_c_inv c (p_is p) NN O) as [RF|(r & E & RC)]; [rewrite RF in FB; discriminate|]. rewrite RC in *.
    split; [unfold ready; cbn [with_is p_is p_cmd p_md p_w p_inw]; split; [apply okst_str|auto]|]. split; [reflexivity|]. exists [c]. split; [exact E|]. right. split; [|reflexivity]. rewrite <- space_white, NS. discriminate. }
  destruct (memb c in_directives) eqn:HD; [apply RC; [|exact H]; unfold in_directives in HD; memb_cases HD; reflexivity|].
  rewrite eo_memb in H. destruct (memb c (!"EO")) eqn:HE; [apply RC; [|exact H]; memb_cases HE; reflexivity|].
  destruct (Ascii.eqb_spec c "%"); [contradiction|]. destruct (is_space c) eqn:SP; [|now apply RC].
  injection H as <-. assert (G : good (p_is p) = false -> rest (p_is p) = []).
  { unfold good. destruct O as [O1 O2]. rewrite O1. destruct (eofb (p_is p)); [auto|discriminate]. }
  destruct (good (p_is p)) eqn:GD.
  - cbn [with_is p_is p_v p_cmd p_md p_w p_inw]. unfold ready. cbn [with_is p_is p_v p_cmd p_md p_w p_inw]. unfold ws. pose proof (ws_white (rest (p_is p))) as WW. destruct (skip_ws (rest (p_is p))) as [r e]. destruct WW as (t & E & F & EE).
    assert (EB : eofb (p_is p) = false) by (unfold good in GD; destruct (eofb (p_is p)); [discriminate|reflexivity]).
    split; [split; [|auto]; split; cbn [failb eofb rest]; [apply O|rewrite EB; exact EE]|]. split; [reflexivity|]. exists t. split; [exact E|]. left. split; [now apply space_white|exact F].
  - split; [unfold ready; auto|]. split; [reflexivity|]. exists []. split; [reflexivity|]. left. split; [now apply space_white|constructor].
Qed.
Definition told (v : vals) (i : item) (t : str) : Prop :=
  match i with
  | Lit c => (white c /\ Forall white t) \/ (~ white c /\ t = [c])
  | Dir c => exists L, facts c t L /\ said v L
  end.
Lemma told_ext v v' i t : ext v v' -> told v i t -> told v' i t.
Proof. intros E. destruct i as [c|c]; [auto|]. intros (L & F & A). exists L. split; [exact F|now apply (said_ext v)]. Qed.
Lemma step_eta p : p_inw p = false -> P (p_is p) (p_v p) (p_zone p) (p_cmd p) (p_md p) (p_w p) false = p.
Proof. destruct p. cbn. now intros ->. Qed.
Lemma loop_fail fmt p p' : loop w fmt p = Ok p' -> failb (p_is p) = true -> p' = p.
Proof. destruct fmt; cbn [loop]; [congruence|]. intros H F. rewrite F in H. congruence. Qed.
Lemma dir_step c p p' : memb c moment_in = true -> ready p -> step w c (P (p_is p) (p_v p) (p_zone p) true (p_md p) (p_w p) false) = Ok p' -> failb (p_is p') = false -> reads c p p'.
Proof.
  intros M (O & C & N & W & I) H FB. set (q := P (p_is p) (p_v p) (p_zone p) true (p_md p) (p_w p) false) in *.
  destruct (Ascii.eqb_spec c "%") as [->|NP].
  - unfold step in H. change (memb "%" in_directives) with false in H. cbn [q p_cmd p_md] in H. rewrite N in H. change ("%" =? "E") with false in H. change ("%" =? "O") with false in H. change ("%" =? "%") with true in H. change (NUL =? NUL) with true in H. cbv beta iota in H. cbn [orb] in H.
    injection H as <-. destruct (read_c_inv "%" (p_is p) ltac:(discriminate) O) as [RF|(r & E & RC)].
    + cbn [q reset with_is p_is] in FB. rewrite RF in FB. discriminate FB.
    + change (reset (with_is q (read_c "%" (p_is q)))) with (reset (csets (with_is q (read_c "%" (p_is p))) [])) in *.
      refine (done "%" q _ [] (!"%") _ _ _ FB); [rewrite RC; apply okst_str|apply f_p|rewrite RC; exact E].
  - unfold step in H. assert (HD : memb c in_directives = true) by (unfold moment_in in M; cbn [app sound_in clock_in] in M; memb_cases M; [congruence|..]; reflexivity). rewrite HD in H. cbn [q p_cmd] in H.
    apply (dir_reads c q p' M NP O N W H FB).
Qed.
Lemma loop_reads l : covered (fun c => memb c moment_in = true) l -> forall p p', ready p -> loop w (fmt_of l) p = Ok p' -> failb (p_is p') = false ->
  ready p' /\ ext (p_v p) (p_v p') /\ untouched l (p_v p) (p_v p') /\ (nums (p_v p) -> nums (p_v p')) /\ exists ts, rest (p_is p) = concat ts ++ rest (p_is p') /\ Forall2 (told (p_v p')) l ts.
Proof.
  induction 1 as [|i l HI HL IH]; intros p p' RP H FB.
  - cbn in H. injection H as <-. split; [exact RP|]. split; [apply ext_refl|]. split; [now intros f|]. split; [auto|]. exists []. split; [reflexivity|constructor].
  - pose proof RP as (O & C & N & W & I). destruct i as [c|c].
    + change (fmt_of (Lit c :: l)) with (c :: fmt_of l) in H. cbn [loop] in H. rewrite (proj1 O), I in H. cbn [andb] in H. rewrite (step_eta _ I) in H.
      destruct (step w c p) as [p1| | |] eqn:S1; try discriminate. cbn [bind] in H.
      assert (F1 : failb (p_is p1) = false) by (destruct (failb (p_is p1)) eqn:F1; [|reflexivity]; apply loop_fail in H; congruence).
      destruct (lit_reads c p p1 HI RP S1 F1) as (R1 & V1 & t & T & K). destruct (IH p1 p' R1 H FB) as (R' & E' & Q' & NN' & ts & TS & F).
      rewrite V1 in *. split; [exact R'|]. split; [exact E'|]. split; [exact Q'|]. split; [exact NN'|]. exists (t :: ts). cbn [concat]. rewrite <- app_assoc, <- TS. split; [exact T|]. constructor; [exact K|exact F].
    + change (fmt_of (Dir c :: l)) with ("%" :: c :: fmt_of l) in H. cbn [loop] in H. rewrite (proj1 O), I in H. cbn [andb] in H.
      assert (S0 : step w "%" (P (p_is p) (p_v p) (p_zone p) (p_cmd p) (p_md p) (p_w p) false) = Ok (P (p_is p) (p_v p) (p_zone p) true (p_md p) (p_w p) false)) by (unfold step; cbn [p_cmd]; rewrite C; reflexivity).
      rewrite S0 in H. cbn [bind p_is p_inw p_v p_zone p_cmd p_md p_w] in H. rewrite (proj1 O) in H. cbn [andb] in H.
      destruct (step w c _) as [p1| | |] eqn:S1; try discriminate. cbn [bind] in H.
      assert (F1 : failb (p_is p1) = false) by (destruct (failb (p_is p1)) eqn:F1; [|reflexivity]; apply loop_fail in H; congruence).
      destruct (dir_step c p p1 HI RP S1 F1) as (R1 & t & L & T & FA & E1 & A1 & K1). destruct (IH p1 p' R1 H FB) as (R' & E' & Q' & NN' & ts & TS & F).
      split; [exact R'|]. split; [now apply (ext_trans _ _ _ E1)|]. split; [intros f U; cbn [uses existsb] in U; apply orb_false_iff in U; destruct U as [U1 U2]; rewrite (Q' f U2); destruct (K1 f) as [K2|K2]; [exact K2|exfalso; apply (facts_setters c t L f FA U1); now apply (in_map fst) in K2]|].
      split; [intros NN; apply NN'; now apply (nums_kept c t L (p_v p))|].
      exists (t :: ts). cbn [concat]. rewrite <- app_assoc, <- TS. split; [exact T|]. constructor; [|exact F]. exists L. split; [exact FA|now apply (said_ext _ _ _ E')].
Qed.
Lemma plain_sound l : covered (fun c => memb c moment_in = true) l -> uses l (!"z") = false -> plain (fmt_of l).
Proof.
  unfold plain. induction 1 as [|i l HI HL IH]; [reflexivity|]. cbn [uses existsb]. intros U. apply orb_false_iff in U. destruct U as [UZ U]. specialize (IH U). destruct i as [c|c].
  - change (fmt_of (Lit c :: l)) with (c :: fmt_of l). cbn [plain_from]. destruct HI as [NP _]. apply Ascii.eqb_neq in NP. now rewrite NP.
  - change (fmt_of (Dir c :: l)) with ("%" :: c :: fmt_of l). cbn [plain_from]. change (Ascii.eqb "%" "%") with true. cbv iota. cbn [plain_from]. unfold moment_in in HI. cbn [app sound_in clock_in] in HI. clear U. memb_cases HI; first [exact IH|discriminate UZ].
Qed.
Lemma sound_cstr l : covered (fun c => memb c moment_in = true) l -> c_str (fmt_of l) = fmt_of l.
Proof.
  induction 1 as [|i l HI HL IH]; [reflexivity|]. destruct i as [c|c].
  - change (fmt_of (Lit c :: l)) with (c :: fmt_of l). cbn [c_str]. destruct HI as [_ NN]. destruct (Ascii.eqb_spec c NUL); [contradiction|]. now rewrite IH.
  - change (fmt_of (Dir c :: l)) with ("%" :: c :: fmt_of l). cbn [c_str]. change (Ascii.eqb "%" NUL) with false. cbv iota. unfold moment_in in HI. destruct (Ascii.eqb_spec c NUL) as [->|]; [discriminate HI|]. now rewrite IH.
Qed.
(** The stream after the loop and the variables.  The date, the hour and the time do not depend on
    the offset. *)
Definition no_off (v : vals) : vals := upd v Foff (nav Foff).
Lemma nums_vok v : nums v -> vok (no_off v).
Proof. intros N g. unfold no_off. destruct (fld_dec Foff g) as [<-|NE]; [left; apply upd_same|]. rewrite upd_other by exact NE. destruct (N g) as [E|[(_ & E & _)|[E _]]]; [now left|now right|congruence]. Qed.
Lemma stream_reads l f0 s r : covered (fun c => memb c moment_in = true) l -> from_stream w (fmt_of l) f0 (stream s) = Ok r ->
  exists v ts, nums v /\ untouched l init_vals v /\ s = concat ts ++ rest (r_is r) /\ Forall2 (told v) l ts /\
    exists wd j, resolve_date v = Ok (f_ymd (r_fields r), wd, j) /\ r_off r = v Foff /\
      exists h, resolve_hour v = Ok h /\ resolve_tod w v h j (f_tod f0) (f_has f0) = Ok (f_tod (r_fields r), f_has (r_fields r)).
Proof.
  intros C H. unfold from_stream in H. change (good (stream s)) with true in H. cbn [negb] in H. rewrite (sound_cstr l C) in H.
  set (p0 := P (stream s) init_vals [] false NUL (-1) false) in *.
  destruct (loop w (fmt_of l) p0) as [p| | |] eqn:L; try discriminate. cbn [bind] in H.
  destruct (failb (p_is p)) eqn:FB.
  { rewrite (good_false _ FB) in H. cbn [andb bind] in H. rewrite FB in H. discriminate. }
  destruct (loop_reads l C p0 p) as (RP & _ & Q & NN & ts & T & F); [|exact L|exact FB|].
  { unfold ready, p0. cbn. split; [apply okst_str|auto]. }
  destruct RP as (O & CM & _). rewrite CM, andb_false_r in H. cbn [bind] in H. rewrite FB in H.
  destruct (resolve_date (p_v p)) as [[[x wd] j]| | |] eqn:RD; try discriminate. cbn [bind] in H.
  destruct (resolve_hour (p_v p)) as [h| | |] eqn:RH; try discriminate. cbn [bind] in H. destruct (resolve_tod w (p_v p) h j (f_tod f0) (f_has f0)) as [[t has]| | |] eqn:RT; try discriminate. cbn [bind] in H.
  injection H as <-. cbn [r_is r_fields f_ymd f_tod f_has r_off]. exists (p_v p), ts. split; [apply NN; intros g; now left|]. split; [exact Q|]. split; [exact T|]. split; [exact F|]. exists wd, j. split; [exact RD|]. split; [reflexivity|]. exists h. split; [exact RH|exact RT].
Qed.
End Dir.
