(** Helper lemmas for ParClockProps4: the seconds that are read. *)
From Verif Require Import Base IntModel ToNumModel DateModel DateSpec DateProofs DateProofs2 FmtModel FmtSpec FmtProofs FmtProofs2 FmtProofs3 FmtProofs4 ParModel ParSpec ParClockSpec ParProofs1 ParProofs2 ParProofs6 ParProofs7 ParProofs8 ParProofs9 ParProofs10 ParProofs11 ParProofs12 ParProps2 ParProps3 ParTimeProofs1 ParTimeProofs2 ParTimeProps ParClockProps ParClockProps2 ParClockProps3.
Local Open Scope Z_scope.
Local Open Scope outcome_scope.
Local Open Scope char_scope.

Definition point_shape (t : str) : Prop := exists a p b, t = a ++ p ++ b /\ Forall is_dig (a ++ b) /\ (p = !"." \/ (p = [] /\ b = [])).
Definition stops (w : nat) (t r : str) : Prop :=
  length t = seconds_width w \/ match r with [] => True | c :: _ => ~ is_dig c /\ (c = "." -> In "." t) end.
Lemma digs_no_point l : Forall is_dig l -> ~ In "." l.
Proof. intros D I. rewrite Forall_forall in D. specialize (D _ I). unfold is_dig in D. cbn in D. lia. Qed.
(** a shape continued by a character that is not a digit *)
Lemma shape_ext t c u : point_shape (t ++ c :: u) -> ~ is_dig c -> c = "." /\ ~ In "." t.
Proof.
  intros (a & p & b & E & D & PB) NC. apply Forall_app in D. destruct D as [DA DB].
  assert (INC : In c (a ++ p ++ b)) by (rewrite <- E; apply in_or_app; right; left; reflexivity).
  assert (CP : c = ".").
  { apply in_app_or in INC. rewrite Forall_forall in DA, DB. destruct INC as [I|I]; [exfalso; apply NC, DA, I|].
    apply in_app_or in I. destruct I as [I|I]; [|exfalso; apply NC, DB, I]. destruct PB as [->|[-> _]]; [|destruct I].
    destruct I as [<-|[]]. reflexivity. }
  split; [exact CP|]. subst c. intros IT.
  assert (CO : (count_occ ascii_dec (a ++ p ++ b) "." <= 1)%nat).
  { rewrite !count_occ_app. rewrite (proj1 (count_occ_not_In ascii_dec a ".") (digs_no_point a DA)), (proj1 (count_occ_not_In ascii_dec b ".") (digs_no_point b DB)).
    destruct PB as [->|[-> _]]; cbn; lia. }
  rewrite <- E in CO. rewrite count_occ_app in CO. cbn [count_occ] in CO. destruct (ascii_dec "." ".") as [_|N]; [|now apply N].
  apply (count_occ_In ascii_dec) in IT. lia.
Qed.
Lemma shape_unique w t r t' r' : t ++ r = t' ++ r' -> point_shape t -> point_shape t' -> (length t <= seconds_width w)%nat -> (length t' <= seconds_width w)%nat ->
  stops w t r -> stops w t' r' -> t = t' /\ r = r'.
Proof.
  assert (H : forall t r t' r', t ++ r = t' ++ r' -> point_shape t' -> (length t' <= seconds_width w)%nat -> stops w t r -> (length t' <= length t)%nat).
  { clear. intros t r t' r' E S L ST. destruct (le_lt_dec (length t') (length t)) as [Q|Q]; [exact Q|exfalso].
    destruct ST as [ST|ST]; [lia|].
    assert (E2 : t' = t ++ skipn (length t) t').
    { rewrite <- (firstn_skipn (length t) t') at 1. f_equal.
      assert (F : firstn (length t) (t' ++ r') = t) by (rewrite <- E, firstn_app, Nat.sub_diag, firstn_all, app_nil_r; reflexivity).
      rewrite firstn_app in F. replace (length t - length t')%nat with 0%nat in F by lia. cbn [firstn] in F. now rewrite app_nil_r in F. }
    destruct (skipn (length t) t') as [|c u] eqn:K; [rewrite app_nil_r in E2; subst; lia|].
    rewrite E2, <- app_assoc in E. apply app_inv_head in E. rewrite E in ST. cbn [app] in ST. destruct ST as [N P].
    rewrite E2 in S. destruct (shape_ext _ _ _ S N) as [C NI]. exact (NI (P C)). }
  intros E S S' L L' ST ST'. pose proof (H _ _ _ _ E S' L' ST) as A. symmetry in E. pose proof (H _ _ _ _ E S L ST') as B.
  assert (LE : length t' = length t) by lia. clear -E LE. revert t E LE. induction t' as [|c t' IH]; intros [|d t]; cbn; intros E LE; try discriminate; [auto|].
  injection E as -> E. destruct (IH t E ltac:(lia)) as [-> ->]. auto.
Qed.
Lemma ld_stops M : M <= 10 -> forall r pt fr k fc i f k' fc' i' f' r' e, 0 <= k < M -> ld_loop M r pt fr k fc i f = (k', fc', i', f', r', e) ->
  exists t, r = t ++ r' /\ k' = k + zlen t /\ (k' = M \/ match r' with [] => True | c :: _ => is_digit c = false /\ (c = "." -> pt = false \/ In "." t) end).
Proof.
  intros HM. induction r as [|c r IH]; intros pt fr k fc i f k' fc' i' f' r' e K; cbn [ld_loop].
  - intros H. injection H as <- _ _ _ <- _. exists []. split; [reflexivity|]. split; [unfold zlen; cbn [length]; lia|]. now right.
  - rewrite uns_id by lia. destruct (pt && Ascii.eqb c ".") eqn:PC.
    + apply andb_prop in PC. destruct PC as [-> PC]. apply Ascii.eqb_eq in PC. subst c.
      destruct (Z.eqb_spec (k + 1) M) as [Q|Q].
      * intros H. injection H as <- _ _ _ <- _. exists ["."]. split; [reflexivity|]. split; [reflexivity|]. now left.
      * intros H. apply IH in H; [|lia]. destruct H as (t & -> & -> & X). exists ("." :: t). split; [reflexivity|]. rewrite zlen_cons. split; [lia|].
        destruct X as [X|X]; [now left|]. right. destruct r' as [|y r']; [exact X|]. destruct X as [X1 X2]. split; [exact X1|]. intros _. right. now left.
    + destruct (is_digit c) eqn:D.
      * assert (FIN : forall t r' k', k' = k + 1 + zlen t -> (k' = M \/ match r' with [] => True | c :: _ => is_digit c = false /\ (c = "." -> pt = false \/ In "." t) end) ->
          exists t', c :: t ++ r' = t' ++ r' /\ k' = k + zlen t' /\ (k' = M \/ match r' with [] => True | c :: _ => is_digit c = false /\ (c = "." -> pt = false \/ In "." t') end)).
        { clear. intros t r' k' E X. exists (c :: t). split; [reflexivity|]. rewrite zlen_cons. split; [lia|]. destruct X as [X|X]; [now left|]. right. destruct r' as [|y r']; [exact X|].
          destruct X as [X1 X2]. split; [exact X1|]. intros Y. destruct (X2 Y); [now left|right; now right]. }
        destruct (Z.eqb_spec (k + 1) M) as [Q|Q].
        -- intros H. injection H as <- _ _ _ <- _. apply (FIN [] r); [unfold zlen; cbn [length]; lia|now left].
        -- intros H. apply IH in H; [|lia]. destruct H as (t & -> & E & X). apply (FIN t); assumption.
      * intros H. injection H as <- _ _ _ <- _. exists []. split; [reflexivity|]. split; [unfold zlen; cbn [length]; lia|]. right. split; [exact D|]. intros ->. left. destruct pt; [discriminate PC|reflexivity].
Qed.
Lemma sec_width w : (w <= 7)%nat -> sec_chars w = Z.of_nat (seconds_width w).
Proof. intros W. unfold sec_chars, seconds_width. destruct (Nat.eqb w 0); lia. Qed.
(** What is read, with the number of ticks *)
Lemma seconds_inv2 w s x s' : (w <= 7)%nat -> okst s -> read_long_double 1 (sec_chars w) s = (x, s') -> failb s' = false ->
  exists t q, rest s = t ++ rest s' /\ round_sec w x = Ok q /\ seconds_text w q t /\ stops w t (rest s').
Proof.
  intros W O H FB. destruct (seconds_inv w s x s' W O H FB) as (_ & t & q & E & RS & ST). exists t, q. split; [exact E|]. split; [exact RS|]. split; [exact ST|].
  unfold read_long_double in H. destruct (good s) eqn:G; [|injection H as <- <-; discriminate FB].
  assert (HM : 1 <= sec_chars w <= 10) by (unfold sec_chars; destruct (Nat.eqb_spec w 0); lia).
  destruct (ld_loop (sec_chars w) (rest s) true false 0 0 0 0) as [[[[[c fc] i] f] r] e] eqn:L.
  apply ld_stops in L; [|lia|lia]. destruct L as (u & E2 & -> & X).
  destruct (Z.ltb_spec (0 + zlen u) 1) as [LT|GE]; [injection H as <- <-; discriminate FB|]. injection H as <- <-. cbn [rest] in *.
  rewrite E2 in E. apply app_inv_tail in E. subst u. unfold stops. destruct X as [X|X].
  - left. rewrite (sec_width w W) in X. unfold zlen in X. lia.
  - right. destruct r as [|y r]; [exact I|]. destruct X as [X1 X2]. split; [intros D; rewrite (proj1 (dig_is_digit y D)) in X1; discriminate|]. intros Y. destruct (X2 Y); [discriminate|assumption].
Qed.
(** 60 seconds are reached exactly if the whole seconds are at least 60 *)
Lemma sixty w a b q : (w <= 7)%nat -> Forall is_dig (a ++ b) -> (length (a ++ b) + (match b with [] => 0 | _ => 1 end) <= seconds_width w)%nat ->
  2 * Z.abs (q * 10 ^ zlen b - (value a * 10 ^ zlen b + value b) * 10 ^ Z.of_nat w) <= 10 ^ zlen b ->
  0 <= q /\ (q < 60 * 10 ^ Z.of_nat w <-> value a <= 59).
Proof.
  intros W D L N. apply Forall_app in D. destruct D as [DA DB]. pose proof (value_bound a DA) as VA. pose proof (value_bound b DB) as VB.
  assert (LB : 0 <= zlen b) by (unfold zlen; lia). assert (PB : 0 < 10 ^ zlen b) by (apply Z.pow_pos_nonneg; lia).
  assert (PW : 0 < 10 ^ Z.of_nat w) by (apply Z.pow_pos_nonneg; lia).
  destruct (Z_le_gt_dec (zlen b) (Z.of_nat w)) as [C|C].
  - assert (EW : 10 ^ Z.of_nat w = 10 ^ zlen b * 10 ^ (Z.of_nat w - zlen b)) by (rewrite <- Z.pow_add_r by lia; f_equal; lia).
    set (k := 10 ^ (Z.of_nat w - zlen b)) in *. assert (PK : 0 < k) by (apply Z.pow_pos_nonneg; lia). set (y := 10 ^ zlen b) in *.
    rewrite EW in N. assert (Q : q = (value a * y + value b) * k).
    { assert (E : q * y - (value a * y + value b) * (y * k) = (q - (value a * y + value b) * k) * y) by ring. rewrite E in N.
      rewrite Z.abs_mul, (Z.abs_eq y) in N by lia. assert (Z.abs (q - (value a * y + value b) * k) = 0) by nia. lia. }
    rewrite EW, Q. split; [nia|]. replace (60 * (y * k)) with (60 * y * k) by ring. rewrite <- Z.mul_lt_mono_pos_r by exact PK. split; nia.
  - assert (LA : zlen a <= 1).
    { unfold zlen in *. rewrite app_length in L. unfold seconds_width in L. destruct b; [cbn in C; lia|]. destruct (Nat.eqb_spec w 0); lia. }
    assert (VA9 : value a < 10). { assert (10 ^ zlen a <= 10 ^ 1) by (apply Z.pow_le_mono_r; lia). change (10 ^ 1) with 10 in *. lia. }
    set (y := 10 ^ zlen b) in *. set (k := 10 ^ Z.of_nat w) in *.
    assert (LO : 0 <= (value a * y + value b) * k) by nia.
    assert (HI : (value a * y + value b) * k <= 10 * y * k) by nia. split; [nia|]. split; [lia|]. intros _. nia.
Qed.
