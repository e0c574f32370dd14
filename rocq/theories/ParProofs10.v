(** What was in the text if a directive has succeeded. *)
From Verif Require Import Base IntModel ToNumModel DateModel DateSpec DateProofs DateProofs2 FmtModel FmtSpec FmtProofs2 FmtProofs3 ParModel ParSpec ParProofs1 ParProofs6 ParProofs7 ParProofs8.
Local Open Scope Z_scope.
Local Open Scope outcome_scope.

Lemma okst_sok s : okst s -> sok s. Proof. now right. Qed.
(** * Lists of arguments *)
Definition nlen (M : Z) : nat := Z.to_nat M.
Fixpoint fits (args : list rarg) (l : list Z) (t : str) : Prop :=
  match args with
  | [] => t = []
  | RC c :: a => if Ascii.eqb c NUL then fits a l t else exists t', t = c :: t' /\ fits a l t'
  | RI _ :: a => fits a l t
  | RU _ M :: a => exists n l' ds t', l = n :: l' /\ t = ds ++ t' /\ digits_up_to (nlen M) n ds /\ fits a l' t'
  | RS _ M :: a => exists n l' ds t', l = n :: l' /\ t = ds ++ t' /\ number_up_to (nlen M) n ds /\ fits a l' t'
  end.
Lemma read_inv args : Forall a_ok args -> (forall z, ~ In (RI z) args) -> forall s l s', okst s -> read args s = Ok (l, s') -> failb s' = false ->
  okst s' /\ exists t, rest s = t ++ rest s' /\ fits args l t.
Proof.
  induction args as [|a args IH]; intros F NI s l s' O R FB.
  - injection R as <- <-. split; [exact O|]. exists []. split; reflexivity.
  - apply Forall_cons_iff in F. destruct F as [A F].
    assert (NI' : forall z, ~ In (RI z) args) by (intros z H; apply (NI z); now right). specialize (IH F NI').
    destruct a as [c|z|m M|m M]; cbn [read fits] in *.
    + destruct (Ascii.eqb c NUL) eqn:N.
      * unfold read_c in R. rewrite N in R. destruct (failb s) eqn:FS; [destruct O; congruence|]. apply (IH s l s'); assumption.
      * assert (NN : c <> NUL) by now apply Ascii.eqb_neq.
        destruct (read_c_inv c s NN O) as [RF|(r & E & RC)].
        -- rewrite RF in R. injection R as <- <-. congruence.
        -- rewrite RC in R. cbn [failb str_is] in R. fold (str_is r) in R.
           destruct (IH (str_is r) l s' (okst_str r) R FB) as (O' & t & T1 & T2). split; [exact O'|]. exists (c :: t). cbn [rest str_is] in T1.
           rewrite E, T1. split; [reflexivity|]. exists t. auto.
    + exfalso. apply (NI z). now left.
    + destruct A as (-> & k & K & ->). destruct (read_s_inv k s ltac:(lia) O) as (z & s1 & R1 & _ & H). rewrite R1 in R. cbn [bind] in R.
      destruct (failb s1) eqn:F1; [injection R as <- <-; congruence|].
      destruct (read args s1) as [[l1 s2]| | |] eqn:R2; try discriminate. cbn [bind] in R. injection R as <- <-.
      destruct H as [H|(O1 & sg & ds & n & E & SG & D & _)]; [discriminate|].
      destruct (IH s1 l1 s2 O1 R2 FB) as (O' & t & T1 & T2). split; [exact O'|]. exists (sg ++ ds ++ t). split; [rewrite E, T1, !app_assoc; reflexivity|].
      exists z, l1, (sg ++ ds), t. split; [reflexivity|]. split; [now rewrite app_assoc|]. split; [|exact T2].
      exists sg, ds, n. split; [reflexivity|]. split; [unfold nlen; rewrite Nat2Z.id; exact D|exact SG].
    + destruct A as (-> & k & K & ->). destruct (read_u_inv k s ltac:(lia) O) as (n & s1 & R1 & NB & H). rewrite R1 in R.
      destruct (failb s1) eqn:F1; [injection R as <- <-; congruence|].
      destruct (read args s1) as [[l1 s2]| | |] eqn:R2; try discriminate. cbn [bind] in R. injection R as <- <-.
      destruct H as [H|(O1 & ds & E & D & _)]; [discriminate|].
      assert (P9 : 10 ^ Z.of_nat k <= 10 ^ 4) by (apply Z.pow_le_mono_r; lia). change (10 ^ 4) with 10000 in P9.
      destruct (IH s1 l1 s2 O1 R2 FB) as (O' & t & T1 & T2). split; [exact O'|]. exists (ds ++ t). split; [rewrite E, T1, app_assoc; reflexivity|].
      exists (conv int_t n), l1, ds, t. split; [reflexivity|]. split; [reflexivity|]. split; [|exact T2]. rewrite conv_int by lia. unfold nlen. rewrite Nat2Z.id. exact D.
Qed.

(** * Keywords *)
Lemma up_eq c : to_upper c = up c. Proof. reflexivity. Qed.
Definition kinv (t : str) (k0 : str) (k : str * kst) : Prop :=
  fst k = k0 /\ match snd k with
  | Might => (length t < length k0)%nat /\ same_word t (firstn (length t) k0)
  | Does => same_word t k0
  | NoMatch => True
  end.
Lemma same_len s t : same_word s t -> length s = length t.
Proof. intros H. rewrite <- (map_length up s), H. apply map_length. Qed.
Lemma same_snoc t c k : (length t < length k)%nat -> same_word t (firstn (length t) k) -> up c = up (nth (length t) k NUL) ->
  same_word (t ++ [c]) (firstn (S (length t)) k).
Proof.
  intros L H E. unfold same_word. rewrite map_app, H. cbn [map]. rewrite E.
  assert (F : firstn (S (length t)) k = firstn (length t) k ++ [nth (length t) k NUL]).
  { clear - L. revert k L. induction (length t) as [|n IH]; intros [|b k] L; cbn [length] in L; try lia; [reflexivity|]. cbn [firstn nth app]. rewrite <- IH by lia. reflexivity. }
  now rewrite F, map_app.
Qed.
Lemma up_up c : up (up c) = up c.
Proof. destruct c as [[] [] [] [] [] [] [] []]; reflexivity. Qed.
Lemma step_kinv t c k0 k : kinv t k0 k -> let k' := kw_step (to_upper c) (length t) k in
  fst k' = k0 /\ match snd k' with
  | Might => (S (length t) < length k0)%nat /\ same_word (t ++ [c]) (firstn (S (length t)) k0)
  | Does => (same_word t k0 /\ is_does k = true) \/ same_word (t ++ [c]) k0
  | NoMatch => True
  end.
Proof.
  intros [E K]. unfold kw_step. destruct k as [k st]. cbn [fst snd] in *. subst k. destruct st; cbn [fst snd]; [auto| |].
  - destruct K as [L H]. destruct (Ascii.eqb_spec (to_upper c) (to_upper (nth (length t) k0 NUL))) as [Q|Q]; [|split; [reflexivity|exact I]].
    rewrite !up_eq in Q. pose proof (same_snoc t c k0 L H Q) as SS.
    destruct (Nat.eqb_spec (length k0) (S (length t))) as [N|N]; cbn [fst snd]; (split; [reflexivity|]).
    + right. rewrite <- N, firstn_all in SS. exact SS.
    + split; [lia|exact SS].
  - split; [reflexivity|]. left. auto.
Qed.
Lemma count2 c idx ks : (length (filter (kw_hit c idx) ks) + length (filter is_does ks) <=
  length (filter (fun k => is_might k || is_does k) (map (kw_step c idx) ks)))%nat.
Proof.
  induction ks as [|[k st] ks IH]; [reflexivity|]. cbn [map filter].
  destruct st.
  - unfold kw_hit at 1, kw_step at 1. cbn [is_might is_does snd andb orb]. exact IH.
  - remember (kw_step c idx (k, Might)) as q eqn:Q. unfold kw_step in Q. cbn [fst snd] in Q. unfold kw_hit at 1. cbn [is_might is_does snd fst andb].
    destruct (Ascii.eqb c (to_upper (nth idx k NUL))); [|subst q; cbn [is_might is_does snd fst orb]; exact IH].
    destruct (Nat.eqb (length k) (S idx)); subst q; cbn [is_might is_does snd fst orb length]; lia.
  - remember (kw_step c idx (k, Does)) as q eqn:Q. unfold kw_step in Q. cbn [fst snd] in Q. subst q. unfold kw_hit at 1. cbn [is_might is_does snd fst andb orb length]. lia.
Qed.

Lemma hits c idx ks : existsb (kw_hit c idx) ks = true -> (1 <= length (filter (kw_hit c idx) ks))%nat.
Proof. intros H. apply existsb_exists in H. destruct H as (k & I & H). assert (J : In k (filter (kw_hit c idx) ks)) by now apply filter_In. destruct (filter _ ks); [destruct J|cbn [length]; lia]. Qed.
Lemma does_in k ks : In k ks -> is_does k = true -> (1 <= length (filter is_does ks))%nat.
Proof. intros I H. assert (J : In k (filter is_does ks)) by now apply filter_In. destruct (filter _ ks); [destruct J|cbn [length]; lia]. Qed.
Lemma Forall2_impl {A B} (R Q : A -> B -> Prop) l m : (forall a b, R a b -> Q a b) -> Forall2 R l m -> Forall2 Q l m.
Proof. intros H. induction 1; constructor; auto. Qed.
Lemma Forall2_in_r {A B} (R : A -> B -> Prop) l m : Forall2 R l m -> Forall2 (fun a b => R a b /\ In b m) l m.
Proof.
  induction 1 as [|a b l m H F IH]; constructor.
  - split; [exact H|now left].
  - eapply Forall2_impl; [|exact IH]. intros x y [Q1 Q2]. split; [exact Q1|now right].
Qed.
Lemma Forall2_map_r {A B C} (R : A -> C -> Prop) (f : B -> C) l m : Forall2 (fun a b => R a (f b)) l m -> Forall2 R l (map f m).
Proof. induction 1; constructor; auto. Qed.
Lemma kw_loop_inv r : forall l t ks, Forall2 (kinv t) l ks ->
  let '(ks', r', e) := kw_loop r (length t) ks in exists t', r = t' ++ r' /\ Forall2 (fun k0 k => fst k = k0 /\ (is_does k = true -> same_word (t ++ t') k0)) l ks'.
Proof.
  assert (Stop : forall l t ks, Forall2 (kinv t) l ks -> Forall2 (fun k0 k => fst k = k0 /\ (is_does k = true -> same_word (t ++ []) k0)) l ks).
  { intros l t ks F. eapply Forall2_impl; [|exact F]. intros k0 [k st] [E K]. cbn [fst snd] in *. split; [exact E|]. unfold is_does. cbn [snd]. rewrite app_nil_r. destruct st; [discriminate|discriminate|auto]. }
  induction r as [|c r IH]; intros l t ks F; cbn [kw_loop]; destruct (existsb is_might ks) eqn:EM; try (exists []; split; [reflexivity|now apply Stop]).
  destruct (existsb (kw_hit (to_upper c) (length t)) ks) eqn:EH.
  - assert (LS : S (length t) = length (t ++ [c])) by (rewrite app_length; cbn [length]; lia).
    set (ks' := map (kw_step (to_upper c) (length t)) ks).
    assert (F' : Forall2 (kinv (t ++ [c])) l (if Nat.ltb 1 (length (filter (fun k => is_might k || is_does k) ks')) then map (kw_demote (length t)) ks' else ks')).
    { pose proof (count2 (to_upper c) (length t) ks) as C. fold ks' in C. pose proof (hits _ _ _ EH) as H1.
      assert (G : Forall2 (fun k0 k => kinv t k0 k /\ In k ks) l ks) by now apply Forall2_in_r.
      destruct (Nat.ltb_spec 1 (length (filter (fun k => is_might k || is_does k) ks'))) as [L|L].
      - unfold ks'. rewrite map_map. apply Forall2_map_r. eapply Forall2_impl; [|exact G]. intros k0 k [K J].
        pose proof (step_kinv t c k0 k K) as Q. cbv zeta in Q. unfold kinv, kw_demote. destruct (kw_step (to_upper c) (length t) k) as [k1 st]. cbn [fst snd] in *. destruct Q as [-> Q].
        destruct st; cbn [fst snd]; [auto|rewrite <- LS; auto|].
        destruct (Nat.eqb_spec (length k0) (S (length t))) as [N|N]; cbn [fst snd]; [|auto]. split; [reflexivity|]. destruct Q as [[Q _]|Q]; [|exact Q]. apply same_len in Q. lia.
      - apply Forall2_map_r. eapply Forall2_impl; [|exact G]. intros k0 k [K J].
        pose proof (step_kinv t c k0 k K) as Q. cbv zeta in Q. unfold kinv. destruct (kw_step (to_upper c) (length t) k) as [k1 st]. cbn [fst snd] in *. destruct Q as [-> Q]. split; [reflexivity|].
        destruct st; [exact I|rewrite <- LS; exact Q|]. destruct Q as [[_ Q]|Q]; [|exact Q]. pose proof (does_in k ks J Q). lia. }
    specialize (IH l (t ++ [c]) _ F'). rewrite <- LS in IH. fold ks'. destruct (kw_loop r (S (length t)) _) as [[ks2 r2] e]. destruct IH as (t' & -> & G).
    exists (c :: t'). split; [reflexivity|]. eapply Forall2_impl; [|exact G]. intros k0 k [Q1 Q2]. split; [exact Q1|]. intros H. specialize (Q2 H). rewrite <- app_assoc in Q2. exact Q2.
  - exists []. split; [reflexivity|]. apply Forall2_map_r. apply Forall2_in_r in F. eapply Forall2_impl; [|exact F]. intros k0 k [[E K] J]. cbv beta.
    assert (NH : kw_hit (to_upper c) (length t) k = false) by (destruct (kw_hit _ _ k) eqn:Q; [|reflexivity]; rewrite <- EH; symmetry; apply existsb_exists; eauto).
    unfold kw_hit, is_might in NH. unfold kw_step. destruct k as [k st]. cbn [fst snd] in *. subst k. rewrite app_nil_r. destruct st; cbn [andb] in NH; cbn [fst snd is_does].
    + split; [reflexivity|discriminate].
    + rewrite NH. split; [reflexivity|discriminate].
    + split; [reflexivity|]. intros _. exact K.
Qed.
Lemma kw_first_in ks : forall i j, kw_first ks i = Some j -> i <= j /\ exists k, nth_error ks (Z.to_nat (j - i)) = Some k /\ is_does k = true.
Proof.
  induction ks as [|k ks IH]; intros i j H; cbn [kw_first] in H; [discriminate|]. destruct (is_does k) eqn:D.
  - injection H as <-. split; [lia|]. exists k. rewrite Z.sub_diag. auto.
  - destruct (IH _ _ H) as (L & k' & N & D'). split; [lia|]. exists k'. replace (Z.to_nat (j - i)) with (S (Z.to_nat (j - (i + 1)))) by lia. auto.
Qed.
Lemma Forall2_nth_r {A B} (R : A -> B -> Prop) l m : Forall2 R l m -> forall i b, nth_error m i = Some b -> exists a, nth_error l i = Some a /\ R a b.
Proof. induction 1 as [|a b l m H F IH]; intros [|i] b' E; cbn [nth_error] in *; try discriminate; [injection E as <-; eauto|eauto]. Qed.
(** A keyword that was found is what the text says *)
Lemma keyword_inv l s i s' : Forall (fun k => k <> []) l -> okst s -> scan_keyword l s = (i, s') -> failb s' = false ->
  okst s' /\ 0 <= i /\ exists t k, rest s = t ++ rest s' /\ nth_error l (Z.to_nat i) = Some k /\ same_word t k.
Proof.
  intros NE O R FB. unfold scan_keyword in R. destruct (failb s) eqn:FS; [destruct O; congruence|].
  destruct (good s) eqn:G.
  - pose proof (kw_loop_inv (rest s) l [] (kw_init l)) as K.
    assert (F : Forall2 (kinv []) l (kw_init l)).
    { unfold kw_init. apply Forall2_map_r. clear - NE. induction NE as [|k l H F IH]; constructor; [|exact IH]. destruct k as [|a k]; [congruence|]. split; [reflexivity|]. cbn [snd length]. split; [lia|reflexivity]. }
    specialize (K F). cbn [length] in K. pose proof (kw_loop_sok (rest s) 0 (kw_init l)) as K2. destruct (kw_loop (rest s) 0 (kw_init l)) as [[ks r] e]. destruct K2 as [K2 K3]. destruct K as (t & E & K).
    destruct (kw_first ks 0) as [j|] eqn:KF; [|injection R as <- <-; discriminate]. injection R as <- <-. apply kw_first_in in KF. destruct KF as (L & k & N & D). rewrite Z.sub_0_r in N.
    destruct (Forall2_nth_r _ _ _ K _ _ N) as (k0 & N0 & E0 & SW). specialize (SW D). cbn [app] in SW. cbn [rest].
    assert (ES : eofb s = false) by (unfold good in G; destruct (eofb s); [discriminate|reflexivity]). split.
    + unfold okst. cbn [rest eofb failb]. rewrite ES. cbn [orb]. split; [reflexivity|exact K3].
    + split; [exact L|]. exists t, k0. auto.
  - destruct (kw_first (kw_init l) 0) as [j|]; injection R as <- <-; discriminate.
Qed.
