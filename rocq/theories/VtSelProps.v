(** C93: the alternative a variant gets from a value of an arithmetic type. *)
From Coq Require Import PeanoNat.
From Verif Require Import Base VtSelModel VtSelSpec.
Local Open Scope Z_scope.

Lemma arith_eqb_spec a b : reflect (a = b) (arith_eqb a b).
Proof. destruct a, b; constructor; congruence. Qed.

Lemma int_all s t lo hi lo' hi' : kind_of s = Integer lo hi -> kind_of t = Integer lo' hi' -> lo <= hi ->
  (holds_all s t <-> (lo' <=? lo) && (hi <=? hi') = true).
Proof.
  intros Ks Kt L. rewrite andb_true_iff, !Z.leb_le. unfold holds_all, value_of. rewrite Ks, Kt. split.
  - intros H. assert (lo' <= lo <= hi') by (apply (H (Whole lo)); lia). assert (lo' <= hi <= hi') by (apply (H (Whole hi)); lia). lia.
  - intros H [z|m e|n] V; try contradiction. lia.
Qed.
Lemma int_nonempty s lo hi : kind_of s = Integer lo hi -> lo <= hi.
Proof. intros H. destruct s; vm_compute in H; try discriminate; injection H as <- <-; lia. Qed.
Lemma int_not_float s t lo hi p m e : kind_of s = Integer lo hi -> kind_of t = Floating p m e -> ~ holds_all s t.
Proof.
  intros Ks Kt H. specialize (H (Whole lo)). unfold value_of in H. rewrite Ks, Kt in H. apply H.
  pose proof (int_nonempty s lo hi Ks). lia.
Qed.
Lemma float_not_int s t lo hi p m e : kind_of s = Floating p m e -> kind_of t = Integer lo hi -> ~ holds_all s t.
Proof. intros Ks Kt H. specialize (H (Special 0)). unfold value_of in H. rewrite Ks, Kt in H. now apply H. Qed.
Lemma float_all s t p m e p' m' e' : kind_of s = Floating p m e -> kind_of t = Floating p' m' e' ->
  (holds_all s t <-> float_rank s <= float_rank t).
Proof.
  intros Ks Kt. split.
  - intros H.
    assert (forall q, 0 < q -> value_of s (Dyadic (2 ^ q - 1) 0) -> value_of t (Dyadic (2 ^ q - 1) 0)) as G by (intros; now apply H).
    destruct s; try discriminate Ks; destruct t; try discriminate Kt; cbn; try lia; exfalso.
    + specialize (G 53 ltac:(lia)). vm_compute in G. destruct G as (_ & Q & _); [now repeat split; auto|discriminate Q].
    + specialize (G 64 ltac:(lia)). vm_compute in G. destruct G as (_ & Q & _); [now repeat split; auto|discriminate Q].
    + specialize (G 64 ltac:(lia)). vm_compute in G. destruct G as (_ & Q & _); [now repeat split; auto|discriminate Q].
  - intros R v V. destruct v as [z|a b|n]; destruct s; try discriminate Ks; destruct t; try discriminate Kt;
      cbn [float_rank] in R; try lia; unfold value_of in *; cbn [kind_of] in *; try assumption; try contradiction;
      change (2 ^ 24) with 16777216 in *; change (2 ^ 53) with 9007199254740992 in *;
      change (2 ^ 64) with 18446744073709551616 in *; destruct V as (O1 & O2 & O3 & O4); repeat split; auto; lia.
Qed.

(** What can be chosen: exactly the alternatives that hold every value of the argument's type. *)
Theorem C93_viable s a : viable s a = true <-> takes s a.
Proof.
  destruct a as [t|b]; [|reflexivity]. cbn [viable]. destruct (arith_eqb_spec t Bool) as [->|N].
  - cbn [takes]. destruct (arith_eqb_spec s Bool); split; congruence.
  - assert (takes s (Arith t) <-> holds_all s t) as -> by (destruct t; try reflexivity; now destruct N).
    unfold non_narrowing. destruct (kind_of s) as [lo hi|p m e] eqn:Ks; destruct (kind_of t) as [lo' hi'|p' m' e'] eqn:Kt.
    + symmetry. apply int_all; try assumption. now apply (int_nonempty s).
    + split; [discriminate|]. intros H. exfalso. eapply int_not_float; eauto.
    + split; [discriminate|]. intros H. exfalso. eapply float_not_int; eauto.
    + rewrite Z.leb_le. symmetry. eapply float_all; eauto.
Qed.

Lemma promoted_spec s t : promoted s = Some t <-> promotes s t.
Proof.
  assert (forall s lo hi, kind_of s = Integer lo hi ->
            (holds_all s Int <-> (- 2 ^ 31 <=? lo) && (hi <=? 2 ^ 31 - 1) = true)) as K.
  { intros s0 lo hi K. apply (int_all s0 Int lo hi); [exact K|reflexivity|now apply (int_nonempty s0)]. }
  destruct s; cbn [promoted promotes];
    try (split; [intros Q; now injection Q as <- | now intros ->]); try (split; [discriminate|contradiction]).
  all: match goal with |- context [holds_all ?s Int] => specialize (K s _ _ eq_refl) end.
  all: match type of K with _ <-> ?b = true => let b' := eval vm_compute in b in change b with b' in K end.
  all: rewrite K; split;
    [ intros Q; injection Q as <-; first [left; split; reflexivity | right; split; [discriminate|reflexivity]]
    | intros [[Q ->]|[Q ->]]; first [reflexivity | discriminate Q | now destruct Q]].
Qed.

Lemma rank_cases s a :
  (rank s a = 1 /\ a = Arith s) \/ (rank s a = 2 /\ promotion s a /\ a <> Arith s) \/
  (rank s a = 3 /\ arithmetic a /\ a <> Arith s /\ ~ promotion s a) \/ (rank s a = 4 /\ ~ arithmetic a).
Proof.
  destruct a as [t|b]; cbn [rank].
  - destruct (arith_eqb_spec s t) as [->|N]; [now left|]. right.
    destruct (promoted s) as [p|] eqn:P; [destruct (arith_eqb_spec p t) as [->|N']|].
    + left. repeat split; [now apply promoted_spec|congruence].
    + right. left. repeat split; [congruence|]. cbn [promotion]. rewrite <- promoted_spec. congruence.
    + right. left. repeat split; [congruence|]. cbn [promotion]. rewrite <- promoted_spec. congruence.
  - do 3 right. split; [reflexivity|]. intros [].
Qed.
Lemma not_self_promotes s : ~ promotion s (Arith s).
Proof. cbn [promotion]. rewrite <- promoted_spec. destruct s; discriminate. Qed.
Lemma closer_rank s a b : closer s a b <-> rank s a < rank s b.
Proof.
  assert (forall c, promotion s c -> arithmetic c) as PA by (now intros []).
  assert (arithmetic (Arith s)) as AS by exact I.
  pose proof (not_self_promotes s) as NS.
  assert (forall c, promotion s c -> c <> Arith s) as PN by (intros c P ->; now apply NS).
  unfold closer.
  destruct (rank_cases s a) as [(-> & Ha)|[(-> & Ha & Ha')|[(-> & Ha & Ha' & Ha'')|(-> & Ha)]]];
  destruct (rank_cases s b) as [(-> & Hb)|[(-> & Hb & Hb')|[(-> & Hb & Hb' & Hb'')|(-> & Hb)]]];
    subst; split; try lia; intros H;
    try (exfalso; intuition congruence); try (intuition congruence).
  all: try (left; split; [reflexivity|now intros ->]).
  all: try (right; right; split; [now auto|assumption]).
  all: try (right; left; repeat split; now auto).
  all: exfalso; try pose proof (PA _ Ha); try pose proof (PA _ Hb);
    destruct H as [[-> _]|[(P & _ & Q)|[P Q]]]; try contradiction; try (pose proof (PA _ P); contradiction).
Qed.

Lemma candidates_in s ts : forall k i r,
  In (i, r) (candidates s k ts) <->
  exists j a, i = (k + j)%nat /\ nth_error ts j = Some a /\ viable s a = true /\ r = rank s a.
Proof.
  induction ts as [|a ts IH]; intros k i r; cbn [candidates].
  - split; [intros []|]. intros (j & b & _ & N & _). now destruct j.
  - destruct (viable s a) eqn:V; [cbn [In]|]; rewrite IH.
    + split.
      * intros [Q|(j & b & -> & N & V' & ->)].
        -- injection Q as <- <-. exists 0%nat, a. repeat split; [lia|assumption].
        -- exists (S j), b. repeat split; [lia|assumption|assumption].
      * intros (j & b & -> & N & V' & ->). destruct j as [|j]; cbn in N.
        -- injection N as <-. left. f_equal. lia.
        -- right. exists j, b. repeat split; [lia|assumption|assumption].
    + split.
      * intros (j & b & -> & N & V' & ->). exists (S j), b. repeat split; [lia|assumption|assumption].
      * intros (j & b & -> & N & V' & ->). destruct j as [|j]; cbn in N; [congruence|].
        exists j, b. repeat split; [lia|assumption|assumption].
Qed.
Lemma better_spec s ts i r : In (i, r) (candidates s 0 ts) ->
  (better_than_others (candidates s 0 ts) (i, r) = true <-> chosen s ts i).
Proof.
  intros M. apply candidates_in in M. destruct M as (i' & a & Q & N & V & ->). cbn in Q. subst i'.
  unfold better_than_others. rewrite forallb_forall. cbn [fst snd]. split.
  - intros F. exists a. split; [assumption|]. split; [now apply C93_viable|]. intros j b Nj Tj D.
    apply closer_rank. specialize (F (j, rank s b)). cbn [fst snd] in F.
    rewrite orb_true_iff, Nat.eqb_eq, Z.ltb_lt in F. destruct F as [F|F]; [|congruence|assumption].
    apply candidates_in. exists j, b. repeat split; [assumption|now apply C93_viable].
  - intros (a' & N' & T & C) (j & q) Mj. apply candidates_in in Mj. destruct Mj as (j' & b & Q & Nj & Vj & ->). cbn in Q. subst j'.
    cbn [fst snd]. rewrite orb_true_iff, Nat.eqb_eq, Z.ltb_lt. destruct (Nat.eq_dec i j) as [D|D]; [now left|right].
    apply closer_rank. assert (a' = a) as <- by congruence. apply (C j b); [assumption|now apply C93_viable|congruence].
Qed.
Lemma chosen_unique s ts i j : chosen s ts i -> chosen s ts j -> i = j.
Proof.
  intros (a & Na & Ta & Ca) (b & Nb & Tb & Cb). destruct (Nat.eq_dec i j) as [D|D]; [assumption|exfalso].
  specialize (Ca j b Nb Tb ltac:(congruence)). specialize (Cb i a Na Ta D).
  apply closer_rank in Ca, Cb. lia.
Qed.

(** The closest of the alternatives that hold all values of the argument's type is selected. *)
Theorem C93_selected s ts i : best_match s ts = Some i <-> chosen s ts i.
Proof.
  unfold best_match.
  destruct (filter _ _) as [|[k r] l] eqn:F.
  - split; [discriminate|]. intros C. exfalso. pose proof C as (a & N & T & _).
    assert (In (i, rank s a) (candidates s 0 ts)) as M.
    { apply candidates_in. exists i, a. repeat split; [assumption|now apply C93_viable]. }
    assert (In (i, rank s a) []) as []. rewrite <- F. apply filter_In. split; [assumption|]. now apply better_spec.
  - assert (In (k, r) (filter (better_than_others (candidates s 0 ts)) (candidates s 0 ts))) as M by (rewrite F; now left).
    apply filter_In in M. destruct M as [M B]. apply (better_spec s ts k r M) in B. cbn [fst]. split.
    + intros Q. injection Q as <-. assumption.
    + intros C. f_equal. now apply (chosen_unique s ts).
Qed.
(** If there is no such alternative, or no closest one, the program does not compile. *)
Theorem C93_rejected other s ts v : construct other s ts v = None <-> forall i, ~ chosen s ts i.
Proof.
  unfold construct. destruct (best_match s ts) as [i|] eqn:B.
  - split.
    + destruct (nth_error ts i) as [[]|]; discriminate.
    + intros H. exfalso. apply (H i). now apply C93_selected.
  - split; [|reflexivity]. intros _ i C. apply C93_selected in C. congruence.
Qed.

Lemma converted_same other t v : (t = Bool -> v = Whole 0 \/ v = Whole 1) -> value_of t v -> converted other t v = v.
Proof.
  intros B V. unfold value_of, converted in *. destruct v as [z|m e|n]; destruct (kind_of t) as [lo hi|p a b]; try contradiction; try reflexivity.
  - destruct (arith_eqb_spec t Bool) as [->|N].
    + destruct (B eq_refl) as [Q|Q]; injection Q as ->; reflexivity.
    + rewrite Z.mod_small; [f_equal|]; lia.
  - destruct V as (_ & H1 & H2 & H3). apply Z.ltb_lt in H1, H3. apply Z.leb_le in H2. now rewrite H1, H2, H3.
Qed.
Lemma takes_holds s t v : takes s (Arith t) -> value_of s v -> value_of t v.
Proof. intros T V. destruct t; cbn [takes] in T; try (now apply T). now subst s. Qed.

(** The stored value is the given one, whatever the conversions that change values would do. *)
Theorem C93_exact other s ts v i w : value_of s v -> construct other s ts v = Some (i, Some w) ->
  w = v /\ chosen s ts i /\ exists t, nth_error ts i = Some (Arith t) /\ value_of t v.
Proof.
  intros V. unfold construct. destruct (best_match s ts) as [k|] eqn:B; [|discriminate].
  apply C93_selected in B. pose proof B as (a & N & T & _). rewrite N. destruct a as [t|b]; [|discriminate].
  intros Q. injection Q as <- <-. pose proof (takes_holds s t v T V) as Vt. split; [|split; [assumption|now exists t]].
  apply converted_same; [|assumption]. intros ->. destruct v as [z|m e|n]; try contradiction. change (0 <= z <= 1) in Vt.
  assert (z = 0 \/ z = 1) as [-> | ->] by lia; auto.
Qed.
(** A value whose type is one of the alternatives, once, is stored there. *)
Theorem C93_own_type other s ts v i : value_of s v ->
  nth_error ts i = Some (Arith s) -> (forall j, nth_error ts j = Some (Arith s) -> j = i) ->
  construct other s ts v = Some (i, Some v).
Proof.
  intros V N U.
  assert (takes s (Arith s)) as T by (destruct s; cbn [takes]; try reflexivity; intros w; auto).
  assert (chosen s ts i) as C.
  { exists (Arith s). split; [assumption|split; [assumption|]]. intros j b Nj _ D. left. split; [reflexivity|].
    intros ->. now apply D, U. }
  apply C93_selected in C. unfold construct. rewrite C, N. do 2 f_equal. f_equal.
  apply converted_same; [|assumption]. intros ->. destruct v as [z|m e|n]; try contradiction. change (0 <= z <= 1) in V.
  assert (z = 0 \/ z = 1) as [-> | ->] by lia; auto.
Qed.
(** bool is only selected by bool, whatever the other alternatives are. *)
Theorem C93_bool s ts i : best_match s ts = Some i -> nth_error ts i = Some (Arith Bool) -> s = Bool.
Proof. intros B N. apply C93_selected in B. destruct B as (a & Na & T & _). rewrite N in Na. injection Na as <-. exact T. Qed.
(** The order of the alternatives does not matter: a rearranged list has the same one selected. *)
Theorem C93_order s ts us f g i : (forall j, nth_error us (f j) = nth_error ts j) ->
  (forall j, f (g j) = j) -> (forall j, g (f j) = j) ->
  best_match s ts = Some i -> best_match s us = Some (f i).
Proof.
  intros F FG GF B. apply C93_selected in B. apply C93_selected. destruct B as (a & N & T & C).
  exists a. rewrite F. split; [assumption|split; [assumption|]]. intros j b Nj Tj D.
  apply (C (g j) b); [now rewrite <- F, FG|assumption|]. intros Q. apply D. now rewrite <- Q, FG.
Qed.
(** Integers do not convert to floating-point alternatives, even where all of their values would fit. *)
Theorem C93_integer_to_float_finding other z : value_of Int (Whole z) ->
  construct other Int [Arith Double] (Whole z) = None /\ Z.abs z < 2 ^ 53.
Proof. intros V. cbn in V. split; [reflexivity|]. change (2 ^ 53) with 9007199254740992. lia. Qed.
(** Two larger integer types are equally close: neither is selected. *)
Theorem C93_ambiguous_finding other z : construct other Int [Arith Long; Arith LLong] (Whole z) = None.
Proof. reflexivity. Qed.

Definition nothing : arith -> value -> value := fun _ _ => Special 99.
Example C93_example :
  construct nothing Int [Arith Float; Arith Long; Other true; Arith Bool] (Whole (-5)) = Some (1%nat, Some (Whole (-5)))
  /\ construct nothing Char [Arith Long; Arith Int] (Whole 65) = Some (1%nat, Some (Whole 65))
  /\ construct nothing Float [Arith Int; Arith LDouble; Arith Double] (Dyadic 3 (-1)) = Some (2%nat, Some (Dyadic 3 (-1)))
  /\ construct nothing Int [Arith Bool; Other true] (Whole 1) = Some (1%nat, None)
  /\ construct nothing ULong [Arith Long; Arith UInt] (Whole 7) = None
  /\ value_of Float (Dyadic 3 (-1)) /\ value_of Int (Whole (-5)).
Proof. repeat split; try reflexivity; try lia. now left. Qed.

Print Assumptions C93_exact.
Print Assumptions C93_selected.
