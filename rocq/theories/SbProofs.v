(** The ring buffer implements a bounded deque. *)
From Verif Require Import Base SbModel SbSpec.
From Coq Require Import PeanoNat Permutation.
Local Open Scope outcome_scope.

Ltac bdall :=
  repeat match goal with
  | |- context [Nat.ltb ?a ?b] => destruct (Nat.ltb_spec a b)
  | |- context [Nat.leb ?a ?b] => destruct (Nat.leb_spec a b)
  | |- context [Nat.eqb ?a ?b] => destruct (Nat.eqb_spec a b)
  | H : context [Nat.ltb ?a ?b] |- _ => destruct (Nat.ltb_spec a b)
  | H : context [Nat.leb ?a ?b] |- _ => destruct (Nat.leb_spec a b)
  | H : context [Nat.eqb ?a ?b] |- _ => destruct (Nat.eqb_spec a b)
  end.

Ltac bdg :=
  repeat match goal with
  | |- context [Nat.ltb ?a ?b] => destruct (Nat.ltb_spec a b)
  | |- context [Nat.leb ?a ?b] => destruct (Nat.leb_spec a b)
  | |- context [Nat.eqb ?a ?b] => destruct (Nat.eqb_spec a b)
  end.

Section Lists.
Context {A : Type} (d : A).
Implicit Types l : list A.

Lemma nth_skipn l k i : nth_error (skipn k l) i = nth_error l (k + i).
Proof.
  revert l; induction k as [|k IH]; intros l; [reflexivity|].
  destruct l as [|a l]; cbn; [destruct i; reflexivity|apply IH].
Qed.
Lemma nth_firstn l k i : nth_error (firstn k l) i = if Nat.ltb i k then nth_error l i else None.
Proof.
  revert l i; induction k as [|k IH]; intros l i; [destruct i; reflexivity|].
  destruct l as [|a l]; [destruct i; cbn [firstn nth_error]; bdall; reflexivity|].
  destruct i as [|i]; [reflexivity|]. cbn [firstn nth_error].
  rewrite IH. change (Nat.ltb (S i) (S k)) with (Nat.ltb i k). reflexivity.
Qed.
Lemma nth_app l1 l2 i :
  nth_error (l1 ++ l2) i = if Nat.ltb i (length l1) then nth_error l1 i else nth_error l2 (i - length l1).
Proof. destruct (Nat.ltb_spec i (length l1)); [apply nth_error_app1|apply nth_error_app2]; lia. Qed.
Lemma nth_over l i : (length l <= i)%nat -> nth_error l i = None.
Proof. apply nth_error_None. Qed.
Lemma nth_repeat (x : A) n i : nth_error (repeat x n) i = if Nat.ltb i n then Some x else None.
Proof.
  revert i; induction n as [|n IH]; intros [|i]; cbn [repeat nth_error]; try reflexivity.
  rewrite IH. reflexivity.
Qed.
Lemma list_ext l1 l2 : (forall i, nth_error l1 i = nth_error l2 i) -> l1 = l2.
Proof.
  revert l2; induction l1 as [|a l1 IH]; intros [|b l2] H; auto.
  - specialize (H 0%nat); discriminate H.
  - specialize (H 0%nat); discriminate H.
  - f_equal; [specialize (H 0%nat); cbn in H; congruence|].
    apply IH. intros i. exact (H (S i)).
Qed.
Lemma len_set_nth l i x : length (set_nth l i x) = length l.
Proof. revert i; induction l as [|a l IH]; intros [|i]; cbn; auto. Qed.
Lemma nth_set_nth l i x j :
  nth_error (set_nth l i x) j = if Nat.eqb i j && Nat.ltb i (length l) then Some x else nth_error l j.
Proof.
  revert i j; induction l as [|a l IH]; intros i j.
  - cbn [set_nth length]. replace (Nat.ltb i 0) with false by (symmetry; apply Nat.ltb_ge; lia).
    rewrite Bool.andb_false_r. reflexivity.
  - destruct i as [|i], j as [|j]; cbn [set_nth nth_error]; try reflexivity.
    rewrite IH. cbn [length].
    change (Nat.eqb (S i) (S j)) with (Nat.eqb i j). change (Nat.ltb (S i) (S (length l))) with (Nat.ltb i (length l)).
    reflexivity.
Qed.
(** position in a ring of n slots *)
Definition wi (n i : nat) : nat := if Nat.ltb i n then i else (i - n)%nat.
Lemma len_rotate l k : (k <= length l)%nat -> length (rotate l k) = length l.
Proof. intros. unfold rotate. rewrite app_length, skipn_length, firstn_length. lia. Qed.
Lemma nth_rotate l k i : (k <= length l)%nat -> (i < length l)%nat ->
  nth_error (rotate l k) i = nth_error l (wi (length l) (k + i)).
Proof.
  intros H H0. unfold rotate, wi. rewrite nth_app, skipn_length, nth_skipn, nth_firstn.
  bdall; try lia; try reflexivity. f_equal. lia.
Qed.
Lemma len_vresize l n : length (vresize d l n) = n.
Proof. unfold vresize. rewrite app_length, firstn_length, repeat_length. lia. Qed.
Lemma nth_vresize l n i :
  nth_error (vresize d l n) i = if Nat.ltb i n then Some (nth i l d) else None.
Proof.
  unfold vresize. rewrite nth_app, firstn_length, nth_firstn, nth_repeat.
  bdall; try lia; try reflexivity.
  - apply nth_error_nth'. lia.
  - rewrite nth_overflow by lia. reflexivity.
Qed.
Lemma nth_vresize_old l n i : (i < n)%nat -> (i < length l)%nat ->
  nth_error (vresize d l n) i = nth_error l i.
Proof.
  intros. rewrite nth_vresize. bdall; [|lia]. symmetry. apply nth_error_nth'. assumption.
Qed.
Lemma nth_removelast l i :
  nth_error (removelast l) i = if Nat.ltb i (length l - 1) then nth_error l i else None.
Proof. rewrite removelast_firstn_len, nth_firstn, <- Nat.sub_1_r. reflexivity. Qed.
Lemma len_removelast l : length (removelast l) = (length l - 1)%nat.
Proof. rewrite removelast_firstn_len, firstn_length. lia. Qed.
Lemma len_last_n n l : length (last_n n l) = Nat.min n (length l).
Proof. unfold last_n. rewrite skipn_length. lia. Qed.
End Lists.

Section Rel.
Context {A : Type} (d : A).

(** The representation relation: the ring [b] of [n] slots holds the elements [l]. *)
Definition R (b : sbuf A) (n : nat) (l : list A) : Prop :=
  length (st b) = n /\ (length l <= n)%nat /\ ((ib b < n)%nat \/ (n = 0%nat /\ ib b = 0%nat)) /\
  ie b = wi n (ib b + length l) /\ full b = Nat.ltb 0 n && Nat.eqb (length l) n /\
  (forall i, (i < length l)%nat -> nth_error (st b) (wi n (ib b + i)) = nth_error l i).

Ltac openR H := destruct H as (Hlen & Hl & Hib & Hie & Hf & Hc).
Ltac nl := unfold wi, capacity, increase_idx, decrease_idx in *; bdall; try lia.

Lemma R_make n : R (make d n) n [].
Proof.
  unfold R, make; cbn [ib ie full st length].
  split; [apply repeat_length|]. split; [lia|]. split; [lia|]. split; [nl|]. split; [nl; reflexivity|].
  intros; lia.
Qed.
Lemma R_clear b n l : R b n l -> R (clear d b) n [].
Proof. intros H; openR H. unfold clear. rewrite Hlen. apply R_make. Qed.

Lemma R_pop_back b n l : R b n l -> l <> [] -> R (pop_back b) n (removelast l).
Proof.
  intros H Hne; openR H. assert (0 < length l)%nat by (destruct l; [congruence|cbn; lia]).
  unfold R, pop_back; cbn [ib ie full st]. rewrite len_removelast.
  split; [assumption|]. split; [lia|]. split; [assumption|].
  split; [rewrite Hie; unfold decrease_idx, capacity; rewrite Hlen; nl|].
  split; [nl; reflexivity|].
  intros i Hi. rewrite nth_removelast. bdg; [|lia]. apply Hc. lia.
Qed.
Lemma R_pop_front b n x l : R b n (x :: l) -> R (pop_front b) n l.
Proof.
  intros H; openR H. cbn [length] in *.
  unfold R, pop_front; cbn [ib ie full st].
  split; [assumption|]. split; [lia|]. split; [unfold increase_idx, capacity; rewrite Hlen; nl|].
  split; [rewrite Hie; unfold increase_idx, capacity; rewrite Hlen; nl|].
  split; [nl; reflexivity|].
  intros i Hi. specialize (Hc (S i) ltac:(lia)). cbn [nth_error] in Hc. rewrite <- Hc.
  f_equal. unfold increase_idx, capacity; rewrite Hlen; nl.
Qed.
Lemma R_push_back b n l x : R b n l -> n <> 0%nat ->
  exists b', push_back b x = Ok b' /\ R b' n (last_n n (l ++ [x])).
Proof.
  intros H Hn; openR H.
  assert (Hin : (ie b < n)%nat) by (rewrite Hie; nl).
  unfold push_back, store. rewrite Hlen.
  destruct (Nat.ltb_spec (ie b) n); [|lia]. cbn [bind].
  assert (Hil : length (last_n n (l ++ [x])) = Nat.min n (length l + 1)).
  { rewrite len_last_n, app_length. cbn [length]. lia. }
  destruct (full b) eqn:Ef.
  - eexists; split; [reflexivity|].
    assert (length l = n) by (symmetry in Hf; apply andb_prop in Hf; destruct Hf as [_ Hf]; apply Nat.eqb_eq in Hf; auto).
    unfold R; cbn [ib ie full st]. rewrite Hil, len_set_nth.
    split; [assumption|]. split; [lia|]. split; [unfold increase_idx, capacity; rewrite Hlen; nl|].
    split; [rewrite Hie; unfold increase_idx, capacity; rewrite Hlen; nl|].
    split; [nl; reflexivity|].
    intros i Hi. unfold last_n. rewrite app_length, nth_skipn, nth_app, nth_set_nth, Hlen. cbn [length].
    destruct (Nat.ltb_spec (length l + 1 - n + i) (length l)).
    + rewrite <- Hc by lia.
      replace (Nat.eqb (ie b) (wi n (increase_idx b (ib b) + i))) with false
        by (symmetry; apply Nat.eqb_neq; rewrite Hie; unfold increase_idx, capacity; rewrite Hlen; nl).
      cbn [andb]. f_equal. unfold increase_idx, capacity; rewrite Hlen; nl.
    + replace (Nat.eqb (ie b) (wi n (increase_idx b (ib b) + i))) with true
        by (symmetry; apply Nat.eqb_eq; rewrite Hie; unfold increase_idx, capacity; rewrite Hlen; nl).
      replace (length l + 1 - n + i - length l)%nat with 0%nat by lia.
      bdg; [reflexivity|lia].
  - assert (length l < n)%nat.
    { symmetry in Hf. bdall; try lia; discriminate Hf. }
    assert (Hl' : last_n n (l ++ [x]) = l ++ [x]).
    { unfold last_n. rewrite app_length. cbn [length].
      replace (length l + 1 - n)%nat with 0%nat by lia. reflexivity. }
    assert (Hcc : forall i, (i < length l + 1)%nat ->
      nth_error (set_nth (st b) (ie b) x) (wi n (ib b + i)) = nth_error (l ++ [x]) i).
    { intros i Hi. rewrite nth_app, nth_set_nth, Hlen.
      destruct (Nat.ltb_spec i (length l)).
      - rewrite <- Hc by lia.
        replace (Nat.eqb (ie b) (wi n (ib b + i))) with false
          by (symmetry; apply Nat.eqb_neq; rewrite Hie; nl).
        reflexivity.
      - replace (Nat.eqb (ie b) (wi n (ib b + i))) with true
          by (symmetry; apply Nat.eqb_eq; rewrite Hie; nl).
        replace (i - length l)%nat with 0%nat by lia. bdg; [reflexivity|lia]. }
    rewrite Hl'.
    destruct (Nat.eqb_spec (increase_idx b (ie b)) (ib b)) as [E|E];
      (eexists; split; [reflexivity|]; unfold R; cbn [ib ie full st]; rewrite len_set_nth, app_length; cbn [length];
       split; [assumption|]; split; [lia|]; split; [assumption|]; split;
       [rewrite Hie; unfold increase_idx, capacity; rewrite Hlen; nl|]; split;
       [unfold increase_idx, capacity in E; rewrite Hlen, Hie in E; nl; reflexivity|exact Hcc]).
Qed.
Lemma R_push_front b n l x : R b n l -> n <> 0%nat ->
  exists b', push_front b x = Ok b' /\ R b' n (firstn n (x :: l)).
Proof.
  intros H Hn; openR H.
  unfold push_front, store. rewrite Hlen.
  assert (Hin : (decrease_idx b (ib b) < n)%nat) by (unfold decrease_idx, capacity; rewrite Hlen; nl).
  destruct (Nat.ltb_spec (decrease_idx b (ib b)) n); [|lia]. cbn [bind].
  eexists; split; [reflexivity|].
  unfold R; cbn [ib ie full st]. rewrite len_set_nth, firstn_length. cbn [length].
  split; [assumption|]. split; [lia|]. split; [lia|].
  assert (Ef : full b = true -> length l = n).
  { intros E. rewrite E in Hf. symmetry in Hf. apply andb_prop in Hf. destruct Hf as [_ Hf]. apply Nat.eqb_eq in Hf; auto. }
  assert (Ef' : full b = false -> (length l < n)%nat).
  { intros E. rewrite E in Hf. symmetry in Hf. bdall; try lia; discriminate Hf. }
  split.
  { rewrite Hie. unfold decrease_idx, capacity; rewrite Hlen.
    destruct (full b); [specialize (Ef eq_refl)|specialize (Ef' eq_refl)]; nl. }
  split.
  { rewrite Hie. unfold decrease_idx, capacity; rewrite Hlen.
    destruct (full b); [specialize (Ef eq_refl)|specialize (Ef' eq_refl)]; nl; reflexivity. }
  intros i Hi. rewrite nth_firstn, nth_set_nth, Hlen.
  bdg; try lia.
  - replace i with 0%nat by (unfold decrease_idx, capacity in *; rewrite Hlen in *; nl). reflexivity.
  - destruct i as [|i]; [exfalso; unfold decrease_idx, capacity in *; rewrite Hlen in *; nl|].
    cbn [nth_error]. rewrite <- Hc by lia. cbn [andb]. f_equal.
    unfold decrease_idx, capacity in *; rewrite Hlen in *; nl.
Qed.

Lemma R_size b n l : R b n l -> size b = length l.
Proof.
  intros H; openR H. unfold size, capacity. rewrite Hf, Hie, Hlen. nl; cbn [andb]; nl.
Qed.
Lemma R_empty b n l : R b n l -> empty b = Nat.eqb (length l) 0.
Proof. intros H; openR H. unfold empty. rewrite Hf, Hie. nl; cbn [andb negb]; nl; auto. Qed.
Lemma R_filled b n l : R b n l -> filled b = Nat.ltb 0 n && Nat.eqb (length l) n.
Proof. intros H; openR H. exact Hf. Qed.
Lemma R_capacity b n l : R b n l -> capacity b = n.
Proof. intros H; openR H. exact Hlen. Qed.
Lemma load_of l i (x : A) : nth_error l i = Some x -> load l i = Ok x.
Proof. unfold load. intros ->. reflexivity. Qed.
Lemma R_front b n x l : R b n (x :: l) -> front b = Ok x.
Proof.
  intros H; openR H. cbn [length] in *. unfold front. apply load_of.
  specialize (Hc 0%nat ltac:(lia)). rewrite <- plus_n_O in Hc. cbn [nth_error] in Hc. rewrite <- Hc. f_equal. nl.
Qed.
Lemma R_back b n l x : R b n (l ++ [x]) -> back b = Ok x.
Proof.
  intros H; openR H. rewrite app_length in *. cbn [length] in *. unfold back.
  specialize (Hc (length l) ltac:(lia)). rewrite nth_app, Nat.ltb_irrefl in Hc.
  bdg; try lia; apply load_of; replace (length l - length l)%nat with 0%nat in Hc by lia;
    cbn [nth_error] in Hc; rewrite <- Hc; f_equal; unfold capacity; try rewrite Hlen; nl.
Qed.
Lemma R_index b n l i x : R b n l -> (Z.of_nat n < 2 ^ 63)%Z -> nth_error l i = Some x ->
  index b (Z.of_nat i) = Ok x.
Proof.
  intros H Hb Hx; openR H.
  assert (Hi : (i < length l)%nat) by (apply nth_error_Some; congruence).
  unfold index, capacity. rewrite Hlen.
  replace ((Z.of_nat i + Z.of_nat (ib b)) mod 2 ^ 64)%Z with (Z.of_nat (ib b + i)) by
    (rewrite Z.mod_small; lia).
  specialize (Hc i Hi). rewrite Hx in Hc.
  destruct (Z.leb_spec (Z.of_nat n) (Z.of_nat (ib b + i))).
  - destruct (Z.ltb_spec (Z.of_nat (ib b + i) - Z.of_nat n) (Z.of_nat n)); [|lia].
    apply load_of. rewrite <- Hc. f_equal. nl.
  - apply load_of. rewrite <- Hc, Nat2Z.id. f_equal. nl.
Qed.
Lemma R_at b n l i : R b n l -> (Z.of_nat n < 2 ^ 63)%Z -> (0 <= i)%Z ->
  at_ b i = match nth_error l (Z.to_nat i) with Some x => Ok x | None => Throw OutOfRange end.
Proof.
  intros H Hb Hi. unfold at_. rewrite (R_size _ _ _ H).
  destruct (Z.leb_spec (Z.of_nat (length l)) i).
  - rewrite nth_over by lia. reflexivity.
  - destruct (nth_error l (Z.to_nat i)) as [x|] eqn:E.
    + rewrite <- (Z2Nat.id i) by assumption. eapply R_index; eauto.
    + apply nth_error_None in E. lia.
Qed.

(** resize *)
Lemma nth_last_n m (l : list A) i : nth_error (last_n m l) i = nth_error l (length l - m + i).
Proof. unfold last_n. apply nth_skipn. Qed.
Lemma R_left m (l' s : list A) (f : bool) e :
  length s = m -> length l' = e \/ (e = 0%nat /\ length l' = m) -> (length l' <= m)%nat -> (0 < m)%nat ->
  f = Nat.eqb (length l') m -> (f = false -> length l' = e) -> (f = true -> e = 0%nat) ->
  (forall i, (i < length l')%nat -> nth_error s i = nth_error l' i) ->
  R (SB 0 e f s) m l'.
Proof.
  intros. unfold R; cbn [ib ie full st]. split; [assumption|]. split; [assumption|]. split; [lia|].
  split; [destruct f; [specialize (H5 eq_refl); symmetry in H3; apply Nat.eqb_eq in H3; nl
                      |specialize (H4 eq_refl); symmetry in H3; apply Nat.eqb_neq in H3; nl]|].
  split; [nl; assumption|].
  intros i Hi. rewrite <- H6 by assumption. f_equal. cbn. nl.
Qed.
Lemma R_change b n l m sh : R b n l ->
  R (change_capacity d b m sh) m
    (match sh with keep_front_elements => firstn m l | keep_back_elements => last_n m l end).
Proof.
  intros H. pose proof (R_size _ _ _ H) as Hs. pose proof H as H0. openR H.
  unfold change_capacity, capacity. rewrite Hlen, Hs.
  destruct (Nat.eqb_spec m n) as [->|Hmn].
  { replace (match sh with keep_front_elements => firstn n l | keep_back_elements => last_n n l end) with l; [assumption|].
    destruct sh; [symmetry; apply firstn_all2; assumption|].
    unfold last_n. replace (length l - n)%nat with 0%nat by lia. reflexivity. }
  destruct (Nat.eqb_spec m 0) as [->|Hm0].
  { replace (match sh with keep_front_elements => firstn 0 l | keep_back_elements => last_n 0 l end) with (@nil A).
    { unfold R; cbn [ib ie full st]. split; [apply len_vresize|]. split; [cbn; lia|]. split; [lia|].
      split; [reflexivity|]. split; [reflexivity|]. cbn [length]; intros; lia. }
    destruct sh; [reflexivity|]. unfold last_n. symmetry. apply skipn_all2. lia. }
  assert (Hfit : (length l < m)%nat -> R (SB 0 (length l) false (vresize d (rotate (st b) (ib b)) m)) m l).
  { intros Hfit. apply R_left; [apply len_vresize|lia|lia|lia| |reflexivity|discriminate|].
    - bdg; [lia|reflexivity].
    - intros i Hi. rewrite nth_vresize_old; rewrite ?len_rotate by lia; try lia.
      rewrite nth_rotate by lia. rewrite Hlen. apply Hc. assumption. }
  assert (Hsame : (length l <= m)%nat ->
     match sh with keep_front_elements => firstn m l | keep_back_elements => last_n m l end = l).
  { intros. destruct sh; [apply firstn_all2; assumption|].
    unfold last_n. replace (length l - m)%nat with 0%nat by lia. reflexivity. }
  destruct (Nat.ltb_spec n m).
  { rewrite Hsame by lia. apply Hfit. lia. }
  destruct (Nat.ltb_spec (length l) m).
  { rewrite Hsame by lia. apply Hfit. lia. }
  assert (Hr : length (match sh with keep_front_elements => firstn m l | keep_back_elements => last_n m l end) = m).
  { destruct sh; [rewrite firstn_length|rewrite len_last_n]; lia. }
  apply (R_left m).
  - apply len_vresize.
  - lia.
  - lia.
  - lia.
  - rewrite Hr, Nat.eqb_refl. reflexivity.
  - discriminate.
  - reflexivity.
  - rewrite Hr. intros i Hi. destruct sh.
    + rewrite nth_vresize_old; rewrite ?len_rotate by lia; try lia.
      rewrite nth_rotate, nth_firstn by lia. bdg; [|lia]. rewrite Hlen. apply Hc. lia.
    + assert (Hnf : (ie b + n - m) mod n = wi n (ib b + (length l - m))).
      { assert (Hie2 : (ie b = (ib b + length l) \/ ie b + n = (ib b + length l))%nat) by (rewrite Hie; nl).
        assert (Hie3 : (ie b < n)%nat) by (rewrite Hie; nl).
        unfold wi. destruct (Nat.ltb_spec (ib b + (length l - m)) n).
        - destruct Hie2 as [E|E].
          + replace (ie b + n - m)%nat with ((ib b + (length l - m)) + 1 * n)%nat by lia.
            rewrite Nat.mod_add by lia. apply Nat.mod_small. assumption.
          + replace (ie b + n - m)%nat with (ib b + (length l - m))%nat by lia.
            apply Nat.mod_small. assumption.
        - destruct Hie2 as [E|E]; [lia|].
          replace (ie b + n - m)%nat with ((ib b + (length l - m) - n) + 1 * n)%nat by lia.
          rewrite Nat.mod_add by lia. apply Nat.mod_small. lia. }
      rewrite Hnf.
      assert (wi n (ib b + (length l - m)) < n)%nat by nl.
      rewrite nth_vresize_old; rewrite ?len_rotate by lia; try lia.
      rewrite nth_rotate, nth_last_n by lia. rewrite Hlen, <- Hc by lia. f_equal. nl.
Qed.

Lemma len_move_backward mv (l : list A) f o m : length (move_backward d mv l f o m) = m.
Proof. unfold move_backward. rewrite map_length, seq_length. reflexivity. Qed.
Lemma nth_seq m i : (i < m)%nat -> nth_error (seq 0 m) i = Some i.
Proof.
  intros. rewrite (nth_error_nth' _ 0%nat) by (rewrite seq_length; assumption).
  rewrite seq_nth by assumption. reflexivity.
Qed.
Lemma R_ex_resize mv b n l m sh : R b n l ->
  R (ex_resize d mv b m sh) m
    (match sh with keep_front_elements => firstn m l | keep_back_elements => last_n m l end).
Proof.
  intros H. unfold ex_resize.
  destruct (negb _) eqn:Era; [apply R_change with n; assumption|].
  apply Bool.negb_false_iff in Era.
  repeat (apply andb_prop in Era; destruct Era as [Era ?]).
  destruct sh; [|discriminate Era].
  pose proof (R_size _ _ _ H) as Hs. openR H.
  apply Nat.eqb_eq in H1. apply Bool.negb_true_iff in H0. apply Nat.eqb_neq in H0.
  apply Nat.ltb_lt in H4. apply Bool.negb_true_iff in H3, H2. apply Nat.eqb_neq in H3.
  unfold capacity in *. rewrite Hlen, Hs in *. rewrite H1, H2 in *.
  assert (Hn : (ib b + length l = n)%nat) by (symmetry in Hf; nl; discriminate Hf).
  destruct (Nat.ltb_spec n m).
  - rewrite firstn_all2 by lia.
    unfold R; cbn [ib ie full st]. split; [apply len_move_backward|]. split; [lia|]. split; [lia|].
    split; [nl|]. split; [nl; reflexivity|].
    intros i Hi. unfold move_backward. erewrite map_nth_error by (apply nth_seq; nl).
    replace (wi m (ib b + (m - n) + i)) with (ib b + i + (m - n))%nat by nl.
    rewrite <- Hc by assumption.
    destruct (Nat.leb_spec (ib b + (m - n)) (ib b + i + (m - n))); [|lia]. replace (ib b + i + (m - n) - (m - n))%nat with (ib b + i)%nat by lia.
    rewrite <- (nth_error_nth' (vresize d (st b) m) d) by (rewrite len_vresize; lia).
    rewrite nth_vresize_old by lia. f_equal. nl.
  - destruct (Nat.leb_spec m (length l)).
    + rewrite Nat.min_r by lia. replace (ib b - ib b)%nat with 0%nat by lia.
      assert (length (firstn m l) = m) by (rewrite firstn_length; lia).
      apply R_left; [apply len_vresize|lia|lia|lia|rewrite H6, Nat.eqb_refl; reflexivity|discriminate|reflexivity|].
      * rewrite H6. intros i Hi. rewrite nth_vresize_old; rewrite ?len_rotate by lia; try lia.
        rewrite nth_rotate, nth_firstn by lia. bdg; [|lia]. rewrite Hlen. apply Hc. lia.
    + rewrite Nat.min_l by lia. rewrite firstn_all2 by lia.
      unfold R; cbn [ib ie full st]. split; [apply len_vresize|]. split; [lia|]. split; [lia|].
      split; [nl|]. split; [nl; reflexivity|].
      intros i Hi. replace (wi m (ib b - (n - m) + i)) with (ib b - (n - m) + i)%nat by nl.
      rewrite nth_vresize_old; rewrite ?len_rotate by lia; try lia.
      rewrite nth_rotate by lia. rewrite <- Hc by assumption. rewrite Hlen. f_equal. nl.
Qed.

(** Histories *)
Definition good_resize (rs : sbuf A -> nat -> shrink -> sbuf A) : Prop :=
  forall b n l m sh, R b n l ->
  R (rs b m sh) m (match sh with keep_front_elements => firstn m l | keep_back_elements => last_n m l end).
Lemma step_sim rs o b n l q : good_resize rs -> R b n l -> apply o (n, l) = Some q ->
  exists b', step d rs o b = Ok b' /\ R b' (fst q) (snd q).
Proof.
  intros Hr H Ha. destruct o as [x|x| | | |m sh]; cbn [apply step] in *.
  - destruct (Nat.eqb_spec n 0); [discriminate Ha|]. injection Ha as <-. apply R_push_back; assumption.
  - destruct (Nat.eqb_spec n 0); [discriminate Ha|]. injection Ha as <-. apply R_push_front; assumption.
  - destruct l as [|y l]; [discriminate Ha|]. injection Ha as <-. eexists; split; [reflexivity|].
    exact (R_pop_back b n (y :: l) H ltac:(discriminate)).
  - destruct l as [|y l]; [discriminate Ha|]. injection Ha as <-. eexists; split; [reflexivity|].
    apply R_pop_front with y. assumption.
  - injection Ha as <-. eexists; split; [reflexivity|]. apply R_clear with l. assumption.
  - eexists; split; [reflexivity|]. destruct sh; injection Ha as <-; exact (Hr _ _ _ m _ H).
Qed.
Lemma run_sim rs os : good_resize rs -> forall b n l q, R b n l -> apply_all os (n, l) = Some q ->
  exists b', run d rs os b = Ok b' /\ R b' (fst q) (snd q).
Proof.
  intros Hr. induction os as [|o os IH]; intros b n l q H Ha; cbn [apply_all run] in *.
  - injection Ha as <-. eauto.
  - destruct (apply o (n, l)) as [[n' l']|] eqn:E; [|discriminate Ha].
    destruct (step_sim rs o b n l _ Hr H E) as (b' & E' & H'). rewrite E'. cbn [bind fst snd] in *.
    eapply IH; eauto.
Qed.
Lemma good_change : good_resize (resize d).
Proof. intros b n l m sh H. apply R_change with n. assumption. Qed.
Lemma good_ex mv : good_resize (ex_resize d mv).
Proof. intros b n l m sh H. apply R_ex_resize with n. assumption. Qed.
End Rel.
