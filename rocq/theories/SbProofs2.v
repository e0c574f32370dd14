(** Iterators, printing, unused slots and the exposed range of SlidingBuffer(Exposed). *)
From Verif Require Import Base SbModel SbSpec SbProofs.
From Coq Require Import PeanoNat Permutation.
Local Open Scope outcome_scope.

Section Rel.
Context {A : Type} (d : A).
Ltac openR H := destruct H as (Hlen & Hl & Hib & Hie & Hf & Hc).
Ltac nl := unfold wi, capacity, increase_idx, decrease_idx in *; bdall; try lia.

(** * Iterators *)
Lemma wrap_small z : (0 <= z < 2 ^ 64)%Z -> wrap z = z.
Proof. intros. unfold wrap. apply Z.mod_small. assumption. Qed.
Lemma R_bound (b : sbuf A) n l : R b n l -> (length l <= n)%nat.
Proof. intros H; openR H. assumption. Qed.

Lemma skipn_nth (l : list A) i x : nth_error l i = Some x -> skipn i l = x :: skipn (S i) l.
Proof.
  revert i; induction l as [|a l IH]; intros [|i] H; cbn [nth_error skipn] in *; try discriminate H.
  - congruence.
  - rewrite (IH _ H). reflexivity.
Qed.
Lemma traverse_fwd (b : sbuf A) n l : R b n l -> (Z.of_nat n < 2 ^ 63)%Z ->
  forall k i, (i + k = length l)%nat ->
  traverse k (it_deref b) it_inc (Z.of_nat i) (Z.of_nat (length l)) = Ok (skipn i l).
Proof.
  intros H Hb. pose proof (R_bound _ _ _ H) as Hle.
  induction k as [|k IH]; intros i Hi; cbn [traverse]; unfold it_eq.
  - replace i with (length l) by lia. rewrite Z.eqb_refl, skipn_all2 by lia. reflexivity.
  - destruct (Z.eqb_spec (Z.of_nat i) (Z.of_nat (length l))); [lia|].
    destruct (nth_error l i) as [x|] eqn:E; [|apply nth_error_None in E; lia].
    unfold it_deref at 1. rewrite (R_index b n l i x) by assumption. cbn [bind].
    unfold it_inc at 2. rewrite wrap_small by lia.
    replace (Z.of_nat i + 1)%Z with (Z.of_nat (S i)) by lia. rewrite IH by lia. cbn [bind].
    f_equal. symmetry. apply skipn_nth. assumption.
Qed.
Lemma traverse_rev (b : sbuf A) n l : R b n l -> (Z.of_nat n < 2 ^ 63)%Z ->
  forall k, (k <= length l)%nat ->
  traverse k (rit_deref b) rit_inc (Z.of_nat k) 0 = Ok (rev (firstn k l)).
Proof.
  intros H Hb. pose proof (R_bound _ _ _ H) as Hle.
  induction k as [|k IH]; intros Hi; cbn [traverse]; unfold it_eq.
  - reflexivity.
  - destruct (Z.eqb_spec (Z.of_nat (S k)) 0); [lia|].
    destruct (nth_error l k) as [x|] eqn:E; [|apply nth_error_None in E; lia].
    assert (Hd : it_dec (Z.of_nat (S k)) = Z.of_nat k).
    { unfold it_dec. rewrite wrap_small by lia. lia. }
    unfold rit_deref at 1, rit_inc at 2. rewrite Hd. unfold it_deref.
    rewrite (R_index b n l k x) by assumption. cbn [bind].
    rewrite IH by lia. cbn [bind]. f_equal.
    replace (firstn (S k) l) with (firstn k l ++ [x]).
    + rewrite rev_app_distr. reflexivity.
    + apply list_ext. intros j. rewrite nth_app, !nth_firstn, firstn_length.
      bdg; try lia; try reflexivity.
      * replace j with k by lia. replace (k - Nat.min k (length l))%nat with 0%nat by lia. cbn. congruence.
      * apply nth_over. cbn. lia.
Qed.
Lemma R_print show (b : sbuf A) n l : R b n l -> (Z.of_nat n < 2 ^ 63)%Z ->
  print show b = Ok (concat (map (fun x => show x ++ !"  ") l) ++ [chr 10]).
Proof.
  intros H Hb. pose proof (R_bound _ _ _ H) as Hle.
  unfold print. rewrite (R_size _ _ _ H).
  enough (E : forall k i, (i + k = length l)%nat ->
    print_loop show b k (Z.of_nat i) = Ok (concat (map (fun x => show x ++ !"  ") (skipn i l)))).
  { change 0%Z with (Z.of_nat 0). rewrite (E (length l) 0%nat) by lia. reflexivity. }
  induction k as [|k IH]; intros i Hi; cbn [print_loop].
  - rewrite skipn_all2 by lia. reflexivity.
  - destruct (nth_error l i) as [x|] eqn:E; [|apply nth_error_None in E; lia].
    rewrite (R_index b n l i x) by assumption. cbn [bind].
    replace (Z.of_nat i + 1)%Z with (Z.of_nat (S i)) by lia. rewrite IH by lia. cbn [bind].
    rewrite (skipn_nth _ _ _ E). cbn [map concat]. rewrite <- app_assoc. reflexivity.
Qed.

(** * Unused slots *)
Definition U (b : sbuf A) (n : nat) (l : list A) : Prop :=
  forall i, (length l <= i < n)%nat -> nth_error (st b) (wi n (ib b + i)) = Some d.

Lemma U_push_back b n l x b' : R b n l -> U b n l -> n <> 0%nat -> push_back b x = Ok b' ->
  U b' n (last_n n (l ++ [x])).
Proof.
  intros H HU Hn Hp; openR H. unfold push_back, store in Hp. rewrite Hlen in Hp.
  assert (Hin : (ie b < n)%nat) by (rewrite Hie; nl).
  destruct (Nat.ltb_spec (ie b) n); [|lia]. cbn [bind] in Hp.
  intros i. rewrite len_last_n, app_length. cbn [length]. intros Hi.
  assert (length l < n)%nat by lia.
  replace (full b) with false in Hp by (rewrite Hf; bdg; try lia; reflexivity).
  assert (E : nth_error (set_nth (st b) (ie b) x) (wi n (ib b + i)) = Some d).
  { rewrite nth_set_nth. replace (Nat.eqb (ie b) (wi n (ib b + i))) with false
      by (symmetry; apply Nat.eqb_neq; rewrite Hie; nl). apply HU. lia. }
  destruct (Nat.eqb (increase_idx b (ie b)) (ib b)); injection Hp as <-; exact E.
Qed.
Lemma U_push_front b n l x b' : R b n l -> U b n l -> n <> 0%nat -> push_front b x = Ok b' ->
  U b' n (firstn n (x :: l)).
Proof.
  intros H HU Hn Hp; openR H. unfold push_front, store in Hp. rewrite Hlen in Hp.
  assert (Hin : (decrease_idx b (ib b) < n)%nat) by (unfold decrease_idx, capacity; rewrite Hlen; nl).
  destruct (Nat.ltb_spec (decrease_idx b (ib b)) n); [|lia]. cbn [bind] in Hp.
  injection Hp as <-.
  intros i. rewrite firstn_length. cbn [length ib st]. intros Hi.
  rewrite nth_set_nth.
  replace (Nat.eqb (decrease_idx b (ib b)) (wi n (decrease_idx b (ib b) + i))) with false
    by (symmetry; apply Nat.eqb_neq; unfold decrease_idx, capacity; rewrite Hlen; nl).
  cbn [andb]. rewrite <- (HU (i - 1)%nat) by lia. f_equal.
  unfold decrease_idx, capacity in *; rewrite Hlen in *; nl.
Qed.
Lemma U_make n : U (make d n) n [].
Proof. intros i Hi. cbn [make st ib]. rewrite nth_repeat. nl. reflexivity. Qed.
Lemma U_clear b n l : R b n l -> U (clear d b) n [].
Proof. intros H; openR H. unfold clear. rewrite Hlen. apply U_make. Qed.
Lemma U_change b n l m sh : R b n l -> U b n l ->
  U (change_capacity d b m sh) m
    (match sh with keep_front_elements => firstn m l | keep_back_elements => last_n m l end).
Proof.
  intros H HU. pose proof (R_size _ _ _ H) as Hs. openR H.
  assert (Hln : length (match sh with keep_front_elements => firstn m l | keep_back_elements => last_n m l end)
    = Nat.min m (length l)).
  { destruct sh; [rewrite firstn_length|rewrite len_last_n]; lia. }
  unfold U. rewrite Hln. intros i Hi.
  unfold change_capacity, capacity. rewrite Hlen, Hs.
  destruct (Nat.eqb_spec m n) as [->|Hmn]; [apply HU; lia|].
  destruct (Nat.eqb_spec m 0) as [->|Hm0]; [lia|].
  assert (E : nth_error (vresize d (rotate (st b) (ib b)) m) (wi m (0 + i)) = Some d).
  { replace (wi m (0 + i)) with i by nl. rewrite nth_vresize. bdg; [|lia]. f_equal.
    destruct (Nat.ltb_spec i n).
    - apply nth_error_nth. rewrite nth_rotate by lia. rewrite Hlen. apply HU. lia.
    - apply nth_overflow. rewrite len_rotate by lia. lia. }
  destruct (Nat.ltb_spec n m); [exact E|].
  destruct (Nat.ltb_spec (length l) m); [exact E|]. lia.
Qed.
Lemma run_U os : forall b n l q b', R b n l -> U b n l -> forallb (fun o => negb (is_pop o)) os = true ->
  apply_all os (n, l) = Some q -> run d (resize d) os b = Ok b' -> U b' (fst q) (snd q).
Proof.
  induction os as [|o os IH]; intros b n l q b' H HU Hp Ha Hr; cbn [apply_all run forallb] in *.
  - injection Ha as <-. injection Hr as <-. assumption.
  - apply andb_prop in Hp; destruct Hp as [Ho Hp].
    destruct (apply o (n, l)) as [[n' l']|] eqn:E; [|discriminate Ha].
    destruct (step_sim d (resize d) o b n l _ (good_change d) H E) as (b1 & E1 & H1).
    rewrite E1 in Hr. cbn [bind fst snd] in *.
    refine (IH b1 n' l' q b' H1 _ Hp Ha Hr).
    destruct o as [x|x| | | |m sh]; cbn [apply step is_pop negb] in *; try discriminate Ho.
    + destruct (Nat.eqb_spec n 0); [discriminate E|]. injection E as <- <-. eapply U_push_back; eauto.
    + destruct (Nat.eqb_spec n 0); [discriminate E|]. injection E as <- <-. eapply U_push_front; eauto.
    + injection E as <- <-. injection E1 as <-. eapply U_clear; eauto.
    + injection E1 as <-. pose proof (U_change b n l m sh H HU) as HH.
      destruct sh; injection E as <- <-; exact HH.
Qed.
Lemma U_index b n l i : R b n l -> U b n l -> (Z.of_nat n < 2 ^ 63)%Z -> (length l <= i < n)%nat ->
  index b (Z.of_nat i) = Ok d.
Proof.
  intros H HU Hb Hi; openR H.
  unfold index, capacity. rewrite Hlen.
  replace ((Z.of_nat i + Z.of_nat (ib b)) mod 2 ^ 64)%Z with (Z.of_nat (ib b + i)) by
    (rewrite Z.mod_small; lia).
  specialize (HU i Hi).
  destruct (Z.leb_spec (Z.of_nat n) (Z.of_nat (ib b + i))).
  - destruct (Z.ltb_spec (Z.of_nat (ib b + i) - Z.of_nat n) (Z.of_nat n)); [|lia].
    apply load_of. rewrite <- HU. f_equal. nl.
  - apply load_of. rewrite <- HU, Nat2Z.id. f_equal. nl.
Qed.

(** * The exposed range *)
Lemma R_prefix (b : sbuf A) n l : R b n l -> l = firstn (length l) (rotate (st b) (ib b)).
Proof.
  intros H; openR H. apply list_ext. intros i. rewrite nth_firstn.
  bdg; [|apply nth_over; lia]. rewrite nth_rotate by lia. rewrite Hlen. symmetry. apply Hc. assumption.
Qed.
Lemma perm_rotate (l : list A) k : Permutation l (rotate l k).
Proof. unfold rotate. rewrite <- (firstn_skipn k l) at 1. apply Permutation_app_comm. Qed.
Lemma ex_covers (b : sbuf A) n l : R b n l -> exists rest, Permutation (ex_range b) (l ++ rest).
Proof.
  intros H. pose proof (R_prefix _ _ _ H) as Hp. openR H.
  assert (Hall : exists rest, Permutation (st b) (l ++ rest)).
  { exists (skipn (length l) (rotate (st b) (ib b))). rewrite Hp at 1. rewrite firstn_skipn. apply perm_rotate. }
  assert (Hrest : forall e, (ib b + length l <= e)%nat -> (e <= n)%nat ->
     exists rest, firstn (e - ib b) (skipn (ib b) (st b)) = l ++ rest).
  { intros e He He2. exists (skipn (length l) (firstn (e - ib b) (skipn (ib b) (st b)))).
    apply list_ext. intros i. rewrite nth_app, nth_skipn, !nth_firstn, !nth_skipn.
    destruct (Nat.ltb_spec i (length l)).
    - bdg; [|lia]. rewrite <- Hc by assumption. f_equal. nl.
    - replace (length l + (i - length l))%nat with i by lia. reflexivity. }
  unfold ex_range, ex_begin, ex_end. destruct (full b) eqn:Ef; cbn [negb andb orb].
  { rewrite Nat.sub_0_r, firstn_all. exact Hall. }
  assert (Hlt : n = 0%nat \/ (length l < n)%nat) by (symmetry in Hf; nl; discriminate Hf).
  destruct (Nat.leb_spec (ib b) (ie b)) as [Hle|Hgt]; rewrite ?orb_true_r.
  - assert (Hc2 : ie b = (ib b + length l)%nat) by (rewrite Hie in *; nl).
    destruct (Nat.eqb_spec (ib b) 0) as [E|E]; cbn [negb].
    + destruct (Hrest (ie b)) as (r & Hr); [lia|rewrite Hc2; destruct Hlt; lia|].
      exists r. rewrite Hr. reflexivity.
    + destruct (Hrest n) as (r & Hr); [rewrite Hie in *; nl|lia|].
      rewrite Hlen. exists r. rewrite Hr. reflexivity.
  - replace (Nat.eqb (ib b) 0) with false by (symmetry; apply Nat.eqb_neq; lia). cbn [negb].
    destruct (Nat.eqb_spec (ie b) 0) as [E|E]; cbn [orb].
    + destruct (Hrest n) as (r & Hr); [rewrite Hie in *; nl|lia|].
      rewrite Hlen. exists r. rewrite Hr. reflexivity.
    + rewrite Nat.sub_0_r, firstn_all. exact Hall.
Qed.
(** Exactly the elements if they are left- or right-aligned or fill the storage *)
Lemma ex_exact (b : sbuf A) n l : R b n l -> (full b = true \/ ib b = 0%nat \/ ie b = 0%nat) ->
  exists k, (k <= length l)%nat /\ ex_range b = skipn k l ++ firstn k l.
Proof.
  intros H Hal. pose proof (R_prefix _ _ _ H) as Hp. openR H.
  unfold ex_range, ex_begin, ex_end. destruct (full b) eqn:Ef; cbn [negb andb orb].
  { assert (length l = n) by (symmetry in Hf; apply andb_prop in Hf; destruct Hf as [_ Hf]; apply Nat.eqb_eq in Hf; auto).
    assert (Hli : (length l - ib b <= length l)%nat) by lia.
    exists (length l - ib b)%nat. split; [lia|].
    rewrite Nat.sub_0_r, firstn_all. cbn [skipn]. fold (rotate l (length l - ib b)).
    apply list_ext. intros i. destruct (Nat.ltb_spec i n).
    - rewrite nth_rotate by lia. rewrite <- Hc by nl. f_equal. nl.
    - rewrite !nth_over; rewrite ?len_rotate by lia; try lia; auto. }
  assert (Hlt : n = 0%nat \/ (length l < n)%nat) by (symmetry in Hf; nl; discriminate Hf).
  exists 0%nat. split; [lia|]. cbn [skipn firstn]. rewrite app_nil_r.
  assert (Hrest : forall e, (ib b + length l = e)%nat -> (e <= n)%nat ->
     firstn (e - ib b) (skipn (ib b) (st b)) = l).
  { intros e He He2. apply list_ext. intros i. rewrite nth_firstn, nth_skipn.
    bdg; [|symmetry; apply nth_over; lia]. rewrite <- Hc by lia. f_equal. nl. }
  destruct Hal as [E|[E|E]]; [discriminate E| |].
  - rewrite E. cbn [Nat.leb]. rewrite orb_true_r. cbn [Nat.eqb negb]. rewrite <- E at 1 2.
    apply Hrest; rewrite Hie in *; nl.
  - rewrite E. cbn [Nat.eqb orb]. destruct (Nat.eqb_spec (ib b) 0) as [E2|E2]; cbn [negb].
    + apply Hrest; rewrite Hie in *; nl.
    + rewrite Hlen. apply Hrest; rewrite Hie in *; nl.
Qed.

(** alignment is kept by push_back-only and by push_front-only histories *)
Definition left_aligned (b : sbuf A) : Prop := full b = true \/ ib b = 0%nat.
Definition right_aligned (b : sbuf A) : Prop := full b = true \/ ie b = 0%nat.

Lemma la_push_back b n l x b' : R b n l -> left_aligned b -> n <> 0%nat -> push_back b x = Ok b' -> left_aligned b'.
Proof.
  intros H HA Hn Hp; openR H. unfold push_back, store in Hp. rewrite Hlen in Hp.
  destruct (Nat.ltb_spec (ie b) n); [|discriminate Hp]. cbn [bind] in Hp.
  unfold left_aligned in *. destruct (full b).
  - injection Hp as <-. left; reflexivity.
  - destruct HA as [E|E]; [discriminate E|].
    destruct (Nat.eqb (increase_idx b (ie b)) (ib b)); injection Hp as <-; cbn [full ib]; auto.
Qed.
Lemma ra_push_front b n l x b' : R b n l -> right_aligned b -> n <> 0%nat -> push_front b x = Ok b' -> right_aligned b'.
Proof.
  intros H HA Hn Hp; openR H. unfold push_front, store in Hp. rewrite Hlen in Hp.
  destruct (Nat.ltb_spec (decrease_idx b (ib b)) n); [|discriminate Hp]. cbn [bind] in Hp.
  injection Hp as <-. unfold right_aligned in *; cbn [full ie]. destruct (full b); [left; reflexivity|].
  destruct HA as [E|E]; [discriminate E|]. right; assumption.
Qed.
Lemma la_change b n l m sh : R b n l -> left_aligned b -> left_aligned (change_capacity d b m sh).
Proof.
  intros H HA. unfold change_capacity.
  destruct (Nat.eqb _ _); [assumption|]. unfold left_aligned.
  destruct (Nat.eqb _ _); [right; reflexivity|].
  destruct (Nat.ltb _ _); [right; reflexivity|].
  destruct (Nat.ltb _ _); right; reflexivity.
Qed.
Lemma la_ex_resize mv b n l m sh : R b n l -> left_aligned b -> left_aligned (ex_resize d mv b m sh).
Proof.
  intros H HA. unfold ex_resize. destruct (negb _) eqn:Era; [eapply la_change; eauto|].
  exfalso. apply Bool.negb_false_iff in Era.
  repeat (apply andb_prop in Era; destruct Era as [Era ?]).
  destruct HA as [E|E]; rewrite E in *; discriminate.
Qed.
Lemma ra_ex_resize mv b n l m : R b n l -> right_aligned b -> (length l < n \/ m <= n)%nat ->
  right_aligned (ex_resize d mv b m keep_front_elements).
Proof.
  intros H HA Hg. pose proof (R_size _ _ _ H) as Hs. openR H.
  unfold ex_resize. destruct (negb _) eqn:Era.
  - unfold change_capacity, capacity. rewrite Hlen, Hs.
    destruct (Nat.eqb_spec m n); [assumption|].
    destruct (Nat.eqb_spec m 0); [right; reflexivity|].
    unfold right_aligned in *.
    destruct (full b) eqn:Ef.
    + assert (length l = n) by (symmetry in Hf; apply andb_prop in Hf; destruct Hf as [_ Hf]; apply Nat.eqb_eq in Hf; auto).
      bdg; try lia. left; reflexivity.
    + destruct HA as [E|E]; [discriminate E|]. rewrite E in *.
      destruct (Nat.eqb_spec (ib b) 0) as [E2|E2].
      * assert (length l = 0%nat \/ n = 0%nat) as [E3|E3] by (symmetry in Hf; nl; discriminate Hf).
        -- rewrite E3. destruct (Nat.ltb n m); [right; reflexivity|].
           destruct (Nat.ltb 0 m); [right; reflexivity|left; reflexivity].
        -- assert (E4 : length l = 0%nat) by lia. rewrite E4.
           destruct (Nat.ltb n m); [right; reflexivity|].
           destruct (Nat.ltb 0 m); [right; reflexivity|left; reflexivity].
      * exfalso. unfold capacity in Era. rewrite Hlen in Era. cbn [negb andb Nat.eqb] in Era.
        destruct (Nat.eqb_spec m n); [contradiction|]. cbn [negb] in Era.
        destruct (Nat.ltb_spec 0 m); [discriminate Era|lia].
  - apply Bool.negb_false_iff in Era.
    repeat (apply andb_prop in Era; destruct Era as [Era ?]).
    match goal with X : Nat.eqb (ie b) 0 = true |- _ => apply Nat.eqb_eq in X end. unfold right_aligned.
    destruct (Nat.ltb (capacity b) m); cbn [full ie]; right; assumption.
Qed.
End Rel.

(** Which histories keep the elements contiguous *)
Section Hist.
Context {A : Type} (d : A).
Lemma run_la mv (os : list (op A)) : forall b n l q b', R b n l -> left_aligned b ->
  forallb is_back_op os = true -> apply_all os (n, l) = Some q ->
  run d (ex_resize d mv) os b = Ok b' -> left_aligned b'.
Proof.
  induction os as [|o os IH]; intros b n l q b' H HU Hp Ha Hr; cbn [apply_all run forallb] in *.
  - injection Hr as <-. assumption.
  - apply andb_prop in Hp; destruct Hp as [Ho Hp].
    destruct (apply o (n, l)) as [[n' l']|] eqn:E; [|discriminate Ha].
    destruct (step_sim d _ o b n l _ (good_ex d mv) H E) as (b1 & E1 & H1).
    rewrite E1 in Hr. cbn [bind fst snd] in *.
    refine (IH b1 n' l' q b' H1 _ Hp Ha Hr).
    destruct o as [x|x| | | |m sh]; cbn [apply step is_back_op] in *; try discriminate Ho.
    + destruct (Nat.eqb_spec n 0); [discriminate E|]. eapply (la_push_back b n l x); eauto.
    + injection E1 as <-. right; reflexivity.
    + injection E1 as <-. eapply (la_ex_resize _ _ b n l); eauto.
Qed.
Lemma run_ra mv (os : list (op A)) : forall b n l q b', R b n l -> right_aligned b ->
  front_history os (n, l) -> apply_all os (n, l) = Some q ->
  run d (ex_resize d mv) os b = Ok b' -> right_aligned b'.
Proof.
  induction os as [|o os IH]; intros b n l q b' H HU Hp Ha Hr; cbn [apply_all run front_history] in *.
  - injection Hr as <-. assumption.
  - destruct Hp as [Ho Hp].
    destruct (apply o (n, l)) as [[n' l']|] eqn:E; [|discriminate Ha].
    destruct (step_sim d _ o b n l _ (good_ex d mv) H E) as (b1 & E1 & H1).
    rewrite E1 in Hr. cbn [bind fst snd] in *.
    refine (IH b1 n' l' q b' H1 _ Hp Ha Hr).
    destruct o as [x|x| | | |m sh]; cbn [apply step] in *; try contradiction Ho.
    + destruct (Nat.eqb_spec n 0); [discriminate E|]. eapply (ra_push_front b n l x); eauto.
    + injection E1 as <-. right; reflexivity.
    + destruct sh; [|contradiction Ho]. injection E1 as <-. eapply (ra_ex_resize _ _ b n l); eauto.
Qed.
End Hist.
