(** SlidingBuffer with elements or an allocator that throw: property C86. *)
From Verif Require Import Base SbModel SbSpec SbProofs SbProofs2 SbProps SbExcModel SbExcSpec SbExcProofs.
From Coq Require Import PeanoNat.
Local Open Scope outcome_scope.

Lemma shows_R {A} (d : A) b n l m l' : R b n l -> (Z.of_nat n < 2 ^ 63)%Z -> shows d b (m, l') -> m = n /\ l' = l.
Proof.
  intros H Hb (E1 & _ & E2 & _ & _ & _ & E3).
  rewrite (R_capacity _ _ _ H) in E1. rewrite (R_size _ _ _ H) in E2.
  split; [congruence|]. apply list_ext. intros i.
  destruct (nth_error l' i) as [x|] eqn:E.
  - destruct (E3 i x E) as [_ E4].
    assert (i < length l)%nat by (rewrite E2; apply nth_error_Some; congruence).
    pose proof (R_bound _ _ _ H) as Hle.
    rewrite (R_at _ _ _ _ H) in E4 by (assumption || lia). rewrite Nat2Z.id in E4.
    destruct (nth_error l i); [congruence|discriminate E4].
  - symmetry. apply nth_error_None. apply nth_error_None in E. lia.
Qed.

Section General.
Context {A : Type} (d : A) (T : traits) (rs : sbuf A -> nat -> shrink -> result (sbuf A) -> Prop).
Context (G : good_x T rs).
Lemma histories_gen n os r : calls d T rs os (make d n) r ->
  exists b q, r = Returned b /\ attempts T os (n, []) q /\ ((Z.of_nat (fst q) < 2 ^ 63)%Z -> shows d b q).
Proof.
  intros H. destruct (sim_all d T rs os G _ _ _ r (R_make d n) H) as (b & [m l] & -> & P & HR).
  exists b, (m, l). split; [reflexivity|]. split; [assumption|]. intros Hb. apply R_shows; assumption.
Qed.
Lemma call_gen n os b q o r :
  calls d T rs os (make d n) (Returned b) -> shows d b q -> (Z.of_nat (fst q) < 2 ^ 63)%Z ->
  allowed o b -> call d T rs o b r ->
  exists b' q',
    (r = Returned b' /\ apply o q = Some q' \/ r = Raised b' /\ left_behind T o q q') /\
    ((Z.of_nat (fst q') < 2 ^ 63)%Z -> shows d b' q').
Proof.
  intros H Hs Hb Ha Hc. destruct (sim_all d T rs os G _ _ _ _ (R_make d n) H) as (b0 & [m l] & E & _ & HR).
  injection E as <-. destruct q as [m' l']. cbn [fst snd] in *.
  assert (m' = m). { destruct Hs as (E & _). rewrite (R_capacity _ _ _ HR) in E. congruence. }
  subst m'. destruct (shows_R d b m l m l' HR Hb Hs) as [_ ->].
  destruct (sim d T rs o b m l r G HR Ha Hc) as [(b' & [m' l2] & -> & P & H')|(b' & [m' l2] & -> & [_ P] & H')];
    exists b', (m', l2); (split; [auto|intros Hb'; apply R_shows; assumption]).
Qed.
End General.

(** * C86: a SlidingBuffer survives exceptions of its elements and of the allocator. *)

(** The calls that return are those of the model of C37-C41. *)
Theorem C86_returns : forall A (d : A) T o (b b' : sbuf A), allowed o b ->
  call d T (change_capacity_x d T) o b (Returned b') -> step d (resize d) o b = Ok b'.
Proof.
  intros A d T o b b' Ha Hc. destruct o as [x|x| | | |m sh]; cbn [call step] in *.
  - destruct Hc as (q & Hq & Hr). unfold push_back, store. destruct Hq as [L|y L _|L]; try discriminate Hr.
    destruct (Nat.ltb_spec (ie b) (length (st b))); [|lia]. cbn [bind]. injection Hr as ->.
    destruct (full b); [reflexivity|]. destruct (Nat.eqb _ _); reflexivity.
  - destruct Hc as (q & Hq & Hr). unfold push_front, store. destruct Hq as [L|y L _|L]; try discriminate Hr.
    destruct (Nat.ltb_spec (decrease_idx b (ib b)) (length (st b))); [|lia]. cbn [bind]. injection Hr as ->. reflexivity.
  - injection Hc as ->. reflexivity.
  - injection Hc as ->. reflexivity.
  - destruct Hc as (q & Hq & Hr). destruct Hq as [|l' _]; [|discriminate Hr]. injection Hr as ->. reflexivity.
  - f_equal. unfold change_capacity_x in Hc. unfold resize, change_capacity.
    assert (X : forall k m old (f : list A -> sbuf A), 
      next (rotates T (st b) k) old (fun l => next (resizes d T l m) old (fun l r => r = Returned (f l))) (Returned b') ->
      f (vresize d (rotate (st b) k) m) = b').
    { intros k m' old f (q & Hq & Hr). destruct Hq; try discriminate Hr.
      destruct Hr as (q & Hq & Hr). destruct Hq; [|discriminate Hr]. injection Hr as ->. reflexivity. }
    destruct (Nat.eqb m (capacity b)); [congruence|].
    destruct (Nat.eqb m 0).
    { destruct Hc as (q & Hq & Hr). destruct Hq; [|discriminate Hr]. injection Hr as ->. reflexivity. }
    destruct (Nat.ltb (capacity b) m); [exact (X _ _ _ (fun l => SB 0 (size b) false l) Hc)|].
    destruct (Nat.ltb (size b) m); [exact (X _ _ _ (fun l => SB 0 (size b) false l) Hc)|].
    exact (X _ _ _ (fun l => SB 0 0 true l) Hc).
Qed.

(** Conversely, every call whose precondition is met can return. *)
Theorem C86_can_return : forall A (d : A) T n os b o,
  calls d T (change_capacity_x d T) os (make d n) (Returned b) -> allowed o b ->
  exists b', call d T (change_capacity_x d T) o b (Returned b').
Proof.
  intros A d T n os b o H Ha.
  destruct (sim_all d T _ os (good_change_x d T) _ _ _ _ (R_make d n) H) as (b0 & [m l] & E & _ & HR).
  injection E as <-. cbn [fst snd] in HR. pose proof (R_ib _ _ _ HR) as Hib.
  assert (Hlen : length (st b) = m) by apply HR.
  destruct o as [x|x| | | |k sh]; cbn [allowed call] in *.
  - destruct (R_push_back b m l x HR ltac:(unfold capacity in Ha; congruence)) as (b' & E & _).
    unfold push_back, store in E. destruct (Nat.ltb_spec (ie b) (length (st b))); [|discriminate E].
    eexists. eexists; split; [apply assigns_ok; assumption|reflexivity].
  - destruct (R_push_front b m l x HR ltac:(unfold capacity in Ha; congruence)) as (b' & E & _).
    unfold push_front, store in E. destruct (Nat.ltb_spec (decrease_idx b (ib b)) (length (st b))); [|discriminate E].
    eexists. eexists; split; [apply assigns_ok; assumption|reflexivity].
  - eexists; reflexivity.
  - eexists; reflexivity.
  - eexists. eexists; split; [apply fills_ok|reflexivity].
  - unfold change_capacity_x.
    destruct (Nat.eqb_spec k (capacity b)); [eexists; reflexivity|].
    destruct (Nat.eqb_spec k 0); [eexists; eexists; split; [apply resizes_ok|reflexivity]|].
    destruct (Nat.ltb_spec (capacity b) k);
      [eexists; eexists; split; [apply rotates_ok; assumption|]; eexists; split; [apply resizes_ok|reflexivity]|].
    destruct (Nat.ltb_spec (size b) k);
      [eexists; eexists; split; [apply rotates_ok; assumption|]; eexists; split; [apply resizes_ok|reflexivity]|].
    eexists; eexists; split; [apply rotates_ok|]; [|eexists; split; [apply resizes_ok|reflexivity]].
    destruct sh; [assumption|]. apply Nat.lt_le_incl, Nat.mod_upper_bound. unfold capacity in *; lia.
Qed.

(** After any sequence of calls, any of which may have raised an exception, the buffer is not
    broken: it shows some deque, and nothing has been undefined. *)
Theorem C86_histories : forall A (d : A) T n os r,
  calls d T (change_capacity_x d T) os (make d n) r ->
  exists b q, r = Returned b /\ attempts T os (n, []) q /\ ((Z.of_nat (fst q) < 2 ^ 63)%Z -> shows d b q).
Proof. intros A d T n os r. apply histories_gen, good_change_x. Qed.

(** What one call does to a buffer with such a history: it has its effect, or it raises an
    exception and leaves behind what [left_behind] says. *)
Theorem C86_call : forall A (d : A) T n os b q o r,
  calls d T (change_capacity_x d T) os (make d n) (Returned b) -> shows d b q -> (Z.of_nat (fst q) < 2 ^ 63)%Z ->
  allowed o b -> call d T (change_capacity_x d T) o b r ->
  exists b' q',
    (r = Returned b' /\ apply o q = Some q' \/ r = Raised b' /\ left_behind T o q q') /\
    ((Z.of_nat (fst q') < 2 ^ 63)%Z -> shows d b' q').
Proof. intros A d T n os b q o r. apply call_gen, good_change_x. Qed.

(** push_back: if it throws, nothing has happened, given that the assignment of an element is
    all-or-nothing or that the buffer was not filled. *)
Theorem C86_push_back : forall A (d : A) T n os b q x b',
  calls d T (change_capacity_x d T) os (make d n) (Returned b) -> shows d b q -> (Z.of_nat (fst q) < 2 ^ 63)%Z ->
  capacity b <> 0%nat -> push_back_x T b x (Raised b') ->
  strong_assign T = true \/ filled b = false -> shows d b' q.
Proof.
  intros A d T n os b [m l] x b' H Hs Hb Hc Hp Hor.
  destruct (C86_call A d T n os b (m, l) (PushBack x) _ H Hs Hb Hc Hp) as (b1 & [m1 l1] & [[E _]|[E P]] & S1); [discriminate E|].
  injection E as <-. cbn [left_behind fst] in *. destruct P as (-> & [->|(F & L & _)]); [auto|].
  exfalso. destruct Hs as (E1 & E2 & E3 & _ & E5 & _).
  destruct Hor as [Hor|Hor]; [congruence|].
  assert (filled b = true) by (apply E5; lia). congruence.
Qed.
(** pop_back and pop_front never throw; clear always empties the buffer; without throwing moves,
    resize throws only when asked for a larger capacity. *)
Theorem C86_pop_clear : forall A (d : A) T n os b q b',
  calls d T (change_capacity_x d T) os (make d n) (Returned b) -> shows d b q -> (Z.of_nat (fst q) < 2 ^ 63)%Z ->
  ~ pop_back_x b (Raised b') /\ ~ pop_front_x b (Raised b') /\
  (clear_x d b (Raised b') -> shows d b' (fst q, [])) /\
  (forall m sh, nothrow_move T = true -> (m <= fst q)%nat -> ~ change_capacity_x d T b m sh (Raised b')).
Proof.
  intros A d T n os b [m l] b' H Hs Hb.
  split; [discriminate|]. split; [discriminate|]. split.
  - intros Hc. destruct (C86_call A d T n os b (m, l) Clear _ H Hs Hb I Hc) as (b1 & [m1 l1] & [[E _]|[E P]] & S1); [discriminate E|].
    injection E as <-. destruct P as [-> ->]. auto.
  - intros m1 sh N L Hc.
    destruct (C86_call A d T n os b (m, l) (Resize m1 sh) _ H Hs Hb I Hc) as (b1 & [m2 l1] & [[E _]|[E P]] & S1); [discriminate E|].
    destruct P as (_ & _ & P). specialize (P N). cbn [fst] in L. lia.
Qed.

(** SlidingBufferExposed is the same if moves do not throw. *)
Theorem C86_exposed_partial : forall A (d : A) T mv n os r, nothrow_move T = true ->
  calls d T (ex_resize_x d T mv) os (make d n) r ->
  exists b q, r = Returned b /\ attempts T os (n, []) q /\ ((Z.of_nat (fst q) < 2 ^ 63)%Z -> shows d b q).
Proof. intros A d T mv n os r N. apply histories_gen, good_ex_x, N. Qed.
Theorem C86_exposed_call_partial : forall A (d : A) T mv n os b q o r, nothrow_move T = true ->
  calls d T (ex_resize_x d T mv) os (make d n) (Returned b) -> shows d b q -> (Z.of_nat (fst q) < 2 ^ 63)%Z ->
  allowed o b -> call d T (ex_resize_x d T mv) o b r ->
  exists b' q',
    (r = Returned b' /\ apply o q = Some q' \/ r = Raised b' /\ left_behind T o q q') /\
    ((Z.of_nat (fst q') < 2 ^ 63)%Z -> shows d b' q').
Proof. intros A d T mv n os b q o r N. apply call_gen, good_ex_x, N. Qed.

(** * What is not true *)

Ltac show := unfold shows; cbn -[Z.mul Z.pow]; repeat split; try reflexivity; try lia; try discriminate; try tauto;
  match goal with
  | H : nth_error _ ?i = Some _ |- _ => repeat (destruct i as [|i]; [injection H as <-; reflexivity|]); destruct i; discriminate H
  | _ => idtac
  end.

(** A push_front that throws changes the contents, even for elements which behave well: the last
    element of a filled buffer comes to the front, ... *)
Theorem C86_push_front_refuted :
  exists b b' : sbuf Z,
    calls 0%Z nice (change_capacity_x 0%Z nice) [(PushBack 1%Z, true); (PushBack 2%Z, true); (PushBack 3%Z, true)] (make 0%Z 3) (Returned b) /\
    shows 0%Z b (3%nat, [1; 2; 3]%Z) /\ push_front_x nice b 4%Z (Raised b') /\ shows 0%Z b' (3%nat, [3; 1; 2]%Z).
Proof.
  exists (SB 0 0 true [1; 2; 3]%Z), (SB 2 2 true [1; 2; 3]%Z). split; [|split; [show|split; [|show]]].
  - do 3 (eapply calls_ok; [discriminate|eexists; split; [apply assigns_ok; cbn; lia|reflexivity]|cbn]). apply calls_nil.
  - eexists; split; [apply (assigns_throws nice [1; 2; 3]%Z 2 4%Z 3%Z); [cbn; lia|reflexivity]|reflexivity].
Qed.
(** ... and an element that was never there or has been popped appears in one that is not filled. *)
Theorem C86_push_front_stale_refuted :
  exists b b' : sbuf Z,
    calls 0%Z nice (change_capacity_x 0%Z nice) [(PushFront 5%Z, true); (PopFront, true); (PushBack 1%Z, true)] (make 0%Z 3) (Returned b) /\
    shows 0%Z b (3%nat, [1%Z]) /\ push_front_x nice b 4%Z (Raised b') /\ shows 0%Z b' (3%nat, [5; 1]%Z).
Proof.
  exists (SB 0 1 false [1; 0; 5]%Z), (SB 2 1 false [1; 0; 5]%Z). split; [|split; [show|split; [|show]]].
  - eapply calls_ok; [discriminate|eexists; split; [apply assigns_ok; cbn; lia|reflexivity]|cbn].
    eapply calls_ok; [reflexivity|reflexivity|cbn].
    eapply calls_ok; [discriminate|eexists; split; [apply assigns_ok; cbn; lia|reflexivity]|cbn]. apply calls_nil.
  - eexists; split; [apply (assigns_throws nice [1; 0; 5]%Z 2 4%Z 5%Z); [cbn; lia|reflexivity]|reflexivity].
Qed.
(** A resize that cannot allocate memory shuffles the elements. *)
Theorem C86_resize_refuted :
  exists b b' : sbuf Z,
    calls 0%Z nice (change_capacity_x 0%Z nice)
      [(PushBack 1%Z, true); (PushBack 2%Z, true); (PushBack 3%Z, true); (PushBack 4%Z, true)] (make 0%Z 3) (Returned b) /\
    shows 0%Z b (3%nat, [2; 3; 4]%Z) /\
    change_capacity_x 0%Z nice b 5 keep_front_elements (Raised b') /\ shows 0%Z b' (3%nat, [3; 4; 2]%Z).
Proof.
  exists (SB 1 1 true [4; 2; 3]%Z), (SB 1 1 true [2; 3; 4]%Z). split; [|split; [show|split; [|show]]].
  - do 4 (eapply calls_ok; [discriminate|eexists; split; [apply assigns_ok; cbn; lia|reflexivity]|cbn]). apply calls_nil.
  - cbn. eexists; split; [apply rotates_ok; cbn; lia|]. cbn.
    eexists; split; [apply (resizes_throws 0%Z nice [2; 3; 4]%Z 5 [2; 3; 4]%Z); [cbn; lia|reflexivity|reflexivity]|reflexivity].
Qed.
(** A SlidingBufferExposed which is shrunk is broken if a move throws: back() is not the last
    element any more, so that it does not show any deque. *)
Theorem C86_exposed_refuted :
  let T := Traits false true true in
  exists b b' : sbuf Z,
    calls 0%Z T (ex_resize_x 0%Z T id) [(PushFront 1%Z, true); (PushFront 2%Z, true)] (make 0%Z 4) (Returned b) /\
    shows 0%Z b (4%nat, [2; 1]%Z) /\
    ex_resize_x 0%Z T id b 2 keep_front_elements (Raised b') /\
    size b' = 4%nat /\ index b' 3 = Ok 0%Z /\ back b' = Ok 1%Z /\ forall q, ~ shows 0%Z b' q.
Proof.
  intros T. exists (SB 2 0 false [0; 0; 2; 1]%Z), (SB 2 0 true [0; 0; 2; 1]%Z).
  split; [|split; [show|split; [|split; [reflexivity|split; [reflexivity|split; [reflexivity|]]]]]].
  - do 2 (eapply calls_ok; [discriminate|eexists; split; [apply assigns_ok; cbn; lia|reflexivity]|cbn]). apply calls_nil.
  - cbn. eexists; split; [apply (rotates_throws T [0; 0; 2; 1]%Z 2 [0; 0; 2; 1]%Z); [cbn; lia|reflexivity|reflexivity]|reflexivity].
  - intros [n l] (_ & _ & E & _ & _ & F & G). cbn in E.
    destruct l as [|x0 [|x1 [|x2 [|x3 [|]]]]]; try discriminate E.
    destruct (F ltac:(discriminate)) as [_ B]. vm_compute in B. destruct (G 3%nat x3 eq_refl) as [G3 _]. vm_compute in G3. congruence.
Qed.

(** A history with exceptions: the push into the filled buffer fails, then one succeeds. *)
Example C86_example :
  exists b : sbuf Z,
    calls 0%Z nice (change_capacity_x 0%Z nice)
      [(PushBack 1%Z, true); (PushBack 2%Z, true); (PushBack 3%Z, false); (PushBack 4%Z, true); (PopFront, true)]
      (make 0%Z 2) (Returned b) /\
    shows 0%Z b (2%nat, [4%Z]).
Proof.
  exists (SB 0 1 false [4; 2]%Z). split; [|show].
  do 2 (eapply calls_ok; [discriminate|eexists; split; [apply assigns_ok; cbn; lia|reflexivity]|cbn]).
  eapply calls_throw; [discriminate|eexists; split; [apply (assigns_throws nice [1; 2]%Z 0 3%Z 1%Z); [cbn; lia|reflexivity]|reflexivity]|cbn].
  eapply calls_ok; [discriminate|eexists; split; [apply assigns_ok; cbn; lia|reflexivity]|cbn].
  eapply calls_ok; [reflexivity|reflexivity|cbn]. apply calls_nil.
Qed.

Print Assumptions C86_histories.
Print Assumptions C86_exposed_refuted.
