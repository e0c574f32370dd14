(** SlidingBuffer and SlidingBufferExposed: properties C37-C41.

    Element positions are size_t values; the theorems about positions assume that the capacity
    is less than 2^63 elements, which is the limit imposed by std::vector and std::array. *)
From Verif Require Import Base SbModel SbSpec SbProofs SbProofs2.
From Coq Require Import PeanoNat Permutation.
Local Open Scope outcome_scope.

Lemma R_shows {A} (d : A) b n l : R b n l -> (Z.of_nat n < 2 ^ 63)%Z -> shows d b (n, l).
Proof.
  intros H Hb. unfold shows.
  split; [eapply R_capacity; eassumption|]. split; [eapply R_bound; eassumption|].
  split; [eapply R_size; eassumption|].
  split; [rewrite (R_empty _ _ _ H), Nat.eqb_eq; split; [apply length_zero_iff_nil|intros ->; reflexivity]|].
  split; [rewrite (R_filled _ _ _ H), andb_true_iff, Nat.ltb_lt, Nat.eqb_eq; reflexivity|].
  split.
  - intros Hl. split.
    + destruct l as [|x l]; [congruence|]. eapply R_front; eassumption.
    + destruct (exists_last Hl) as (l' & x & ->). rewrite last_last. eapply R_back; eassumption.
  - intros i x E. split; [eapply R_index; eassumption|].
    rewrite (R_at _ _ _ _ H) by (assumption || lia). rewrite Nat2Z.id, E. reflexivity.
Qed.

(** * C37: after any history without resizing, the buffer shows the contents of a deque bounded
    by its capacity; no operation is undefined as long as nothing is pushed into a buffer of
    capacity 0 or popped from an empty one. *)
Theorem C37_deque : forall A (d : A) n (ops : list (op A)) m l,
  (Z.of_nat m < 2 ^ 63)%Z -> forallb (fun o => negb (is_resize o)) ops = true ->
  apply_all ops (n, []) = Some (m, l) ->
  m = n /\ exists b, run d (resize d) ops (make d n) = Ok b /\ shows d b (n, l).
Proof.
  intros A d n ops m l Hm Hr Ha.
  assert (Hmn : m = n).
  { clear Hm. generalize dependent (@nil A). induction ops as [|o ops IH]; intros l0 Ha; cbn in *; [congruence|].
    apply andb_prop in Hr; destruct Hr as [Ho Hr].
    destruct o as [x|x| | | |k sh]; try discriminate Ho.
    - destruct (Nat.eqb n 0); [discriminate Ha|]. eapply IH; eassumption.
    - destruct (Nat.eqb n 0); [discriminate Ha|]. eapply IH; eassumption.
    - destruct l0; [discriminate Ha|]. eapply IH; eassumption.
    - destruct l0; [discriminate Ha|]. eapply IH; eassumption.
    - eapply IH; eassumption. }
  subst m. split; [reflexivity|].
  destruct (run_sim d (resize d) ops (good_change d) _ _ _ _ (R_make d n) Ha) as (b & E & H).
  exists b. split; [assumption|]. apply R_shows; assumption.
Qed.
(** Pushing any number of elements keeps the most recent n: a sliding window. *)
Theorem C37_window : forall A (d : A) n (xs : list A), (0 < n)%nat -> (Z.of_nat n < 2 ^ 63)%Z ->
  (exists b, run d (resize d) (map PushBack xs) (make d n) = Ok b /\ shows d b (n, last_n n xs)) /\
  (exists b, run d (resize d) (map PushFront xs) (make d n) = Ok b /\ shows d b (n, firstn n (rev xs))).
Proof.
  intros A d n xs Hn Hb.
  assert (Hw : forall ys pre : list A, apply_all (map PushBack ys) (n, last_n n pre) = Some (n, last_n n (pre ++ ys))).
  { induction ys as [|y ys IH]; intros pre; cbn [map apply_all apply]; [rewrite app_nil_r; reflexivity|].
    destruct (Nat.eqb_spec n 0); [lia|].
    replace (last_n n (last_n n pre ++ [y])) with (last_n n (pre ++ [y])).
    - rewrite IH, <- app_assoc. reflexivity.
    - unfold last_n. apply list_ext. intros i.
      rewrite !nth_skipn, !app_length, !skipn_length. cbn [length].
      rewrite !nth_app, !nth_skipn, !skipn_length.
      repeat match goal with |- context [Nat.ltb ?a ?b] => destruct (Nat.ltb_spec a b) end;
        try lia; f_equal; lia. }
  assert (Hf : forall ys pre : list A, apply_all (map PushFront ys) (n, firstn n pre) = Some (n, firstn n (rev ys ++ pre))).
  { induction ys as [|y ys IH]; intros pre; cbn [map apply_all apply rev app]; [reflexivity|].
    destruct (Nat.eqb_spec n 0); [lia|].
    replace (firstn n (y :: firstn n pre)) with (firstn n (y :: pre)).
    - rewrite IH, <- app_assoc. reflexivity.
    - destruct n as [|n']; [lia|]. cbn [firstn]. f_equal.
      apply list_ext. intros i. rewrite !nth_firstn.
      destruct (Nat.ltb_spec i n'); [|reflexivity].
      symmetry. destruct pre as [|p pre]; [reflexivity|].
      change (p :: firstn n' pre) with (firstn (S n') (p :: pre)). rewrite nth_firstn.
      destruct (Nat.ltb_spec i (S n')); [reflexivity|lia]. }
  split.
  - specialize (Hw xs []). replace (last_n n (@nil A)) with (@nil A) in Hw by reflexivity. cbn [app] in Hw.
    destruct (run_sim d (resize d) _ (good_change d) _ _ _ _ (R_make d n) Hw) as (b & E & H).
    exists b. split; [assumption|]. apply R_shows; assumption.
  - specialize (Hf xs []). rewrite app_nil_r in Hf. replace (firstn n (@nil A)) with (@nil A) in Hf by (destruct n; reflexivity).
    destruct (run_sim d (resize d) _ (good_change d) _ _ _ _ (R_make d n) Hf) as (b & E & H).
    exists b. split; [assumption|]. apply R_shows; assumption.
Qed.
(** Pushing into a buffer of capacity 0 is undefined behavior. *)
Theorem C37_capacity_zero_finding : forall A (d x : A),
  push_back (make d 0) x = UB /\ push_front (make d 0) x = UB.
Proof. split; reflexivity. Qed.
Example C37_example :
  let ops := [PushBack 1; PushBack 2; PushBack 3; PushBack 4; PushFront 9; PopBack; PushBack 5; PopFront] in
  apply_all ops (3%nat, []) = Some (3%nat, [2; 5]) /\
  match run 0 (resize 0) ops (make 0 3) with
  | Ok b => size b = 2%nat /\ front b = Ok 2 /\ back b = Ok 5 /\ index b 1 = Ok 5 /\ filled b = false /\ empty b = false
            /\ (ib b <> 0%nat)
  | _ => False
  end.
Proof. vm_compute. repeat split; auto; discriminate. Qed.

(** * C38: the same for histories that change the capacity any number of times *)
Theorem C38_resize : forall A (d : A) n (ops : list (op A)) m l,
  (Z.of_nat m < 2 ^ 63)%Z -> apply_all ops (n, []) = Some (m, l) ->
  exists b, run d (resize d) ops (make d n) = Ok b /\ shows d b (m, l).
Proof.
  intros A d n ops m l Hm Ha.
  destruct (run_sim d (resize d) ops (good_change d) _ _ _ _ (R_make d n) Ha) as (b & E & H).
  exists b. split; [assumption|]. apply R_shows; assumption.
Qed.
(** In particular a single resize keeps everything that fits, and else the first or the last
    elements. *)
Theorem C38_kept : forall A (d : A) n (ops : list (op A)) m l k sh,
  (Z.of_nat k < 2 ^ 63)%Z -> apply_all ops (n, []) = Some (m, l) ->
  exists b, run d (resize d) (ops ++ [Resize k sh]) (make d n) = Ok b /\
  shows d b (k, if Nat.leb (length l) k then l
                else match sh with
                     | keep_front_elements => firstn k l
                     | keep_back_elements => skipn (length l - k) l
                     end).
Proof.
  intros A d n ops m l k sh Hk Ha.
  apply C38_resize; [assumption|].
  assert (Happ : forall o1 o2 (q : deque A), apply_all (o1 ++ o2) q =
    match apply_all o1 q with Some q' => apply_all o2 q' | None => None end).
  { induction o1 as [|o o1 IH]; intros o2 q; cbn [app apply_all]; [reflexivity|].
    destruct (apply o q); [apply IH|reflexivity]. }
  rewrite Happ, Ha. cbn [apply_all apply].
  destruct (Nat.leb_spec (length l) k); destruct sh; try reflexivity.
  - rewrite firstn_all2 by assumption. reflexivity.
  - unfold last_n. replace (length l - k)%nat with 0%nat by lia. reflexivity.
Qed.
(** A run-time sized buffer that was moved from keeps its index members: it may claim to hold
    elements although its capacity is zero. *)
Theorem C38_moved_from_finding : exists b,
  run 0 (resize 0) [PushBack 1; PushBack 2] (make 0 4) = Ok b /\
  capacity (moved_from b) = 0%nat /\ size (moved_from b) = 2%nat /\ empty (moved_from b) = false /\
  front (moved_from b) = UB.
Proof. eexists; split; [reflexivity|]. vm_compute. auto. Qed.
Example C38_example :
  let ops := [PushBack 1; PushBack 2; PushBack 3; PushBack 4; PushBack 5; Resize 2 keep_back_elements;
              Resize 4 keep_front_elements; PushBack 6; PushFront 7; PushBack 8; Resize 3 keep_front_elements] in
  apply_all ops (3%nat, []) = Some (3%nat, [4; 5; 6]) /\
  match run 0 (resize 0) ops (make 0 3) with Ok b => st b = [4; 5; 6] | _ => False end.
Proof. vm_compute. auto. Qed.

(** * C39: at() throws exactly for positions >= size() *)
Theorem C39_at : forall A (d : A) n (ops : list (op A)) m l b i,
  (Z.of_nat m < 2 ^ 63)%Z -> (0 <= i)%Z -> apply_all ops (n, []) = Some (m, l) ->
  run d (resize d) ops (make d n) = Ok b ->
  (at_ b i = Throw OutOfRange <-> (Z.of_nat (size b) <= i)%Z) /\
  ((i < Z.of_nat (size b))%Z -> at_ b i = Ok (nth (Z.to_nat i) l d)).
Proof.
  intros A d n ops m l b i Hm Hi Ha Hr.
  destruct (run_sim d (resize d) ops (good_change d) _ _ _ _ (R_make d n) Ha) as (b' & E & H).
  rewrite Hr in E. injection E as <-. cbn [fst snd] in H.
  rewrite (R_at _ _ _ _ H), (R_size _ _ _ H) by assumption.
  destruct (nth_error l (Z.to_nat i)) as [x|] eqn:E.
  - assert (Z.to_nat i < length l)%nat by (apply nth_error_Some; congruence).
    split; [split; [discriminate|lia]|]. intros _. f_equal. symmetry. apply nth_error_nth. assumption.
  - apply nth_error_None in E. split; [split; [lia|reflexivity]|lia].
Qed.
(** operator[] for size() <= i < capacity() yields a default-constructed element as long as
    nothing was popped.  Missing: histories with pop_back or pop_front, see the next theorem. *)
Theorem C39_unused_default_partial : forall A (d : A) n (ops : list (op A)) m l b i,
  (Z.of_nat m < 2 ^ 63)%Z -> forallb (fun o => negb (is_pop o)) ops = true ->
  apply_all ops (n, []) = Some (m, l) -> run d (resize d) ops (make d n) = Ok b ->
  (size b <= i < capacity b)%nat -> index b (Z.of_nat i) = Ok d.
Proof.
  intros A d n ops m l b i Hm Hp Ha Hr Hi.
  destruct (run_sim d (resize d) ops (good_change d) _ _ _ _ (R_make d n) Ha) as (b' & E & H).
  rewrite Hr in E. injection E as <-. cbn [fst snd] in H.
  rewrite (R_size _ _ _ H), (R_capacity _ _ _ H) in Hi.
  eapply U_index; try eassumption.
  exact (run_U d ops _ _ _ _ _ (R_make d n) (U_make d n) Hp Ha Hr).
Qed.
(** ... but pop_back and pop_front leave the old element behind. *)
Theorem C39_unused_default_refuted : exists b,
  run 0 (resize 0) [PushBack 7; PopBack] (make 0 2) = Ok b /\ size b = 0%nat /\ capacity b = 2%nat /\
  index b 0 = Ok 7.
Proof. eexists; split; [reflexivity|]. vm_compute. auto. Qed.
Example C39_example :
  match run 0 (resize 0) [PushBack 7; PushFront 8; Resize 5 keep_front_elements] (make 0 3) with
  | Ok b => at_ b 1 = Ok 7 /\ at_ b 2 = Throw OutOfRange /\ index b 4 = Ok 0
  | _ => False
  end.
Proof. vm_compute. auto. Qed.

(** * C40: iterators and operator<< visit the elements in order *)
Theorem C40_iteration : forall A (d : A) n (ops : list (op A)) m l b,
  (Z.of_nat m < 2 ^ 63)%Z -> apply_all ops (n, []) = Some (m, l) -> run d (resize d) ops (make d n) = Ok b ->
  traverse (size b) (it_deref b) it_inc (it_begin b) (it_end b) = Ok l /\
  traverse (size b) (rit_deref b) rit_inc (rit_begin b) (rit_end b) = Ok (rev l) /\
  it_diff (it_end b) (it_begin b) = Z.of_nat (size b) /\
  (forall i x, nth_error l i = Some x ->
     it_deref b (it_add (it_begin b) (Z.of_nat i)) = Ok x /\ it_at b (it_begin b) (Z.of_nat i) = Ok x /\
     forall p, it_at b (Z.of_nat p) (Z.of_nat i - Z.of_nat p) = Ok x) /\
  (forall show, print show b = Ok (concat (map (fun x => show x ++ !"  ") l) ++ [chr 10])).
Proof.
  intros A d n ops m l b Hm Ha Hr.
  destruct (run_sim d (resize d) ops (good_change d) _ _ _ _ (R_make d n) Ha) as (b' & E & H).
  rewrite Hr in E. injection E as <-. cbn [fst snd] in H.
  pose proof (R_bound _ _ _ H) as Hb. pose proof (R_size _ _ _ H) as Hs.
  unfold it_begin, it_end, rit_begin, rit_end, it_end, it_begin. rewrite Hs.
  split; [change 0%Z with (Z.of_nat 0); rewrite (traverse_fwd _ _ _ H Hm) by lia; reflexivity|].
  split; [rewrite (traverse_rev _ _ _ H Hm) by lia; rewrite firstn_all; reflexivity|].
  split; [unfold it_diff, to_diff; rewrite wrap_small by lia; destruct (Z.ltb_spec (Z.of_nat (length l) - 0) (2 ^ 63)); lia|].
  split; [|intros show; eapply R_print; eassumption].
  intros i x Ei. assert (i < length l)%nat by (apply nth_error_Some; congruence).
  assert (Ea : it_add 0 (Z.of_nat i) = Z.of_nat i) by (unfold it_add; rewrite wrap_small; lia).
  unfold it_at. rewrite Ea. unfold it_deref. rewrite (R_index _ _ _ _ _ H Hm Ei).
  split; [reflexivity|]. split; [reflexivity|]. intros p.
  replace (it_add (Z.of_nat p) (Z.of_nat i - Z.of_nat p)) with (Z.of_nat i)
    by (unfold it_add; rewrite wrap_small; lia).
  exact (R_index _ _ _ _ _ H Hm Ei).
Qed.
(** Iterator arithmetic on positions p, q of one buffer, for every distance that fits into
    std::ptrdiff_t *)
Theorem C40_arithmetic : forall p q : nat, (Z.of_nat p < 2 ^ 63)%Z -> (Z.of_nat q < 2 ^ 63)%Z ->
  let ip := Z.of_nat p in let iq := Z.of_nat q in
  it_add ip (it_diff iq ip) = iq /\ it_sub iq (it_diff iq ip) = ip /\ it_diff iq ip = (iq - ip)%Z /\
  it_inc ip = Z.of_nat (S p) /\ it_dec (it_inc ip) = ip /\
  (it_eq ip iq = true <-> p = q) /\ (it_lt ip iq = true <-> (p < q)%nat) /\
  (it_lt ip iq = true <-> (0 < it_diff iq ip)%Z).
Proof.
  intros p q Hp Hq ip iq. subst ip iq.
  assert (Hd : it_diff (Z.of_nat q) (Z.of_nat p) = (Z.of_nat q - Z.of_nat p)%Z).
  { unfold it_diff, to_diff, wrap. destruct (Z.leb_spec (Z.of_nat p) (Z.of_nat q)).
    - rewrite Z.mod_small by lia. destruct (Z.ltb_spec (Z.of_nat q - Z.of_nat p) (2 ^ 63)); lia.
    - replace (Z.of_nat q - Z.of_nat p)%Z with ((Z.of_nat q - Z.of_nat p + 2 ^ 64) + (-1) * 2 ^ 64)%Z by lia.
      rewrite Z.mod_add by lia. rewrite Z.mod_small by lia.
      destruct (Z.ltb_spec (Z.of_nat q - Z.of_nat p + 2 ^ 64) (2 ^ 63)); lia. }
  rewrite Hd. unfold it_add, it_sub, it_inc, it_dec, it_eq, it_lt.
  split; [rewrite wrap_small; lia|]. split; [rewrite wrap_small; lia|]. split; [reflexivity|].
  split; [rewrite wrap_small; lia|]. split; [rewrite (wrap_small (Z.of_nat p + 1)), wrap_small; lia|].
  rewrite Z.eqb_eq, Z.ltb_lt. lia.
Qed.
Example C40_example :
  match run 0 (resize 0) [PushBack 1; PushBack 2; PushBack 3; PushBack 4; PopBack] (make 0 3) with
  | Ok b => traverse 9 (it_deref b) it_inc (it_begin b) (it_end b) = Ok [2; 3] /\
            traverse 9 (rit_deref b) rit_inc (rit_begin b) (rit_end b) = Ok [3; 2]
  | _ => False
  end.
Proof. vm_compute. auto. Qed.

(** * C41: SlidingBufferExposed.  [mv x] is the value an element is left with when it is moved
    from; it is arbitrary. *)
(** The deque interface behaves as in SlidingBuffer, including resize ... *)
Theorem C41_deque : forall A (d : A) mv n (ops : list (op A)) m l,
  (Z.of_nat m < 2 ^ 63)%Z -> apply_all ops (n, []) = Some (m, l) ->
  exists b, run d (ex_resize d mv) ops (make d n) = Ok b /\ shows d b (m, l).
Proof.
  intros A d mv n ops m l Hm Ha.
  destruct (run_sim d (ex_resize d mv) ops (good_ex d mv) _ _ _ _ (R_make d n) Ha) as (b & E & H).
  exists b. split; [assumption|]. apply R_shows; assumption.
Qed.
(** ... and the range from begin() to end() always contains all elements. *)
Theorem C41_covers : forall A (d : A) mv n (ops : list (op A)) m l b,
  apply_all ops (n, []) = Some (m, l) -> run d (ex_resize d mv) ops (make d n) = Ok b ->
  (ex_begin b <= ex_end b)%nat /\ (ex_end b <= capacity b)%nat /\
  exists others, Permutation (ex_range b) (l ++ others).
Proof.
  intros A d mv n ops m l b Ha Hr.
  destruct (run_sim d (ex_resize d mv) ops (good_ex d mv) _ _ _ _ (R_make d n) Ha) as (b' & E & H).
  rewrite Hr in E. injection E as <-. cbn [fst snd] in H.
  split; [|split; [|eapply ex_covers; eassumption]];
    destruct H as (Hlen & Hl & Hib & Hie & Hf & Hc); unfold ex_begin, ex_end, capacity;
    destruct (full b); cbn [negb andb orb]; rewrite ?Hlen; try lia;
    unfold wi in Hie; bdall; cbn [negb andb orb]; try lia.
Qed.
(** It contains nothing else, in the order of the deque up to a rotation, if elements were only
    added at the back, or only at the front without enlarging a filled buffer. *)
Theorem C41_exact_partial : forall A (d : A) mv n (ops : list (op A)) m l b,
  apply_all ops (n, []) = Some (m, l) -> run d (ex_resize d mv) ops (make d n) = Ok b ->
  forallb is_back_op ops = true \/ front_history ops (n, []) ->
  exists k, (k <= length l)%nat /\ ex_range b = skipn k l ++ firstn k l.
Proof.
  intros A d mv n ops m l b Ha Hr Hh.
  destruct (run_sim d (ex_resize d mv) ops (good_ex d mv) _ _ _ _ (R_make d n) Ha) as (b' & E & H).
  rewrite Hr in E. injection E as <-. cbn [fst snd] in H.
  eapply ex_exact; [eassumption|]. destruct Hh as [Hh|Hh].
  - destruct (run_la d mv ops _ _ _ _ _ (R_make d n) (or_intror eq_refl) Hh Ha Hr); auto.
  - destruct (run_ra d mv ops _ _ _ _ _ (R_make d n) (or_intror eq_refl) Hh Ha Hr); auto.
Qed.
(** The documentation promises exactness whenever only push_front() (or only push_back()) is
    used to add elements.  Enlarging a filled buffer breaks this for push_front(): the range
    encloses elements that were never added. *)
Theorem C41_push_front_refuted : exists b,
  run 0 (ex_resize 0 id) [PushFront 1; PushFront 2; Resize 4 keep_front_elements; PushFront 3] (make 0 2) = Ok b /\
  size b = 3%nat /\ ex_range b = [2; 1; 0; 3].
Proof. eexists; split; [reflexivity|]. vm_compute. auto. Qed.
(** With pops, elements that are no longer stored are exposed, and begin() differs from end()
    although the buffer is empty. *)
Theorem C41_pop_refuted : exists b b2,
  run 0 (ex_resize 0 id) [PushBack 1; PushBack 2; PopFront] (make 0 4) = Ok b /\
  size b = 1%nat /\ ex_range b = [2; 0; 0] /\
  run 0 (ex_resize 0 id) [PushBack 1; PopFront] (make 0 4) = Ok b2 /\
  empty b2 = true /\ ex_begin b2 <> ex_end b2.
Proof. do 2 eexists. split; [reflexivity|]. vm_compute. repeat split; auto. discriminate. Qed.
Example C41_example :
  match run 0 (ex_resize 0 id) [PushFront 1; PushFront 2; Resize 5 keep_front_elements; PushFront 3] (make 0 4) with
  | Ok b => ex_range b = [3; 2; 1] /\ front_history [PushFront 1; PushFront 2; Resize 5 keep_front_elements; PushFront 3] (4%nat, [])
  | _ => False
  end /\
  match run 0 (ex_resize 0 id) [PushBack 1; PushBack 2; PushBack 3] (make 0 2) with
  | Ok b => ex_range b = [3; 2]
  | _ => False
  end.
Proof. vm_compute. repeat split; auto. Qed.

Print Assumptions C37_deque.
Print Assumptions C38_resize.
Print Assumptions C41_exact_partial.
