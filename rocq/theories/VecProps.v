(** * SmallVector: properties C42 to C45 and C61
    [d]: the default-constructed element; [mv x]: what is left of x after it was moved from;
    [nothrow_move], [copyable]: traits of the element type; [N]: inner capacity; [M]: max_size(),
    the largest value of the size type.  [start N k g] are k default-constructed vectors, with the
    (g+1)-th potentially throwing operation throwing (None: no exceptions). *)
From Verif Require Import Base VecModel VecProofs VecProofs2 VecProofs3 VecProofs4 VecProofs5 VecProofs6 VecProofs7 VecSpec VecProofs8 VecProofs9 VecProofs10 VecProofs11 VecProofs12 VecProofs13.
From Coq Require Import PeanoNat.

(** Vectors as they are after a sequence of calls that respects the preconditions *)
Definition after_calls {A} (d : A) mv nt cp N M k ops (s : state (A := A)) (w : world) : Prop :=
  exists rs, meanings d N M (fresh N k) ops = Some (w, rs) /\ execs d N M mv nt cp ops (start N k None) = Done _ s rs.
Lemma after_WF {A} (d : A) mv nt cp N M k ops s w : (N <= M)%nat -> after_calls d mv nt cp N M k ops s w ->
  WFc N M s w /\ bud s = None /\ length w = k.
Proof.
  intros HNM (rs & H1 & H2).
  pose proof (execs_ok d mv nt cp N M ops _ _ _ _ (start_WF N M k None HNM) eq_refl HNM H1) as H.
  unfold sat in H. rewrite H2 in H. destruct H as (_ & H & B). split; [exact H|]. split; [exact B|].
  rewrite (meanings_length d N M ops _ _ _ H1). apply repeat_length.
Qed.

(** ** C42 *)
(** Every sequence of calls whose preconditions are met runs without undefined behavior and
    without exceptions; the returned iterators, the elements and the capacities are the
    specified ones. *)
Theorem C42_sequence : forall A (d : A) mv nothrow copyable N M k ops w rs, (N <= M)%nat ->
  meanings d N M (fresh N k) ops = Some (w, rs) ->
  exists s, execs d N M mv nothrow copyable ops (start N k None) = Done _ s rs /\ view s = w.
Proof.
  intros A d mv nt cp N M k ops w rs HNM H.
  pose proof (execs_ok d mv nt cp N M ops _ _ _ _ (start_WF N M k None HNM) eq_refl HNM H) as H1. unfold sat in H1.
  destruct (execs d N M mv nt cp ops (start N k None)) as [s rs'| |]; try contradiction. destruct H1 as (-> & W & _).
  exists s. split; [reflexivity|]. eapply view_WF; exact W.
Qed.
(** What the access functions return in each such situation *)
Theorem C42_access : forall A (d : A) mv nothrow copyable N M k ops s w i l c, (N <= M)%nat ->
  after_calls d mv nothrow copyable N M k ops s w -> nth_error w i = Some (l, c) ->
  (exists v, nth_error (objs s) i = Some v /\ size v = length l /\ cap v = c) /\
  contents i s = Done _ s l /\
  (forall n, at_ i n s = match nth_error l n with Some x => Done _ s x | None => Thrown _ OutOfRange s end) /\
  (forall n x, nth_error l n = Some x -> index i n s = Done _ s x) /\
  (forall x l', l = x :: l' -> front i s = Done _ s x) /\
  (forall x l', l = l' ++ [x] -> back i s = Done _ s x).
Proof.
  intros A d mv nt cp N M k ops s w i l c HNM HA Hi. destruct (after_WF _ _ _ _ _ _ _ _ _ _ HNM HA) as (W & _).
  destruct (WFc_own N M s w i l c W Hi) as (v & O & Hc).
  split; [exists v; split; [apply O|split; [apply O|exact Hc]]|].
  split; [eapply contents_ok; exact O|]. split; [intros n; eapply at_ok; exact O|].
  split; [|split].
  - intros n x Hn. rewrite (index_ok N M s i v l n O), Hn. reflexivity.
  - intros x l' ->. unfold front. rewrite (index_ok N M s i v _ 0%nat O). reflexivity.
  - intros x l' ->. eapply back_ok; exact O.
Qed.
(** operator== *)
Theorem C42_equal : forall A (d : A) mv nothrow copyable N M k ops s w i j li ci lj cj (eqb : A -> A -> bool), (N <= M)%nat ->
  after_calls d mv nothrow copyable N M k ops s w -> nth_error w i = Some (li, ci) -> nth_error w j = Some (lj, cj) ->
  (forall x y, eqb x y = true <-> x = y) ->
  exists b, equal eqb i j s = Done _ s b /\ (b = true <-> li = lj).
Proof.
  intros A d mv nt cp N M k ops s w i j li ci lj cj eqb HNM HA Hi Hj He. destruct (after_WF _ _ _ _ _ _ _ _ _ _ HNM HA) as (W & _).
  destruct (WFc_own N M s w i li ci W Hi) as (vi & Oi & _). destruct (WFc_own N M s w j lj cj W Hj) as (vj & Oj & _).
  eexists. split; [eapply equal_ok; [exact Oi|exact Oj]|]. apply eq_lists; try exact d; try exact mv; exact He.
Qed.
Definition demo : list (vop nat) :=
  [PushBack 0 false 1; PushBack 0 true 2; PushBack 0 false 3; Insert 0 1 false 9; InsertN 0 4 2 7; InsertRange 0 2 [5; 6]; Erase 0 0 1;
   CopyAssign 1 0; Resize 1 3; Write 1 2 8; Swap 0 1; ShrinkToFit 0; NewMove 2 1; PopBack 2].
Definition demo_world : world := [([9; 5; 8], 3); ([], 2); ([9; 5; 6; 2; 3; 7], 8)]%nat.
Definition demo_state (nt : bool) : state (A := nat) :=
  match execs 0%nat 2 100 (fun _ => 0%nat) nt true demo (start 2 3 None) with Done _ s _ => s | _ => start 2 3 None end.
Lemma demo_ok nt : after_calls 0%nat (fun _ => 0%nat) nt true 2 100 3 demo (demo_state nt) demo_world.
Proof. exists [0; 0; 0; 1; 4; 2; 0; 0; 0; 0; 0; 0; 0; 0]%nat. split; destruct nt; vm_compute; reflexivity. Qed.
Example C42_example :
  meanings 0%nat 2 100 (fresh 2 3) demo = Some ([([9; 5; 8], 3); ([], 2); ([9; 5; 6; 2; 3; 7], 8)], [0; 0; 0; 1; 4; 2; 0; 0; 0; 0; 0; 0; 0; 0])%nat /\
  match execs 0%nat 2 100 (fun _ => 0%nat) true true demo (start 2 3 None) with Done _ s _ => contents 2 s = Done _ s [9; 5; 6; 2; 3; 7]%nat | _ => False end.
Proof. vm_compute. auto. Qed.
(** Arguments that are references into the vector itself are not supported: if the memory has to
    be reallocated, push_back(v[0]) reads a destroyed element, and insert(begin, v[1]) inserts
    the element that was moved to this place. *)
Theorem C42_self_reference_finding :
  execs 0%nat 2 100 id true true [PushBack 0 false 1%nat; PushBack 0 false 2%nat] (start 2 1 None) =
    Done _ (State [Some [Live 1; Live 2]] [Vec 0 2 2] None)%nat [0; 0]%nat /\
  push_back id true true 100 0 false (Ref (0, 0)%nat) (State [Some [Live 1; Live 2]] [Vec 0 2 2] None)%nat = Undef _ /\
  (match insert_single id true true 100 0 0 false (Ref (0, 1)%nat) (State [Some [Live 1; Live 2; Raw; Raw]] [Vec 0 4 2] None)%nat with
   | Done _ s _ => contents 0 s = Done _ s [1; 1; 2]%nat
   | _ => False
   end).
Proof. vm_compute. auto. Qed.

(** ** C43 *)
(** Reading, assigning or destroying a cell without an element, constructing an element over
    another one, access to freed memory or outside of a block, and freeing a block with live
    elements or twice are all undefined behavior in the model; none of this happens (C42_sequence).
    The only elements alive are those of the vectors, there is one heap block for each vector
    larger than the inner capacity, and nothing is left after destruction. *)
Theorem C43_lifetimes : forall A (d : A) mv nothrow copyable N M k ops s w, (N <= M)%nat ->
  after_calls d mv nothrow copyable N M k ops s w ->
  live s = list_sum (map (fun x => length (fst x)) w) /\
  heap_blocks s = length (filter (fun x => Nat.ltb N (snd x)) w) /\
  exists s', destroy_all k s = Done _ s' tt /\ live s' = 0%nat /\ heap_blocks s' = 0%nat.
Proof.
  intros A d mv nt cp N M k ops s w HNM HA. destruct (after_WF _ _ _ _ _ _ _ _ _ _ HNM HA) as (W & B & HL).
  split; [eapply live_WF; try exact d; try exact mv; try exact true; exact W|]. split.
  - erewrite heap_WF; try exact d; try exact mv; try exact true; [|exact W]. clear. induction w as [|x w IH]; [reflexivity|]. cbn [map filter].
    unfold list_sum in *. cbn [fold_right]. destruct (Nat.ltb N (snd x)); cbn [length]; lia.
  - rewrite <- HL. eapply destroy_all_clean; exact W.
Qed.
(** The same for sequences that are cut short by violated preconditions is not claimed: popping
    from an empty vector is undefined. *)
Theorem C43_no_undefined_behavior : forall A (d : A) mv nothrow copyable N M k ops w rs, (N <= M)%nat ->
  meanings d N M (fresh N k) ops = Some (w, rs) -> execs d N M mv nothrow copyable ops (start N k None) <> Undef _.
Proof. intros A d mv nt cp N M k ops w rs HNM H. destruct (C42_sequence A d mv nt cp N M k ops w rs HNM H) as (s & E & _). rewrite E. discriminate. Qed.
Example C43_example : exists s w, after_calls 0%nat (fun _ => 0%nat) false true 2 100 3 demo s w /\ live s = 9%nat /\ heap_blocks s = 2%nat /\
  pop_back 1 s = Undef _.
Proof. exists (demo_state false), demo_world. split; [apply demo_ok|]. vm_compute. auto. Qed.

(** ** C44 *)
Theorem C44_bounds : forall A (d : A) mv nothrow copyable N M k ops s w i l c, (N <= M)%nat ->
  after_calls d mv nothrow copyable N M k ops s w -> nth_error w i = Some (l, c) ->
  (length l <= c /\ N <= c /\ c <= M)%nat /\
  exists v, nth_error (objs s) i = Some v /\ (if Nat.ltb N c then (k <= data v)%nat else data v = i).
Proof.
  intros A d mv nt cp N M k ops s w i l c HNM HA Hi. destruct (after_WF _ _ _ _ _ _ _ _ _ _ HNM HA) as (W & B & HL).
  destruct (WFc_own N M s w i l c W Hi) as (v & O & <-). pose proof (proj1 (proj1 W)) as Lo. rewrite map_length in Lo.
  destruct O as (Ho & Hs & Hl & Hm & Hk & Hb & [[D C]|(D & C & _)]).
  - split; [lia|]. exists v. split; [exact Ho|]. rewrite C, Nat.ltb_irrefl. exact D.
  - split; [lia|]. exists v. split; [exact Ho|]. destruct (Nat.ltb_spec N (cap v)); lia.
Qed.
(** Only a call that changes the capacity of a vector gives it a different buffer, and no call
    (other than swap and move) does anything to the buffers of other vectors. *)
Theorem C44_stable : forall A (d : A) mv nothrow copyable N M k ops s w op w' r s', (N <= M)%nat ->
  after_calls d mv nothrow copyable N M k ops s w -> meaning d N M w op = Some (w', r) ->
  match op with Swap _ _ | MoveAssign _ _ | NewMove _ _ => False | _ => True end ->
  exec d N M mv nothrow copyable op s = Done _ s' r ->
  forall j v v', nth_error (objs s) j = Some v -> nth_error (objs s') j = Some v' ->
  (j <> target op -> data v' = data v) /\ (in_place op = true -> cap v' = cap v -> data v' = data v).
Proof.
  intros A d mv nt cp N M k ops s w op w' r s' HNM HA Hm Hop He j v v' Hv Hv'.
  destruct (after_WF _ _ _ _ _ _ _ _ _ _ HNM HA) as (W & B & _).
  assert (H : sat (exec d N M mv nt cp op) s (done1 N M (in_place op) (target op) s w' r) (fun _ _ => False)).
  { destruct op; try contradiction Hop; eapply exec_single; eauto; reflexivity. }
  unfold sat in H. rewrite He in H. destruct H as (_ & _ & _ & HK & HS).
  split; [intros Hj; exact (HK j Hj v v' Hv Hv')|]. intros Hi Hc. destruct (Nat.eq_dec j (target op)) as [->|Hj].
  - exact (HS Hi v v' Hv Hv' Hc).
  - exact (HK j Hj v v' Hv Hv').
Qed.
(** Calls other than shrink_to_fit keep the capacity if the result fits, and never reduce it. *)
Theorem C44_no_needless_growth : forall A (d : A) N M w op w' r i l c l' c', (c <= M)%nat -> (length l <= c)%nat ->
  meaning d N M w op = Some (w', r) -> target op = i -> in_place op = true ->
  match op with Swap _ _ | MoveAssign _ _ | ShrinkToFit _ | Reserve _ _ => False | _ => True end ->
  nth_error w i = Some (l, c) -> nth_error w' i = Some (l', c') ->
  (c <= c')%nat /\ ((length l' <= c)%nat -> c' = c).
Proof.
  intros A d N M w op w' r i l c l' c' HM Hlc Hm Ht Hip Hop Hi Hi'.
  assert (Hput : forall x, put w i x = set_nth w i x) by (intros x; eapply put_set; exact Hi).
  assert (Hn : forall x, nth_error (set_nth w i x) i = Some x).
  { intros x. rewrite nth_set_nth, Nat.eqb_refl. cbn [andb]. destruct (Nat.ltb_spec i (length w)) as [L|L]; [reflexivity|].
    apply nth_error_None in L. congruence. }
  assert (Hon : forall f, on w i f = Some (w', r) -> exists r', f l c = Some (l', c', r')).
  { intros f Hf. unfold on in Hf. rewrite Hi in Hf. destruct (f l c) as [[[a b] r']|]; [|discriminate Hf]. injection Hf as <- _.
    rewrite Hput, Hn in Hi'. injection Hi' as -> ->. eauto. }
  assert (Hmore : forall l0 : list A, (length l < M)%nat -> (c <= room1 M l c)%nat /\ ((length l + 1 <= c)%nat -> room1 M l c = c)).
  { intros _ H. unfold room1, more. destruct (Nat.eqb_spec (length l) c); split; try lia. }
  destruct op; cbn [target in_place] in *; try discriminate Hip; try contradiction Hop; subst i; cbn [meaning] in Hm.
  all: try (apply Hon in Hm; destruct Hm as (r' & Hm); unfold check in Hm).
  all: try (match type of Hm with (if ?b then _ else _) = _ => destruct b eqn:Hb; [|discriminate Hm] end).
  all: try (injection Hm as <- <- _).
  all: rewrite ?andb_true_iff, ?Nat.ltb_lt, ?Nat.leb_le in *.
  all: rewrite ?app_length, ?firstn_length, ?skipn_length, ?repeat_length; cbn [length].
  all: try lia.
  - destruct (Hmore l Hb). split; [assumption|]. auto.
  - destruct Hb as [H1 H2]. destruct (Hmore l H2) as [H3 H4]. split; [assumption|]. intros. apply H4. rewrite skipn_length in *. lia.
  - destruct Hb as [H1 H2]. destruct (Hmore l H2) as [H3 H4]. split; [assumption|]. intros. apply H4. rewrite skipn_length in *. lia.
  - destruct (nth_error w j) as [[xs cj]|]; [|discriminate Hm]. destruct (Nat.eqb_spec i0 j).
    + injection Hm as <- _. rewrite Hi in Hi'. injection Hi' as <- <-. auto.
    + apply Hon in Hm. destruct Hm as (r' & Hm). injection Hm as <- <- _. lia.
Qed.
(** reserve and shrink_to_fit *)
Theorem C44_reserve : forall A (d : A) N M w i l c n, nth_error w i = Some (l, c) -> (n <= M)%nat ->
  meaning d N M w (Reserve i n) = Some (put w i (l, Nat.max c n), 0%nat) /\
  meaning d N M w (ShrinkToFit i) = Some (put w i (l, Nat.max N (length l)), 0%nat).
Proof.
  intros A d N M w i l c n Hi Hn. cbn [meaning]. unfold on. rewrite Hi. unfold check.
  rewrite (proj2 (Nat.leb_le n M) Hn). auto.
Qed.
(** A full vector with max_size() elements throws length_error and is not changed. *)
Theorem C44_length_error : forall A (d : A) mv nothrow copyable N M k ops s w i l c m x, (N <= M)%nat ->
  after_calls d mv nothrow copyable N M k ops s w -> nth_error w i = Some (l, c) -> length l = M ->
  exec d N M mv nothrow copyable (PushBack i m x) s = Thrown _ LengthError s.
Proof.
  intros A d mv nt cp N M k ops s w i l c m x HNM HA Hi HL. destruct (after_WF _ _ _ _ _ _ _ _ _ _ HNM HA) as (W & B & _).
  destruct (WFc_own N M s w i l c W Hi) as (v & O & _). cbn [exec]. unfold bindc.
  rewrite (push_back_full mv nt cp N M s i v l m x O HL). reflexivity.
Qed.
(** Growth is geometric, so that appending n elements one by one to an empty vector moves no
    more than 8 n elements to new buffers.  [moved n l c]: elements moved while n elements are
    appended to a vector with l elements and capacity c *)
Fixpoint moved (M n l c : nat) : nat :=
  match n with
  | O => 0%nat
  | S n' => if Nat.eqb l c then (l + moved M n' (S l) (more M c))%nat else moved M n' (S l) c
  end.
Lemma room1_more {A} M (l : list A) c : room1 M l c = if Nat.eqb (length l) c then more M c else c.
Proof. reflexivity. Qed.
Theorem C44_amortized : forall M N n, (n <= M)%nat -> (moved M n 0 N <= 8 * n)%nat.
Proof.
  intros M N n Hn.
  assert (G : forall n l c T, (l <= c)%nat -> (l + n <= M)%nat ->
    (T = 0%nat \/ ((c < M)%nat /\ (T <= 3 * c)%nat /\ (c <= 2 * l)%nat) \/ (c = M /\ (T <= 4 * c)%nat /\ (c <= 2 * l)%nat)) ->
    (T + moved M n l c <= 8 * (l + n))%nat).
  { clear n Hn. intros n. induction n as [|n IH]; intros l c T Hlc Hn HT; cbn [moved]; [lia|].
    destruct (Nat.eqb_spec l c) as [E|E].
    - subst c.
      assert (HM : more M l = M \/ (more M l = (l + Nat.max 1 (l / 2))%nat /\ (more M l < M)%nat)) by (unfold more; lia).
      assert (Hd : (l / 2 * 2 <= l /\ l < l / 2 * 2 + 2)%nat) by (pose proof (Nat.div_mod_eq l 2); pose proof (Nat.mod_upper_bound l 2 ltac:(lia)); lia).
      assert (Hup : (more M l <= 2 * S l)%nat) by (unfold more; lia).
      assert (Hlo : (S l <= more M l)%nat) by (unfold more; lia).
      set (c' := more M l) in *. clearbody c'.
      rewrite Nat.add_assoc. replace (8 * (l + S n))%nat with (8 * (S l + n))%nat by lia. apply IH; [lia|lia|].
      destruct HM as [E|[E1 E2]].
      + right. right. split; [assumption|]. split; [|lia].
        destruct HT as [->|[(H1 & H2 & H3)|(H1 & H2 & H3)]]; lia.
      + right. left. split; [assumption|]. split; [|lia].
        destruct HT as [->|[(H1 & H2 & H3)|(H1 & H2 & H3)]]; lia.
    - replace (8 * (l + S n))%nat with (8 * (S l + n))%nat by lia. apply IH; [lia|lia|]. lia. }
  specialize (G n 0%nat N 0%nat ltac:(lia) ltac:(lia) (or_introl eq_refl)). lia.
Qed.
(** insert(pos, n, value) computes the new size modulo 2^32 without a check: for M + 1 elements
    no memory is reserved, and the elements are written behind the buffer. *)
Theorem C44_wrap_finding :
  insert_value id true true 3 0 0 3 (Val 7%nat) (State [Some [Live 5]] [Vec 0 1 1] None)%nat = Undef _ /\
  exists s, execs 0%nat 1 3 id true true [PushBack 0 false 5%nat] (start 1 1 None) = Done _ s [0%nat] /\
            s = (State [Some [Live 5]] [Vec 0 1 1] None)%nat.
Proof. split; [vm_compute; reflexivity|]. exists (State [Some [Live 5]] [Vec 0 1 1] None)%nat. vm_compute. auto. Qed.
Example C44_example : exists s w, after_calls 0%nat (fun _ => 0%nat) true true 2 100 3 demo s w /\
  nth_error w 0 = Some ([9; 5; 8]%nat, 3%nat) /\ nth_error w 1 = Some ([], 2%nat) /\ moved 100 50 0 2 = 126%nat.
Proof. exists (demo_state true), demo_world. split; [apply demo_ok|]. vm_compute. auto. Qed.

(** ** C45 *)
(** swap of two vectors: contents and capacities are exchanged, heap buffers change their owner;
    move assignment and move construction hand the contents (and the heap buffer, if there is
    one) over and leave an empty vector with the inner capacity.  All other vectors are left
    alone. *)
Definition hand_over {A} N (s s' : state (A := A)) (a b : nat) : Prop :=
  forall va vb, nth_error (objs s) a = Some va -> nth_error (objs s') b = Some vb -> (N < cap va)%nat -> data vb = data va.
Theorem C45_swap : forall A (d : A) mv nothrow copyable N M k ops s w i j a b, (N <= M)%nat ->
  after_calls d mv nothrow copyable N M k ops s w -> i <> j -> nth_error w i = Some a -> nth_error w j = Some b ->
  exists s', exec d N M mv nothrow copyable (Swap i j) s = Done _ s' 0%nat /\
    nth_error (view s') i = Some b /\ nth_error (view s') j = Some a /\
    (forall n, n <> i -> n <> j -> nth_error (view s') n = nth_error w n) /\
    hand_over N s s' i j /\ hand_over N s s' j i.
Proof.
  intros A d mv nt cp N M k ops s w i j a b HNM HA Hij Hi Hj. destruct (after_WF _ _ _ _ _ _ _ _ _ _ HNM HA) as (W & B & _).
  assert (Hm : meaning d N M w (Swap i j) = Some (put (put w i b) j a, 0%nat)) by (cbn [meaning]; rewrite Hi, Hj; reflexivity).
  pose proof (exec_swap d mv nt cp N M s w _ i j 0 W B HNM Hij Hm) as H. unfold sat in H.
  destruct (exec d N M mv nt cp (Swap i j) s) as [s' r| |]; try contradiction. destruct H as ((-> & W' & B' & G1 & _) & G2).
  exists s'. split; [reflexivity|]. rewrite (view_WF N M s' _ W'). rewrite (put2 w i j a b b a Hi Hj).
  assert (Li : (i < length w)%nat) by (apply nth_error_Some; congruence). assert (Lj : (j < length w)%nat) by (apply nth_error_Some; congruence).
  repeat rewrite nth_set_nth. rewrite !len_set_nth, !Nat.eqb_refl.
  destruct (Nat.eqb_spec j i); [congruence|]. destruct (Nat.ltb_spec i (length w)); [|lia]. destruct (Nat.ltb_spec j (length w)); [|lia].
  cbn [andb]. split; [reflexivity|]. split; [reflexivity|].
  split; [|split; assumption]. intros x Hx1 Hx2. rewrite !nth_set_nth. destruct (Nat.eqb_spec j x); [congruence|]. destruct (Nat.eqb_spec i x); [congruence|]. reflexivity.
Qed.
Theorem C45_move : forall A (d : A) mv nothrow copyable N M k ops s w i j a b op, (N <= M)%nat ->
  after_calls d mv nothrow copyable N M k ops s w -> i <> j -> nth_error w i = Some a -> nth_error w j = Some b ->
  op = MoveAssign i j \/ op = NewMove i j ->
  exists s', exec d N M mv nothrow copyable op s = Done _ s' 0%nat /\
    nth_error (view s') i = Some b /\ nth_error (view s') j = Some ([], N) /\
    (forall n, n <> i -> n <> j -> nth_error (view s') n = nth_error w n) /\ hand_over N s s' j i.
Proof.
  intros A d mv nt cp N M k ops s w i j a b op HNM HA Hij Hi Hj Hop. destruct (after_WF _ _ _ _ _ _ _ _ _ _ HNM HA) as (W & B & _).
  assert (Hm : meaning d N M w op = Some (put (put w i b) j ([], N), 0%nat)).
  { destruct Hop as [-> | ->]; cbn [meaning]; rewrite Hi, Hj; destruct (Nat.eqb_spec i j); congruence. }
  assert (H : sat (exec d N M mv nt cp op) s (done2 N M i j s (put (put w i b) j ([], N))) (fun _ _ => False)).
  { destruct Hop as [-> | ->]; [eapply exec_move_assign; eauto|eapply exec_new_move; eauto]. }
  unfold sat in H. destruct (exec d N M mv nt cp op s) as [s' r| |]; try contradiction. destruct H as (-> & W' & B' & G1 & _).
  exists s'. split; [reflexivity|]. rewrite (view_WF N M s' _ W'). rewrite (put2 w i j a b b _ Hi Hj).
  assert (Li : (i < length w)%nat) by (apply nth_error_Some; congruence). assert (Lj : (j < length w)%nat) by (apply nth_error_Some; congruence).
  repeat rewrite nth_set_nth. rewrite !len_set_nth, !Nat.eqb_refl.
  destruct (Nat.eqb_spec j i); [congruence|]. destruct (Nat.ltb_spec i (length w)); [|lia]. destruct (Nat.ltb_spec j (length w)); [|lia].
  cbn [andb]. split; [reflexivity|]. split; [reflexivity|].
  split; [|assumption]. intros x Hx1 Hx2. rewrite !nth_set_nth. destruct (Nat.eqb_spec j x); [congruence|]. destruct (Nat.eqb_spec i x); [congruence|]. reflexivity.
Qed.
Theorem C45_self : forall A (d : A) mv nothrow copyable N M k ops s w i a op, (N <= M)%nat ->
  after_calls d mv nothrow copyable N M k ops s w -> nth_error w i = Some a -> op = Swap i i \/ op = MoveAssign i i ->
  exec d N M mv nothrow copyable op s = Done _ s 0%nat.
Proof.
  intros A d mv nt cp N M k ops s w i [l c] op HNM HA Hi Hop. destruct (after_WF _ _ _ _ _ _ _ _ _ _ HNM HA) as (W & B & _).
  destruct (WFc_own N M s w i l c W Hi) as (v & O & _).
  destruct Hop as [-> | ->]; cbn [exec]; unfold bindc.
  - rewrite (swap_self mv nt cp N M s i v l O B). reflexivity.
  - unfold assign_move. rewrite Nat.eqb_refl. reflexivity.
Qed.
Example C45_example : exists s w, after_calls 0%nat (fun _ => 0%nat) true true 2 100 3 demo s w /\
  nth_error w 0 = Some ([9; 5; 8]%nat, 3%nat) /\ nth_error w 2 = Some ([9; 5; 6; 2; 3; 7]%nat, 8%nat) /\
  match exec 0%nat 2 100 (fun _ => 0%nat) true true (Swap 0 1) s with
  | Done _ s' _ => view s' = [([], 2); ([9; 5; 8], 3); ([9; 5; 6; 2; 3; 7], 8)]%nat
  | _ => False
  end.
Proof. exists (demo_state true), demo_world. split; [apply demo_ok|]. vm_compute. auto. Qed.

(** ** C61 *)
(** One call, made while an element operation or the allocation may throw at any point: either
    it has its specified effect or it throws, with the guarantee listed in VecSpec.v.  In both
    cases the vectors are as consistent as after a sequence of calls without exceptions. *)
Theorem C61_guarantee_partial : forall A (d : A) mv nothrow copyable N M k ops s w g b op w' r, (N <= M)%nat ->
  after_calls d mv nothrow copyable N M k ops s w -> guaranteed nothrow op = Some g -> meaning d N M w op = Some (w', r) ->
  match exec d N M mv nothrow copyable op (with_bud b s) with
  | Done _ s' r' => r' = r /\ view s' = w'
  | Thrown _ e s' => e = UserException /\ b <> None /\ after_throw N nothrow copyable g (target op) w (view s') /\
      live s' = list_sum (map (fun x => length (fst x)) (view s'))
  | Undef _ => False
  end.
Proof.
  intros A d mv nt cp N M k ops s w g b op w' r HNM HA HG Hm. destruct (after_WF _ _ _ _ _ _ _ _ _ _ HNM HA) as (W & B & _).
  pose proof (exec_any d mv nt cp N M (with_bud b s) w w' op g r (WFc_bud N M s w b W) HNM HG Hm) as H.
  unfold outcome1, sat in H. destruct (exec d N M mv nt cp op (with_bud b s)) as [s' r'|e s'|].
  - destruct H as [-> W']. split; [reflexivity|]. eapply view_WF; exact W'.
  - destruct H as (He & Hb & w2 & W2 & HT). split; [exact He|]. split; [exact Hb|].
    rewrite (view_WF N M s' w2 W2). split; [exact HT|]. eapply live_WF; try exact d; try exact mv; try exact true; exact W2.
  - exact H.
Qed.
(** Histories of such calls in which exceptions are caught and the vectors are used again: no
    undefined behavior, and nothing is left after destruction. *)
Theorem C61_histories_partial : forall A (d : A) mv nothrow copyable N M k g ops, (N <= M)%nat ->
  (forall op, In op ops -> guaranteed nothrow op <> None) ->
  exists s s', attempts d N M mv nothrow copyable ops (start N k g) = Some s /\
    live s = list_sum (map (fun x => length (fst x)) (view s)) /\
    destroy_all k s = Done _ s' tt /\ live s' = 0%nat /\ heap_blocks s' = 0%nat.
Proof.
  intros A d mv nt cp N M k g ops HNM HG.
  destruct (attempts_ok d mv nt cp N M ops _ _ (start_WF N M k g HNM) HNM HG) as (s & w & E & W & HL).
  unfold fresh in HL. rewrite repeat_length in HL. destruct (destroy_all_clean N M s w W) as (s' & E2 & L & Hh).
  exists s, s'. split; [exact E|]. split; [rewrite (view_WF N M s w W); eapply live_WF; try exact d; try exact mv; try exact true; exact W|].
  rewrite <- HL. auto.
Qed.
(** The noexcept functions do not throw if element moves do not, and they do not depend on the
    exceptions of other operations. *)
Theorem C61_noexcept : forall A (d : A) mv copyable N M k ops s w b op w' r, (N <= M)%nat ->
  after_calls d mv true copyable N M k ops s w -> meaning d N M w op = Some (w', r) ->
  match op with PopBack _ | Clear _ | Erase _ _ _ | Swap _ _ | MoveAssign _ _ | NewMove _ _ | NewDefault _ => True | _ => False end ->
  exists s', exec d N M mv true copyable op (with_bud b s) = Done _ s' r /\ view s' = w'.
Proof.
  intros A d mv cp N M k ops s w b op w' r HNM HA Hm Hop. destruct (after_WF _ _ _ _ _ _ _ _ _ _ HNM HA) as (W & B & _).
  assert (HG : guaranteed true op = Some NoThrow) by (destruct op; try contradiction Hop; reflexivity).
  destruct (exec_nothrow d mv true cp N M (with_bud b s) w w' op r (WFc_bud N M s w b W) HNM HG Hm) as (s' & E & W' & _).
  exists s'. split; [exact E|]. eapply view_WF; exact W'.
Qed.
(** Every call, including those listed without a guarantee in VecSpec.v: wherever an exception is
    thrown, the call has no undefined behavior; it returns only with its specified effect, and it
    throws only what the elements or the allocator have thrown. *)
Theorem C61_every_call : forall A (d : A) mv nothrow copyable N M k ops s w b op w' r, (N <= M)%nat ->
  after_calls d mv nothrow copyable N M k ops s w -> meaning d N M w op = Some (w', r) ->
  match exec d N M mv nothrow copyable op (with_bud b s) with
  | Done _ s' r' => r' = r /\ view s' = w'
  | Thrown _ e _ => e = UserException /\ b <> None
  | Undef _ => False
  end.
Proof.
  intros A d mv nt cp N M k ops s w b op w' r HNM HA Hm. destruct (after_WF _ _ _ _ _ _ _ _ _ _ HNM HA) as (W & B & _).
  pose proof (exec_safe d mv nt cp N M s w w' op r b W HNM Hm) as H.
  destruct (exec d N M mv nt cp op (with_bud b s)) as [s' r'|e s'|]; [|exact H|exact H].
  destruct H as [-> W']. split; [reflexivity|]. eapply view_WF; exact W'.
Qed.
(** Other functions are not safe: if the second copy throws, insert(pos, n, value) and
    resize(n, value) leave an element behind the end that is never destroyed ... *)
Theorem C61_leak_refuted :
  match exec 0%nat 4 100 id true true (InsertN 0 0 2 7%nat) (start 4 1 (Some 1%nat)) with
  | Thrown _ UserException s => view s = [([], 4%nat)] /\ live s = 1%nat
  | _ => False
  end /\
  match exec 0%nat 4 100 id true true (ResizeWith 0 2 7%nat) (start 4 1 (Some 1%nat)) with
  | Thrown _ UserException s => view s = [([], 4%nat)] /\ live s = 1%nat
  | _ => False
  end.
Proof. vm_compute. auto. Qed.
(** ... and so do assign(n, value), insert(pos, range) if elements behind pos have been moved, and
    insert(pos, value) if moving an element throws; the elements in question are live in the memory
    behind the end of the vector.  The vector started as {1, 2, 3} with room for 8 elements. *)
Definition one_two_three (g : nat) : state := State [Some [Live 1; Live 2; Live 3; Raw; Raw; Raw; Raw; Raw]]%nat [Vec 0 8 3]%nat (Some g).
Definition left_behind (nothrow : bool) (op : vop nat) (g : nat) : Prop :=
  match exec 0%nat 8 100 (fun _ => 0%nat) nothrow true op (one_two_three g) with
  | Thrown _ UserException s => (list_sum (map (fun x => length (fst x)) (view s)) < live s)%nat
  | _ => False
  end.
Theorem C61_more_leaks_refuted :
  left_behind true (AssignN 0 2 7%nat) 1 /\ left_behind true (InsertRange 0 1 [5; 6]%nat) 0 /\
  left_behind false (Insert 0 0 true 7%nat) 1 /\ left_behind false (Insert 0 0 false 7%nat) 1 /\ left_behind false (Emplace 0 0 7%nat) 2.
Proof. unfold left_behind. vm_compute. repeat split; repeat constructor. Qed.
(** Copy construction and copy assignment are declared noexcept if copying an element is; but if
    there are more than N elements and the allocation, which is the first operation, throws, then the
    exception leaves them: the program is terminated. *)
Theorem C61_copy_noexcept_finding :
  match exec 0%nat 2 100 id true true (AssignRange 0 [1; 2; 3]%nat) (start 2 2 None) with
  | Done _ s _ =>
      (exists s', exec 0%nat 2 100 id true true (NewCopy 1 0) (with_bud (Some 0%nat) s) = Thrown _ UserException s' /\ live s' = live s) /\
      (exists s', exec 0%nat 2 100 id true true (CopyAssign 1 0) (with_bud (Some 0%nat) s) = Thrown _ UserException s' /\ live s' = live s)
  | _ => False
  end.
Proof. vm_compute. split; eexists; split; reflexivity. Qed.
(** ... and a constructor that has allocated heap memory does not free it when a copy throws. *)
Theorem C61_constructor_refuted :
  match ctor_range id true true 1 100 0 [5; 6; 7]%nat (start 1 1 (Some 2%nat)) with
  | Thrown _ UserException s => heap_blocks s = 1%nat
  | _ => False
  end.
Proof. vm_compute. auto. Qed.
(** insert(pos, value) of an lvalue with elements whose moves do not throw: if the assignment
    throws, a moved-from element is left at the position *)
Example C61_insert_example : guaranteed true (Insert 0 1 false 7%nat) = Some (Hole 1) /\
  match exec 0%nat 8 100 (fun _ => 0%nat) true true (Insert 0 1 false 7%nat) (one_two_three 0) with
  | Thrown _ UserException s => view s = [([1; 0; 2; 3], 8)]%nat
  | _ => False
  end.
Proof. vm_compute. auto. Qed.
(** swap of {1, 2} and {3} whose elements' moves throw: the fourth move, by which the second
    element would get into the other vector, is a copy, which throws; the elements before have been
    swapped.  If the second move throws instead, the value 1 is lost.  A move assignment that
    throws leaves the target empty and the source as it was. *)
Definition two_vectors (g : nat) : state := State [Some [Live 1; Live 2; Raw]; Some [Live 3; Raw; Raw]]%nat [Vec 0 3 2; Vec 1 3 1]%nat (Some g).
Example C61_swap_example : guaranteed false (Swap (A := nat) 0 1) = Some (Mixed 1) /\ guaranteed false (MoveAssign (A := nat) 0 1) = Some (NotTaken 1) /\
  match exec 0%nat 3 100 (fun _ => 0%nat) false true (Swap 0 1) (two_vectors 3) with
  | Thrown _ UserException s => view s = [([3; 2], 3); ([1], 3)]%nat
  | _ => False
  end /\
  match exec 0%nat 3 100 (fun _ => 0%nat) false true (Swap 0 1) (two_vectors 1) with
  | Thrown _ UserException s => view s = [([0; 2], 3); ([3], 3)]%nat
  | _ => False
  end /\
  match exec 0%nat 3 100 (fun _ => 0%nat) false true (MoveAssign 1 0) (two_vectors 1) with
  | Thrown _ UserException s => view s = [([1; 2], 3); ([], 3)]%nat
  | _ => False
  end.
Proof. vm_compute. auto. Qed.
Example C61_example :
  (forall op, In op [PushBack 0 false 1%nat; PushBack 0 false 2%nat; PushBack 0 false 3%nat; CopyAssign 1 0; Swap 0 1; Erase 0 0 1] -> guaranteed true op <> None) /\
  match attempts 0%nat 2 100 id true true [PushBack 0 false 1%nat; PushBack 0 false 2%nat; PushBack 0 false 3%nat; CopyAssign 1 0; Swap 0 1; Erase 0 0 1] (start 2 2 (Some 5%nat)) with
  | Some s => view s = [([], 3); ([1; 2; 3], 3)]%nat
  | None => False
  end.
Proof.
  split; [intros op H; repeat (destruct H as [<-|H]; [discriminate|]); contradiction|].
  vm_compute. reflexivity.
Qed.

Print Assumptions C42_sequence.
Print Assumptions C43_lifetimes.
Print Assumptions C61_histories_partial.
