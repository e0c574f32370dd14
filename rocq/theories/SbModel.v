(** Model of include/gul14/SlidingBuffer.h.

    The underlying container (std::array or std::vector) is a list; its length is capacity().
    Element access outside of the container is undefined behavior ([UB]).  Indices inside of
    the buffer are smaller than its capacity and modelled as natural numbers; indices passed to
    operator[] and iterator positions are size_t values, i.e. integers modulo 2^64. *)
From Verif Require Import Base.
From Coq Require Import PeanoNat.
Local Open Scope outcome_scope.

Section SlidingBuffer.
Context {A : Type} (d : A). (* element type and value_type{} *)

(** SlidingBuffer.h:244-257 the data members; [st] = storage_ *)
Record sbuf := SB { ib : nat; ie : nat; full : bool; st : list A }.

(** SlidingBuffer.h:501-504 capacity; both for std::array and std::vector this is the size of
    the container. *)
Definition capacity (b : sbuf) : nat := length (st b).
(** SlidingBuffer.h:211-229 default constructor of a fixed-capacity buffer with N elements;
    SlidingBuffer.h:242 SlidingBuffer(size_type count) *)
Definition make (n : nat) : sbuf := SB 0 0 false (repeat d n).

(** storage_[i] = x and storage_[i] *)
Fixpoint set_nth (l : list A) (i : nat) (x : A) : list A :=
  match l, i with
  | [], _ => []
  | _ :: l', O => x :: l'
  | a :: l', S i' => a :: set_nth l' i' x
  end.
Definition store (l : list A) (i : nat) (x : A) : outcome (list A) :=
  if Nat.ltb i (length l) then Ok (set_nth l i x) else UB.
Definition load (l : list A) (i : nat) : outcome A :=
  match nth_error l i with Some x => Ok x | None => UB end.

(** SlidingBuffer.h:941-955 decrease_idx, increase_idx.  With capacity() == 0 the former yields
    SIZE_MAX instead of 0; any access to the element is out of bounds in both cases. *)
Definition decrease_idx (b : sbuf) (idx : nat) : nat :=
  if Nat.eqb idx 0 then capacity b - 1 else idx - 1.
Definition increase_idx (b : sbuf) (idx : nat) : nat :=
  if Nat.leb (capacity b) (idx + 1) then 0%nat else (idx + 1)%nat.

(** SlidingBuffer.h:270-274, 287-291 pop_back, pop_front *)
Definition pop_back (b : sbuf) : sbuf := SB (ib b) (decrease_idx b (ie b)) false (st b).
Definition pop_front (b : sbuf) : sbuf := SB (increase_idx b (ib b)) (ie b) false (st b).

(** SlidingBuffer.h:306-329 push_back (both overloads) *)
Definition push_back (b : sbuf) (x : A) : outcome sbuf :=
  l <- store (st b) (ie b) x ;;
  let ie' := increase_idx b (ie b) in
  if full b then Ok (SB (increase_idx b (ib b)) ie' (full b) l)
  else if Nat.eqb ie' (ib b) then Ok (SB (ib b) ie' true l)
  else Ok (SB (ib b) ie' (full b) l).
(** SlidingBuffer.h:344-369 push_front (both overloads) *)
Definition push_front (b : sbuf) (x : A) : outcome sbuf :=
  let ib' := decrease_idx b (ib b) in
  let ie' := if full b then decrease_idx b (ie b) else ie b in
  let full' := if full b then true else if Nat.eqb (ie b) ib' then true else false in
  l <- store (st b) ib' x ;;
  Ok (SB ib' ie' full' l).

(** SlidingBuffer.h:483-492 size *)
Definition size (b : sbuf) : nat :=
  if full b then capacity b
  else if Nat.leb (ib b) (ie b) then ie b - ib b
  else ie b + capacity b - ib b.
(** SlidingBuffer.h:514-517 filled, 597-600 empty *)
Definition filled (b : sbuf) : bool := full b.
Definition empty (b : sbuf) : bool := negb (full b) && Nat.eqb (ib b) (ie b).

(** SlidingBuffer.h:381-396 operator[]: the index is a size_t *)
Definition index (b : sbuf) (idx : Z) : outcome A :=
  let idx := ((idx + Z.of_nat (ib b)) mod 2 ^ 64)%Z in
  let cap := Z.of_nat (capacity b) in
  if (cap <=? idx)%Z
  then if (idx - cap <? cap)%Z then load (st b) (Z.to_nat (idx - cap)) else UB
  else load (st b) (Z.to_nat idx).
(** SlidingBuffer.h:409-430 at *)
Definition at_ (b : sbuf) (idx : Z) : outcome A :=
  if (Z.of_nat (size b) <=? idx)%Z then Throw OutOfRange else index b idx.
(** SlidingBuffer.h:438-447, 457-474 front, back *)
Definition front (b : sbuf) : outcome A := load (st b) (ib b).
Definition back (b : sbuf) : outcome A :=
  if Nat.eqb (ie b) 0 then load (st b) (capacity b - 1) else load (st b) (ie b - 1).

(** SlidingBuffer.h:526-534 clear *)
Definition clear (b : sbuf) : sbuf := SB 0 0 false (repeat d (length (st b))).

(** std::rotate(begin, begin + k, end) and std::vector::resize *)
Definition rotate (l : list A) (k : nat) : list A := skipn k l ++ firstn k l.
Definition vresize (l : list A) (n : nat) : list A := firstn n l ++ repeat d (n - length l).

(** SlidingBuffer.h:66 ShrinkBehavior *)
Inductive shrink := keep_front_elements | keep_back_elements.

(** SlidingBuffer.h:972-1026 change_capacity; 555-571 resize and reserve call it. *)
Definition change_capacity (b : sbuf) (new_capacity : nat) (sh : shrink) : sbuf :=
  let old_capacity := capacity b in
  let old_size := size b in
  if Nat.eqb new_capacity old_capacity then b
  else if Nat.eqb new_capacity 0 then SB 0 0 false (vresize (st b) 0)
  else if Nat.ltb old_capacity new_capacity then
    SB 0 old_size false (vresize (rotate (st b) (ib b)) new_capacity)
  else if Nat.ltb old_size new_capacity then
    SB 0 old_size false (vresize (rotate (st b) (ib b)) new_capacity)
  else
    let new_front :=
      match sh with
      | keep_back_elements => (ie b + old_capacity - new_capacity) mod old_capacity
      | keep_front_elements => ib b
      end in
    SB 0 0 true (vresize (rotate (st b) new_front) new_capacity).
Definition resize := change_capacity.

(** The state a run-time sized buffer is left in by the defaulted move constructor and move
    assignment (SlidingBuffer.h:223-227): storage_ is empty, the other members are copied. *)
Definition moved_from (b : sbuf) : sbuf := SB (ib b) (ie b) (full b) [].

(** SlidingBuffer.h:590-598 operator<<: [show x] stands for the output of s << x. *)
Fixpoint print_loop (show : A -> str) (b : sbuf) (n : nat) (i : Z) : outcome str :=
  match n with
  | O => Ok []
  | S n' =>
      x <- index b i ;;
      r <- print_loop show b n' (i + 1)%Z ;;
      Ok (show x ++ !"  " ++ r)
  end.
Definition print (show : A -> str) (b : sbuf) : outcome str :=
  r <- print_loop show b (size b) 0 ;;
  Ok (r ++ [chr 10]).

(** SlidingBuffer.h:626-839 SlidingBufferIterator: a logical position (size_t). *)
Definition wrap (z : Z) : Z := (z mod 2 ^ 64)%Z.
Definition to_diff (z : Z) : Z := if (wrap z <? 2 ^ 63)%Z then wrap z else (wrap z - 2 ^ 64)%Z.
Definition it_begin (b : sbuf) : Z := 0. (* :846-858 begin, cbegin *)
Definition it_end (b : sbuf) : Z := Z.of_nat (size b). (* :876-890 end, cend *)
Definition it_add (it n : Z) : Z := wrap (it + n). (* :679-700 += and + *)
Definition it_sub (it n : Z) : Z := wrap (it - n). (* :719-733 -= and - *)
Definition it_inc (it : Z) : Z := wrap (it + 1). (* :662-676 ++ *)
Definition it_dec (it : Z) : Z := wrap (it - 1). (* :702-716 -- *)
Definition it_diff (a b : Z) : Z := to_diff (a - b). (* :735-741 it1 - it2 *)
Definition it_deref (b : sbuf) (it : Z) : outcome A := index b it. (* :743-757 * and -> *)
Definition it_at (b : sbuf) (it offs : Z) : outcome A := it_deref b (it_add it offs). (* :759-765 [] *)
Definition it_eq (a b : Z) : bool := (a =? b)%Z. (* :772-788 == and != *)
Definition it_lt (a b : Z) : bool := (a <? b)%Z. (* :790-838 < > <= >= *)
(** std::reverse_iterator: dereferences the position before the one it holds *)
Definition rit_begin (b : sbuf) : Z := it_end b. (* :866-874 rbegin, 917-925 crbegin *)
Definition rit_end (b : sbuf) : Z := it_begin b.
Definition rit_inc (it : Z) : Z := it_dec it.
Definition rit_deref (b : sbuf) (it : Z) : outcome A := it_deref b (it_dec it).
(** A loop for (it = first; it != last; ++it) that collects *it; the fuel bounds the number of
    rounds, Diverge means that it was not enough. *)
Fixpoint traverse (fuel : nat) (deref : Z -> outcome A) (inc : Z -> Z) (it last : Z) : outcome (list A) :=
  if it_eq it last then Ok []
  else
    match fuel with
    | O => Diverge
    | S f =>
        x <- deref it ;;
        r <- traverse f deref inc (inc it) last ;;
        Ok (x :: r)
    end.

(** * SlidingBufferExposed (SlidingBuffer.h:1072-1316): iterators are positions in the
    underlying container. *)
(** :1120-1148 begin, cbegin *)
Definition ex_begin (b : sbuf) : nat :=
  if negb (full b) && (Nat.eqb (ie b) 0 || Nat.leb (ib b) (ie b)) then ib b else 0%nat.
(** :1162-1190 end, cend *)
Definition ex_end (b : sbuf) : nat :=
  if full b || negb (Nat.eqb (ib b) 0) then length (st b) else ie b.
(** The elements visited by a traversal from begin() to end() *)
Definition ex_range (b : sbuf) : list A := firstn (ex_end b - ex_begin b) (skipn (ex_begin b) (st b)).
(** std::move_backward(begin + from, begin + old, end) on a container of which [old] elements
    were there before it was resized to [new]; [mv x] is what is left behind by moving from x. *)
Definition move_backward (mv : A -> A) (l : list A) (from old new : nat) : list A :=
  map (fun j =>
         if Nat.leb (from + (new - old)) j then nth (j - (new - old)) l d
         else if Nat.leb from j && Nat.ltb j old then mv (nth j l d)
         else nth j l d)
      (seq 0 new).
(** :1258-1300 resize; reserve calls it *)
Definition ex_resize (mv : A -> A) (b : sbuf) (new_capacity : nat) (sh : shrink) : sbuf :=
  let old_capacity := capacity b in
  let right_align :=
    (match sh with keep_front_elements => true | _ => false end) && Nat.ltb 0 new_capacity
    && negb (Nat.eqb new_capacity old_capacity) && negb (full b) && Nat.eqb (ie b) 0
    && negb (Nat.eqb (ib b) 0) in
  if negb right_align then change_capacity b new_capacity sh
  else if Nat.ltb old_capacity new_capacity then
    SB (ib b + (new_capacity - old_capacity)) (ie b) (full b)
       (move_backward mv (vresize (st b) new_capacity) (ib b) old_capacity new_capacity)
  else
    let full' := Nat.leb new_capacity (size b) in
    let required_shift := Nat.min (old_capacity - new_capacity) (ib b) in
    SB (ib b - required_shift) (ie b) full' (vresize (rotate (st b) required_shift) new_capacity).
End SlidingBuffer.
Arguments sbuf : clear implicits.
