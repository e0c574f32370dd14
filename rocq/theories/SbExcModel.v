(** Model of include/gul14/SlidingBuffer.h for elements and allocators that may throw.

    SbModel describes the calls that return.  Here every call is a relation between the buffer
    before the call and what comes out of it: the call returns, it raises an exception, or it is
    undefined.  An operation on the storage that raises an exception leaves any elements behind
    that C++ allows it to leave behind. *)
From Verif Require Import Base SbModel.
From Coq Require Import PeanoNat.

Inductive result (X : Type) := Returned (x : X) | Raised (x : X) | Undefined.
Arguments Returned {X} _.
Arguments Raised {X} _.
Arguments Undefined {X}.

(** What is known about the elements: moves (construction and assignment) never throw; an
    assignment that throws leaves its target as it was; std::vector can relocate its elements
    without the danger of losing some (they can be copied, or moved without throwing).  The
    destructor and, with std::array as a container, nothing else is assumed not to throw. *)
Record traits := Traits { nothrow_move : bool; strong_assign : bool; strong_grow : bool }.

Section Exceptions.
Context {A : Type} (d : A) (T : traits).

(** storage_[i] = x: the target may be left with any value unless the assignment is strong *)
Inductive assigns (l : list A) (i : nat) (x : A) : result (list A) -> Prop :=
| assigns_ok : (i < length l)%nat -> assigns l i x (Returned (set_nth l i x))
| assigns_throws y : (i < length l)%nat -> (strong_assign T = true -> nth_error l i = Some y) ->
    assigns l i x (Raised (set_nth l i y))
| assigns_ub : (length l <= i)%nat -> assigns l i x Undefined.
(** std::fill(l.begin(), l.end(), value_type{}): the construction of the value or one of the
    assignments may throw *)
Inductive fills (l : list A) : result (list A) -> Prop :=
| fills_ok : fills l (Returned (repeat d (length l)))
| fills_throws l' : length l' = length l -> fills l (Raised l').
(** std::rotate(l.begin(), l.begin() + k, l.end()) swaps or moves elements *)
Inductive rotates (l : list A) (k : nat) : result (list A) -> Prop :=
| rotates_ok : (k <= length l)%nat -> rotates l k (Returned (rotate l k))
| rotates_throws l' : (k <= length l)%nat -> nothrow_move T = false -> length l' = length l ->
    rotates l k (Raised l')
| rotates_ub : (length l < k)%nat -> rotates l k Undefined.
(** l.resize(n): growing may fail to allocate memory, to construct a new element or to relocate
    an old one; shrinking only destroys elements *)
Inductive resizes (l : list A) (n : nat) : result (list A) -> Prop :=
| resizes_ok : resizes l n (Returned (vresize d l n))
| resizes_throws l' : (length l < n)%nat -> length l' = length l ->
    (strong_grow T || nothrow_move T = true -> l' = l) -> resizes l n (Raised l').
(** std::move_backward(l.begin() + from, l.begin() + old, l.end()) where l has [new] elements *)
Inductive moves_backward (mv : A -> A) (l : list A) (from old new : nat) : result (list A) -> Prop :=
| moves_ok : moves_backward mv l from old new (Returned (move_backward d mv l from old new))
| moves_throws l' : nothrow_move T = false -> length l' = length l ->
    moves_backward mv l from old new (Raised l').

(** [p; k]: if [p] raises an exception and leaves the storage [l] behind, the call is left with
    the buffer [raised l]. *)
Definition next (p : result (list A) -> Prop) (raised : list A -> sbuf A)
                (k : list A -> result (sbuf A) -> Prop) (r : result (sbuf A)) : Prop :=
  exists q, p q /\
  match q with
  | Returned l => k l r
  | Raised l => r = Raised (raised l)
  | Undefined => r = Undefined
  end.

(** SlidingBuffer.h:306-329 push_back: the assignment comes first *)
Definition push_back_x (b : sbuf A) (x : A) : result (sbuf A) -> Prop :=
  next (assigns (st b) (ie b) x) (SB (ib b) (ie b) (full b)) (fun l r =>
    let ie' := increase_idx b (ie b) in
    r = Returned
      (if full b then SB (increase_idx b (ib b)) ie' (full b) l
       else if Nat.eqb ie' (ib b) then SB (ib b) ie' true l
       else SB (ib b) ie' (full b) l)).
(** SlidingBuffer.h:344-369 push_front: the assignment comes last *)
Definition push_front_x (b : sbuf A) (x : A) : result (sbuf A) -> Prop :=
  let ib' := decrease_idx b (ib b) in
  let ie' := if full b then decrease_idx b (ie b) else ie b in
  let full' := if full b then true else if Nat.eqb (ie b) ib' then true else false in
  next (assigns (st b) ib' x) (SB ib' ie' full') (fun l r => r = Returned (SB ib' ie' full' l)).
(** SlidingBuffer.h:270-274, 287-291 pop_back, pop_front only change indices *)
Definition pop_back_x (b : sbuf A) (r : result (sbuf A)) : Prop := r = Returned (pop_back b).
Definition pop_front_x (b : sbuf A) (r : result (sbuf A)) : Prop := r = Returned (pop_front b).
(** SlidingBuffer.h:526-534 clear: the indices are reset before the elements are overwritten *)
Definition clear_x (b : sbuf A) : result (sbuf A) -> Prop :=
  next (fills (st b)) (SB 0 0 false) (fun l r => r = Returned (SB 0 0 false l)).

(** SlidingBuffer.h:972-1026 change_capacity; 555-571 resize and reserve call it. *)
Definition change_capacity_x (b : sbuf A) (new_capacity : nat) (sh : shrink) (r : result (sbuf A)) : Prop :=
  let old_capacity := capacity b in
  let old_size := size b in
  let old := SB (ib b) (ie b) (full b) in
  if Nat.eqb new_capacity old_capacity then r = Returned b
  else if Nat.eqb new_capacity 0 then
    next (resizes (st b) 0) old (fun l r => r = Returned (SB 0 0 false l)) r
  else if Nat.ltb old_capacity new_capacity then
    next (rotates (st b) (ib b)) old (fun l =>
    next (resizes l new_capacity) old (fun l r => r = Returned (SB 0 old_size false l))) r
  else if Nat.ltb old_size new_capacity then
    next (rotates (st b) (ib b)) old (fun l =>
    next (resizes l new_capacity) old (fun l r => r = Returned (SB 0 old_size false l))) r
  else
    let new_front :=
      match sh with
      | keep_back_elements => (ie b + old_capacity - new_capacity) mod old_capacity
      | keep_front_elements => ib b
      end in
    next (rotates (st b) new_front) old (fun l =>
    next (resizes l new_capacity) old (fun l r => r = Returned (SB 0 0 true l))) r.

(** SlidingBuffer.h:1258-1304 SlidingBufferExposed::resize; when shrinking, full_ is set first
    and idx_begin_ after the rotation *)
Definition ex_resize_x (mv : A -> A) (b : sbuf A) (new_capacity : nat) (sh : shrink) (r : result (sbuf A)) : Prop :=
  let old_capacity := capacity b in
  let right_align :=
    (match sh with keep_front_elements => true | _ => false end) && Nat.ltb 0 new_capacity
    && negb (Nat.eqb new_capacity old_capacity) && negb (full b) && Nat.eqb (ie b) 0
    && negb (Nat.eqb (ib b) 0) in
  if negb right_align then change_capacity_x b new_capacity sh r
  else if Nat.ltb old_capacity new_capacity then
    let old := SB (ib b) (ie b) (full b) in
    next (resizes (st b) new_capacity) old (fun l =>
    next (moves_backward mv l (ib b) old_capacity new_capacity) old (fun l r =>
      r = Returned (SB (ib b + (new_capacity - old_capacity)) (ie b) (full b) l))) r
  else
    let full' := Nat.leb new_capacity (size b) in
    let required_shift := Nat.min (old_capacity - new_capacity) (ib b) in
    next (rotates (st b) required_shift) (SB (ib b) (ie b) full') (fun l =>
    next (resizes l new_capacity) (SB (ib b - required_shift) (ie b) full') (fun l r =>
      r = Returned (SB (ib b - required_shift) (ie b) full' l))) r.
End Exceptions.
