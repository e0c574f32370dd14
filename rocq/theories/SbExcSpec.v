(** What the properties of SlidingBuffer with throwing elements are stated in terms of. *)
From Verif Require Import Base SbModel SbSpec SbExcModel.

Section Spec.
Context {A : Type} (d : A) (T : traits).

(** One call of a user, with resize() being that of SlidingBuffer or SlidingBufferExposed *)
Definition call (resize_x : sbuf A -> nat -> shrink -> result (sbuf A) -> Prop)
                (o : op A) (b : sbuf A) : result (sbuf A) -> Prop :=
  match o with
  | PushBack x => push_back_x T b x
  | PushFront x => push_front_x T b x
  | PopBack => pop_back_x b
  | PopFront => pop_front_x b
  | Clear => clear_x d b
  | Resize n sh => resize_x b n sh
  end.

(** What a call that raises an exception may leave behind of the deque [q].
    - push_back: what was there before, but the oldest element of a filled buffer may have been
      damaged if assignments are not all-or-nothing;
    - push_front: some element has been pushed;
    - clear: nothing;
    - resize: a buffer of the same capacity and size; if moves do not throw it can only have been
      a larger capacity that was asked for, and the elements of a filled buffer are all still
      there, but may have changed places.
    pop_back and pop_front do not throw. *)
Definition left_behind (o : op A) (q q' : deque A) : Prop :=
  let (n, l) := q in
  let (n', l') := q' in
  match o with
  | PushBack _ =>
      n' = n /\ (l' = l \/ strong_assign T = false /\ length l = n /\ exists y, l' = y :: tl l)
  | PushFront _ => n' = n /\ exists y, l' = firstn n (y :: l)
  | Clear => n' = n /\ l' = []
  | Resize m _ =>
      n' = n /\ length l' = length l /\
      (nothrow_move T = true ->
         (n < m)%nat /\ (length l = n -> exists k, (k <= n)%nat /\ l' = skipn k l ++ firstn k l))
  | _ => False
  end.

(** One attempt of a user to call an operation on the deque: the precondition is met, and the
    call has its effect (true) or is left with an exception (false). *)
Definition attempt (o : op A) (ok : bool) (q q' : deque A) : Prop :=
  if ok then apply o q = Some q' else apply o q <> None /\ left_behind o q q'.

(** The outcomes of a sequence of calls, each of which may raise an exception which is caught
    by the caller.  The caller respects the preconditions of the calls, as far as these depend
    on capacity() and empty(). *)
Definition allowed (o : op A) (b : sbuf A) : Prop :=
  match o with
  | PushBack _ | PushFront _ => capacity b <> 0%nat
  | PopBack | PopFront => empty b = false
  | _ => True
  end.
Inductive calls (resize_x : sbuf A -> nat -> shrink -> result (sbuf A) -> Prop) :
  list (op A * bool) -> sbuf A -> result (sbuf A) -> Prop :=
| calls_nil b : calls resize_x [] b (Returned b)
| calls_ok o os b b' r : allowed o b -> call resize_x o b (Returned b') -> calls resize_x os b' r ->
    calls resize_x ((o, true) :: os) b r
| calls_throw o os b b' r : allowed o b -> call resize_x o b (Raised b') -> calls resize_x os b' r ->
    calls resize_x ((o, false) :: os) b r
| calls_ub o ok os b : allowed o b -> call resize_x o b Undefined ->
    calls resize_x ((o, ok) :: os) b Undefined.

Fixpoint attempts (os : list (op A * bool)) (q q' : deque A) : Prop :=
  match os with
  | [] => q' = q
  | (o, ok) :: os' => exists q1, attempt o ok q q1 /\ attempts os' q1 q'
  end.
End Spec.

(** Elements which behave as well as one can ask for, apart from throwing *)
Definition nice : traits := Traits true true true.
