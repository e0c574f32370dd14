(** What the properties of SlidingBuffer are stated in terms of: a bounded deque. *)
From Verif Require Import Base SbModel.

Section Deque.
Context {A : Type}.
(** Operations a user can perform on a buffer *)
Inductive op :=
| PushBack (x : A) | PushFront (x : A) | PopBack | PopFront | Clear | Resize (n : nat) (sh : shrink).
(** A deque together with its capacity *)
Definition deque : Type := (nat * list A)%type.

(** The effect of an operation on a bounded deque: None if its precondition is violated.  A
    buffer of capacity 0 cannot be pushed to; an empty buffer cannot be popped from. *)
Definition last_n (n : nat) (l : list A) : list A := skipn (length l - n) l.
Definition apply (o : op) (q : deque) : option deque :=
  let (n, l) := q in
  match o with
  | PushBack x => if Nat.eqb n 0 then None else Some (n, last_n n (l ++ [x]))
  | PushFront x => if Nat.eqb n 0 then None else Some (n, firstn n (x :: l))
  | PopBack => match l with [] => None | _ => Some (n, removelast l) end
  | PopFront => match l with [] => None | _ :: l' => Some (n, l') end
  | Clear => Some (n, [])
  | Resize m keep_front_elements => Some (m, firstn m l)
  | Resize m keep_back_elements => Some (m, last_n m l)
  end.
Fixpoint apply_all (os : list op) (q : deque) : option deque :=
  match os with
  | [] => Some q
  | o :: os' => match apply o q with Some q' => apply_all os' q' | None => None end
  end.
Definition is_resize (o : op) : bool := match o with Resize _ _ => true | _ => false end.
Definition is_pop (o : op) : bool := match o with PopBack | PopFront => true | _ => false end.
(** Histories in which elements are only added at the back *)
Definition is_back_op (o : op) : bool :=
  match o with PushBack _ | Clear | Resize _ _ => true | _ => false end.
(** Histories, starting from [q], in which elements are only added at the front, capacity is
    changed with keep_front_elements only, and a filled buffer is never enlarged *)
Fixpoint front_history (os : list op) (q : deque) : Prop :=
  match os with
  | [] => True
  | o :: os' =>
      match o with
      | PushFront _ | Clear => True
      | Resize m keep_front_elements => (length (snd q) < fst q \/ m <= fst q)%nat
      | _ => False
      end /\
      match apply o q with Some q' => front_history os' q' | None => False end
  end.
End Deque.
Arguments op : clear implicits.
Arguments deque : clear implicits.

(** Running the operations on the buffer *)
Section Run.
Context {A : Type} (d : A) (resize_fn : sbuf A -> nat -> shrink -> sbuf A).
Local Open Scope outcome_scope.
Definition step (o : op A) (b : sbuf A) : outcome (sbuf A) :=
  match o with
  | PushBack x => push_back b x
  | PushFront x => push_front b x
  | PopBack => Ok (pop_back b)
  | PopFront => Ok (pop_front b)
  | Clear => Ok (clear d b)
  | Resize n sh => Ok (resize_fn b n sh)
  end.
Fixpoint run (os : list (op A)) (b : sbuf A) : outcome (sbuf A) :=
  match os with
  | [] => Ok b
  | o :: os' => b' <- step o b ;; run os' b'
  end.
End Run.

(** What a user sees of a buffer [b] whose contents are the deque [q] *)
Definition shows {A} (d : A) (b : sbuf A) (q : deque A) : Prop :=
  let (n, l) := q in
  capacity b = n /\ (length l <= n)%nat /\ size b = length l /\
  (empty b = true <-> l = []) /\ (filled b = true <-> (0 < n)%nat /\ length l = n) /\
  (l <> [] -> front b = Ok (hd d l) /\ back b = Ok (last l d)) /\
  (forall i x, nth_error l i = Some x -> index b (Z.of_nat i) = Ok x /\ at_ b (Z.of_nat i) = Ok x).
