(** Specification of a collection of SmallVectors: each of them is a sequence of elements with a
    capacity.  Nothing here refers to memory. *)
From Verif Require Import Base VecModel.

(** The calls that can be made on vectors number i and j.  [m] tells the && overload of push_back
    and insert from the const& overload (and from emplace_back). *)
Inductive vop (A : Type) :=
| PushBack (i : nat) (m : bool) (x : A) | PopBack (i : nat)
| Write (i k : nat) (x : A)                        (* v[k] = x *)
| Insert (i pos : nat) (m : bool) (x : A) | Emplace (i pos : nat) (x : A)
| InsertN (i pos n : nat) (x : A) | InsertRange (i pos : nat) (xs : list A)
| Erase (i pos n : nat)                            (* erase(pos) is the case n = 1 *)
| Resize (i n : nat) | ResizeWith (i n : nat) (x : A)
| AssignN (i n : nat) (x : A) | AssignRange (i : nat) (xs : list A) | AssignInit (i : nat) (xs : list A)
| Clear (i : nat) | Reserve (i n : nat) | ShrinkToFit (i : nat)
| Swap (i j : nat) | CopyAssign (i j : nat) | MoveAssign (i j : nat)
(* vector i is destroyed and a new one is constructed in its place *)
| NewDefault (i : nat) | NewN (i n : nat) | NewFilled (i n : nat) (x : A) | NewRange (i : nat) (xs : list A)
| NewCopy (i j : nat) | NewMove (i j : nat).
Arguments PushBack {A}. Arguments PopBack {A}. Arguments Write {A}. Arguments Insert {A}. Arguments Emplace {A}.
Arguments InsertN {A}. Arguments InsertRange {A}. Arguments Erase {A}. Arguments Resize {A}. Arguments ResizeWith {A}.
Arguments AssignN {A}. Arguments AssignRange {A}. Arguments AssignInit {A}. Arguments Clear {A}. Arguments Reserve {A}.
Arguments ShrinkToFit {A}. Arguments Swap {A}. Arguments CopyAssign {A}. Arguments MoveAssign {A}. Arguments NewDefault {A}.
Arguments NewN {A}. Arguments NewFilled {A}. Arguments NewRange {A}. Arguments NewCopy {A}. Arguments NewMove {A}.

Section Spec.
Context {A : Type} (d : A) (N M : nat).

(** Elements and capacity of each vector *)
Definition world : Type := list (list A * nat).
Definition put (w : world) (i : nat) (x : list A * nat) : world := firstn i w ++ x :: skipn (S i) w.
(** The capacity after growing a full vector: half as much again, but at least one more, and no
    more than the maximum *)
Definition more (c : nat) : nat := Nat.min M (c + Nat.max 1 (c / 2)).
Definition room1 (l : list A) (c : nat) : nat := if Nat.eqb (length l) c then more c else c.

(** One call: the vectors afterwards and the index of the returned iterator (0 if there is none);
    None if a precondition is violated: a position outside of the vector, an empty vector for
    pop_back, or more than M elements. *)
Definition on (w : world) (i : nat) (f : list A -> nat -> option (list A * nat * nat)) : option (world * nat) :=
  match nth_error w i with
  | Some (l, c) => match f l c with Some (l', c', r) => Some (put w i (l', c'), r) | None => None end
  | None => None
  end.
Definition check {X} (b : bool) (x : X) : option X := if b then Some x else None.
Definition meaning (w : world) (op : vop A) : option (world * nat) :=
  match op with
  | PushBack i _ x => on w i (fun l c => check (Nat.ltb (length l) M) (l ++ [x], room1 l c, 0))
  | PopBack i => on w i (fun l c => check (Nat.ltb 0 (length l)) (removelast l, c, 0))
  | Write i k x => on w i (fun l c => check (Nat.ltb k (length l)) (firstn k l ++ [x] ++ skipn (S k) l, c, 0))
  | Insert i pos _ x | Emplace i pos x => on w i (fun l c =>
      check (Nat.leb pos (length l) && Nat.ltb (length l) M) (firstn pos l ++ [x] ++ skipn pos l, room1 l c, pos))
  | InsertN i pos n x => on w i (fun l c =>
      check (Nat.leb pos (length l) && Nat.leb (length l + n) M)
            (firstn pos l ++ repeat x n ++ skipn pos l, Nat.max c (length l + n), pos))
  | InsertRange i pos xs => on w i (fun l c =>
      check (Nat.leb pos (length l) && Nat.leb (length l + length xs) M)
            (firstn pos l ++ xs ++ skipn pos l, Nat.max c (length l + length xs), pos))
  | Erase i pos n => on w i (fun l c =>
      check (Nat.leb (pos + n) (length l)) (firstn pos l ++ skipn (pos + n) l, c, pos))
  | Resize i n => on w i (fun l c => check (Nat.leb n M) (firstn n l ++ repeat d (n - length l), Nat.max c n, 0))
  | ResizeWith i n x => on w i (fun l c => check (Nat.leb n M) (firstn n l ++ repeat x (n - length l), Nat.max c n, 0))
  | AssignN i n x => on w i (fun l c => check (Nat.leb n M) (repeat x n, Nat.max c n, 0))
  | AssignRange i xs | AssignInit i xs =>
      on w i (fun l c => check (Nat.leb (length xs) M) (xs, Nat.max c (length xs), 0))
  | Clear i => on w i (fun l c => Some ([], c, 0))
  | Reserve i n => on w i (fun l c => check (Nat.leb n M) (l, Nat.max c n, 0))
  | ShrinkToFit i => on w i (fun l c => Some (l, Nat.max N (length l), 0))
  | Swap i j =>
      match nth_error w i, nth_error w j with
      | Some a, Some b => Some (put (put w i b) j a, 0)
      | _, _ => None
      end
  | CopyAssign i j =>
      match nth_error w j with
      | Some (xs, _) => if Nat.eqb i j then Some (w, 0) else on w i (fun l c => Some (xs, Nat.max c (length xs), 0))
      | None => None
      end
  | MoveAssign i j =>
      if Nat.eqb i j then Some (w, 0) else
      match nth_error w i, nth_error w j with
      | Some _, Some b => Some (put (put w i b) j ([], N), 0)
      | _, _ => None
      end
  | NewDefault i => on w i (fun _ _ => Some ([], N, 0))
  | NewN i n => on w i (fun _ _ => check (Nat.leb n M) (repeat d n, Nat.max N n, 0))
  | NewFilled i n x => on w i (fun _ _ => check (Nat.leb n M) (repeat x n, Nat.max N n, 0))
  | NewRange i xs => on w i (fun _ _ => check (Nat.leb (length xs) M) (xs, Nat.max N (length xs), 0))
  | NewCopy i j =>
      match nth_error w j with
      | Some (xs, _) => if Nat.eqb i j then None else on w i (fun _ _ => Some (xs, Nat.max N (length xs), 0))
      | None => None
      end
  | NewMove i j =>
      match nth_error w i, nth_error w j with
      | Some _, Some b => if Nat.eqb i j then None else Some (put (put w i b) j ([], N), 0)
      | _, _ => None
      end
  end.
Fixpoint meanings (w : world) (ops : list (vop A)) : option (world * list nat) :=
  match ops with
  | [] => Some (w, [])
  | op :: ops' =>
      match meaning w op with
      | Some (w1, r) => match meanings w1 ops' with Some (w2, rs) => Some (w2, r :: rs) | None => None end
      | None => None
      end
  end.
(** k new vectors *)
Definition fresh (k : nat) : world := repeat ([], N) k.

(** Calls that keep vector i alive *)
Definition in_place (op : vop A) : bool :=
  match op with
  | NewDefault _ | NewN _ _ | NewFilled _ _ _ | NewRange _ _ | NewCopy _ _ | NewMove _ _ => false
  | _ => true
  end.

(** The same calls on the model *)
Variables (mv : A -> A) (nothrow_move copyable : bool).
Local Notation "x <~ m ;; f" := (bindc m (fun x => f)) (at level 61, m at next level, right associativity).
Local Notation "m ;;; f" := (bindc m (fun _ => f)) (at level 61, right associativity).
Definition exec (op : vop A) : comp (A := A) nat :=
  match op with
  | PushBack i m x => push_back mv nothrow_move copyable M i m (Val x) ;;; ret 0
  | PopBack i => pop_back i ;;; ret 0
  | Write i k x => write i k x ;;; ret 0
  | Insert i pos m x => insert_single mv nothrow_move copyable M i pos m (Val x)
  | Emplace i pos x => emplace mv nothrow_move copyable M i pos x
  | InsertN i pos n x => insert_value mv nothrow_move copyable M i pos n (Val x)
  | InsertRange i pos xs => insert_range mv nothrow_move copyable M i pos xs
  | Erase i pos n => erase mv nothrow_move i pos n
  | Resize i n => resize d mv nothrow_move copyable i n ;;; ret 0
  | ResizeWith i n x => resize_value mv nothrow_move copyable i n (Val x) ;;; ret 0
  | AssignN i n x => assign_value mv nothrow_move copyable i n (Val x) ;;; ret 0
  | AssignRange i xs => assign_range mv nothrow_move copyable M i xs ;;; ret 0
  | AssignInit i xs => assign_init mv nothrow_move copyable M i xs ;;; ret 0
  | Clear i => clear i ;;; ret 0
  | Reserve i n => reserve mv nothrow_move copyable i n ;;; ret 0
  | ShrinkToFit i => shrink_to_fit mv nothrow_move copyable N i ;;; ret 0
  | Swap i j => swap mv nothrow_move copyable i j ;;; ret 0
  | CopyAssign i j => assign_copy mv nothrow_move copyable i j ;;; ret 0
  | MoveAssign i j => assign_move mv nothrow_move copyable N i j ;;; ret 0
  | NewDefault i => dtor i ;;; ctor_default N i ;;; ret 0
  | NewN i n => dtor i ;;; ctor_n d mv nothrow_move copyable N i n ;;; ret 0
  | NewFilled i n x => dtor i ;;; ctor_value mv nothrow_move copyable N i n (Val x) ;;; ret 0
  | NewRange i xs => dtor i ;;; ctor_range mv nothrow_move copyable N M i xs ;;; ret 0
  | NewCopy i j => dtor i ;;; ctor_copy mv nothrow_move copyable N M i j ;;; ret 0
  | NewMove i j => dtor i ;;; ctor_move mv nothrow_move copyable N i j ;;; ret 0
  end.
Fixpoint execs (ops : list (vop A)) : comp (A := A) (list nat) :=
  match ops with
  | [] => ret []
  | op :: ops' => r <~ exec op ;; rs <~ execs ops' ;; ret (r :: rs)
  end.
(** k vectors, constructed by the default constructor, with no heap memory in use; the elements
    and the allocator throw after [g] further operations, if at all *)
Definition start (k : nat) (g : option nat) : state (A := A) :=
  State (repeat (Some (repeat Raw N)) k) (map (fun i => Vec i N 0) (seq 0 k)) g.
(** The destructors of vectors 0 to k - 1 *)
Fixpoint destroy_all (k : nat) : comp (A := A) unit :=
  match k with O => ret tt | S k' => dtor k' ;;; destroy_all k' end.
(** Number of live elements in the memory *)
Definition live_cells (c : list (cell (A := A))) : nat := length (filter (fun x => negb (is_raw x)) c).
Definition live (s : state (A := A)) : nat :=
  list_sum (map (fun b => match b with Some c => live_cells c | None => 0 end) (mem s)).
(** Number of blocks on the heap: all but the internal arrays of the vectors *)
Definition heap_blocks (s : state (A := A)) : nat :=
  length (filter (fun b : option (list (cell (A := A))) => match b with Some _ => true | None => false end) (skipn (length (objs s)) (mem s))).
(** What can be seen of the vectors through size(), operator[] and capacity() *)
Definition value_of (c : cell (A := A)) : list A := match c with Live x => [x] | Raw => [] end.
Definition view (s : state (A := A)) : world :=
  map (fun v => (flat_map value_of (firstn (size v) (match blk s (data v) with Some c => c | None => [] end)), cap v)) (objs s).

(** * Exceptions *)
(** What a call guarantees if an element operation or the allocation throws *)
Inductive guarantee := NoThrow | Strong | Empties | Hole (pos : nat) | Shuffled | Mixed (j : nat) | NotTaken (j : nat).
Definition guaranteed (op : vop A) : option guarantee :=
  match op with
  | PopBack _ | Clear _ | NewDefault _ => Some NoThrow
  | PushBack _ _ _ | Reserve _ _ | Resize _ _ | ShrinkToFit _ | Write _ _ _ => Some Strong
  | AssignRange _ _ | AssignInit _ _ | CopyAssign _ _ => Some Empties
  | Emplace _ _ _ | Insert _ _ true _ => if nothrow_move then Some Strong else None
  | Insert _ pos false _ => if nothrow_move then Some (Hole pos) else None
  | Erase _ _ _ => if nothrow_move then Some NoThrow else Some Shuffled
  | Swap _ j => if nothrow_move then Some NoThrow else Some (Mixed j)
  | MoveAssign _ j | NewMove _ j => if nothrow_move then Some NoThrow else Some (NotTaken j)
  | _ => None
  end.
Definition target (op : vop A) : nat :=
  match op with
  | PushBack i _ _ | PopBack i | Write i _ _ | Insert i _ _ _ | Emplace i _ _ | InsertN i _ _ _ | InsertRange i _ _ | Erase i _ _
  | Resize i _ | ResizeWith i _ _ | AssignN i _ _ | AssignRange i _ | AssignInit i _ | Clear i | Reserve i _ | ShrinkToFit i
  | Swap i _ | CopyAssign i _ | MoveAssign i _
  | NewDefault i | NewN i _ | NewFilled i _ _ | NewRange i _ | NewCopy i _ | NewMove i _ => i
  end.
(** The vectors after an exception: only the target may have been changed.  If elements can be
    neither moved without exceptions nor copied, their values are unspecified.  [Hole]: nothing has
    changed, or there is one element more, of unspecified value, at the position of insertion.
    [Shuffled]: there are as many elements as before, of unspecified values. *)
Definition after_throw1 (g : guarantee) (i : nat) (w w' : world) : Prop :=
  exists l c l' c', nth_error w i = Some (l, c) /\ w' = put w i (l', c') /\
  match g with
  | Strong => length l' = length l /\ (nothrow_move || copyable = true -> l' = l)
  | Empties => l' = []
  | Hole pos => l' = l \/ exists z, l' = firstn pos l ++ [z] ++ skipn pos l
  | Shuffled => length l' = length l
  | _ => False
  end.
(** For functions with two vectors, only these two may have been changed.  [Mixed j], for swap:
    both have as many elements as before and their capacity; the values are unspecified, except
    that a vector with heap memory keeps its elements, and that nothing at all has changed if one
    of them has heap memory and the elements can be copied.  [NotTaken j], for moves from vector j,
    which must have been without heap memory: vector i is empty (if it has been constructed at
    all), vector j has as many elements as before, and the same if they can be copied. *)
Definition after_throw2 (g : guarantee) (i : nat) (w w' : world) : Prop :=
  match g with
  | Mixed j => exists li ci lj cj li' lj', nth_error w i = Some (li, ci) /\ nth_error w j = Some (lj, cj) /\
      w' = put (put w i (li', ci)) j (lj', cj) /\ length li' = length li /\ length lj' = length lj /\
      (N < ci -> li' = li) /\ (N < cj -> lj' = lj) /\
      (copyable = true -> N < ci \/ N < cj -> li' = li /\ lj' = lj)
  | NotTaken j => exists lj lj', nth_error w j = Some (lj, N) /\ w' = put (put w i ([], N)) j (lj', N) /\
      length lj' = length lj /\ (copyable = true -> lj' = lj)
  | _ => False
  end.
Definition after_throw (g : guarantee) (i : nat) (w w' : world) : Prop := after_throw1 g i w w' \/ after_throw2 g i w w'.
(** A program that makes the calls whose preconditions are met and catches all exceptions *)
Fixpoint attempts (ops : list (vop A)) (s : state (A := A)) : option state :=
  match ops with
  | [] => Some s
  | op :: ops' =>
      match meaning (view s) op with
      | None => attempts ops' s
      | Some _ =>
          match exec op s with
          | Done _ s' _ => attempts ops' s'
          | Thrown _ _ s' => attempts ops' s'
          | Undef _ => None
          end
      end
  end.
End Spec.
