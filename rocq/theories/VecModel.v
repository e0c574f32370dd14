(** Model of include/gul14/SmallVector.h.

    The memory is a list of blocks; a block is None once it has been freed, otherwise a list of
    cells, each of which is raw memory or a live element.  Vector number i is entry i of the
    object list, and its internal array is block i; blocks allocated on the heap follow behind.

    [Undef] stands for undefined behavior (access to raw or freed memory or outside of a block)
    and also for lifetime errors: constructing an element on top of a live one, or giving up
    memory in which live elements remain.

    The element type is described by its default value [d], the value [mv x] that a moved-from
    element is left with, and by the traits is_nothrow_move_constructible ([nothrow_move], also
    taken for move assignment) and is_copy_constructible ([copyable]).  All other element
    operations and memory allocation may throw: [bud] counts the potentially throwing operations
    until the first one that does throw; None means that nothing throws.

    SizeType (uint32_t) has the maximum [M]; [N] is the template parameter in_capacity. *)
From Verif Require Import Base.
From Coq Require Import PeanoNat.

Section SmallVector.
Context {A : Type} (d : A) (mv : A -> A) (nothrow_move copyable : bool) (N M : nat).

Inductive cell := Raw | Live (x : A).
(** SmallVector.h:1215-1230 data_ptr_ (a block number), capacity_, size_ *)
Record vec := Vec { data : nat; cap : nat; size : nat }.
Record state := State { mem : list (option (list cell)); objs : list vec; bud : option nat }.

Inductive res (X : Type) := Done (s : state) (x : X) | Thrown (e : exn) (s : state) | Undef.
Arguments Done {X} s x.
Arguments Thrown {X} e s.
Arguments Undef {X}.
Definition comp (X : Type) : Type := state -> res X.
Definition ret {X} (x : X) : comp X := fun s => Done s x.
Definition bindc {X Y} (m : comp X) (f : X -> comp Y) : comp Y := fun s =>
  match m s with
  | Done s' x => f x s'
  | Thrown e s' => Thrown e s'
  | Undef => Undef
  end.
Local Notation "x <~ m ;; f" := (bindc m (fun x => f)) (at level 61, m at next level, right associativity).
Local Notation "m ;;; f" := (bindc m (fun _ => f)) (at level 61, right associativity).
(** try { m } catch (...) { h; throw; } *)
Definition on_throw {X} (m : comp X) (h : comp unit) : comp X := fun s =>
  match m s with
  | Thrown e s' => match h s' with Done s'' _ => Thrown e s'' | Thrown e' s'' => Thrown e' s'' | Undef => Undef end
  | r => r
  end.
Definition throw_ {X} (e : exn) : comp X := fun s => Thrown e s.
Definition undef {X} : comp X := fun _ => Undef.

(** * Memory and elements *)
Fixpoint set_nth {T} (l : list T) (i : nat) (x : T) : list T :=
  match l, i with
  | [], _ => []
  | _ :: l', O => x :: l'
  | a :: l', S i' => a :: set_nth l' i' x
  end.
Definition blk (s : state) (b : nat) : option (list cell) :=
  match nth_error (mem s) b with Some c => c | None => None end.
Definition upd (s : state) (b : nat) (c : list cell) : state :=
  State (set_nth (mem s) b (Some c)) (objs s) (bud s).
Definition with_bud (g : option nat) (s : state) : state := State (mem s) (objs s) g.
(** An operation that may throw *)
Definition tick : comp unit := fun s =>
  match bud s with
  | None => Done s tt
  | Some O => Thrown UserException (with_bud None s)
  | Some (S k) => Done (with_bud (Some k) s) tt
  end.
Definition ptr : Type := (nat * nat)%type.
Definition off (p : ptr) (i : nat) : ptr := (fst p, (snd p + i)%nat).
(** Value of the element at p *)
Definition rd (p : ptr) : comp A := fun s =>
  match blk s (fst p) with
  | Some c => match nth_error c (snd p) with Some (Live x) => Done s x | _ => Undef end
  | None => Undef
  end.
(** Placement new of an element at p *)
Definition construct (p : ptr) (x : A) : comp unit := fun s =>
  match blk s (fst p) with
  | Some c => match nth_error c (snd p) with
              | Some Raw => Done (upd s (fst p) (set_nth c (snd p) (Live x))) tt
              | _ => Undef
              end
  | None => Undef
  end.
(** The element at p gets a new value *)
Definition poke (p : ptr) (x : A) : comp unit := fun s =>
  match blk s (fst p) with
  | Some c => match nth_error c (snd p) with
              | Some (Live _) => Done (upd s (fst p) (set_nth c (snd p) (Live x))) tt
              | _ => Undef
              end
  | None => Undef
  end.
(** Destructor call for the element at p *)
Definition destroy (p : ptr) : comp unit := fun s =>
  match blk s (fst p) with
  | Some c => match nth_error c (snd p) with
              | Some (Live _) => Done (upd s (fst p) (set_nth c (snd p) Raw)) tt
              | _ => Undef
              end
  | None => Undef
  end.
Definition tick_move : comp unit := if nothrow_move then ret tt else tick.
(** std::move(element at p) used to initialize or assign something: the value is taken *)
Definition take (p : ptr) : comp A := x <~ rd p ;; poke p (mv x) ;;; ret x.
Definition move_construct (dst src : ptr) : comp unit := tick_move ;;; x <~ take src ;; construct dst x.
Definition copy_construct (dst src : ptr) : comp unit := tick ;;; x <~ rd src ;; construct dst x.
Definition move_assign (dst src : ptr) : comp unit := tick_move ;;; x <~ take src ;; poke dst x.
(** make_unique<AlignedStorage[]>(n) *)
Definition alloc (n : nat) : comp nat := tick ;;; fun s =>
  Done (State (mem s ++ [Some (repeat Raw n)]) (objs s) (bud s)) (length (mem s)).
Definition is_raw (c : cell) : bool := match c with Raw => true | Live _ => false end.
(** delete[] of a block *)
Definition free (b : nat) : comp unit := fun s =>
  match blk s b with
  | Some c => if forallb is_raw c then Done (State (set_nth (mem s) b None) (objs s) (bud s)) tt else Undef
  | None => Undef
  end.
Definition getv (this : nat) : comp vec := fun s =>
  match nth_error (objs s) this with Some v => Done s v | None => Undef end.
Definition setv (this : nat) (v : vec) : comp unit := fun s =>
  Done (State (mem s) (set_nth (objs s) this v) (bud s)) tt.
Definition set_size (this n : nat) : comp unit :=
  v <~ getv this ;; setv this (Vec (data v) (cap v) n).

(** A const ValueType& argument: a value living elsewhere or an element of some vector *)
Inductive arg := Val (x : A) | Ref (p : ptr).
Definition read_arg (a : arg) : comp A := match a with Val x => ret x | Ref p => rd p end.

(** uint32_t arithmetic *)
Definition wrap (n : nat) : nat := n mod (M + 1).
(** SmallVector.h:1429-1433 is_storage_allocated *)
Definition allocated (this : nat) (v : vec) : bool := negb (Nat.eqb (data v) this).

(** SmallVector.h:1302-1306 destroy_range for n elements from p *)
Fixpoint destroy_range (p : ptr) (n : nat) : comp unit :=
  match n with
  | O => ret tt
  | S n' => destroy p ;;; destroy_range (off p 1) n'
  end.
(** SmallVector.h:1573-1596, 1602-1615 uninitialized_move (destroying the new elements if a move
    constructor throws), std::uninitialized_copy; [k] elements are done. *)
Fixpoint uninit_loop (ctor : ptr -> ptr -> comp unit) (src dst : ptr) (k n : nat) : comp unit :=
  match n with
  | O => ret tt
  | S n' =>
      on_throw (ctor (off dst k) (off src k)) (destroy_range dst k) ;;;
      uninit_loop ctor src dst (S k) n'
  end.
Definition uninit_move (src dst : ptr) (n : nat) := uninit_loop move_construct src dst 0 n.
Definition uninit_copy (src dst : ptr) (n : nat) := uninit_loop copy_construct src dst 0 n.
(** SmallVector.h:1617-1645 uninitialized_move_or_copy *)
Definition uninit_move_or_copy (src dst : ptr) (n : nat) : comp unit :=
  if nothrow_move then uninit_move src dst n
  else if copyable then uninit_copy src dst n
  else uninit_move src dst n.
(** SmallVector.h:1244-1267 copy_range_into_uninitialized_cells: the range is a list of values
    outside of the vector *)
Fixpoint copy_range_loop (p : ptr) (k : nat) (xs : list A) : comp unit :=
  match xs with
  | [] => ret tt
  | x :: xs' =>
      on_throw (tick ;;; construct (off p k) x) (destroy_range p k) ;;;
      copy_range_loop p (S k) xs'
  end.
Definition copy_range (p : ptr) (xs : list A) := copy_range_loop p 0 xs.
(** SmallVector.h:1273-1280 copy_value_into_uninitialized_cells *)
Fixpoint copy_value (p : ptr) (n : nat) (a : arg) : comp unit :=
  match n with
  | O => ret tt
  | S n' => (tick ;;; x <~ read_arg a ;; construct p x) ;;; copy_value (off p 1) n' a
  end.
(** SmallVector.h:1355-1372 fill_uninitialized_cells_with_default_constructed_elements *)
Fixpoint fill_default_loop (p : ptr) (k n : nat) : comp unit :=
  match n with
  | O => ret tt
  | S n' =>
      on_throw (tick ;;; construct (off p k) d) (destroy_range p k) ;;;
      fill_default_loop p (S k) n'
  end.
Definition fill_default (p : ptr) (n : nat) := fill_default_loop p 0 n.
(** std::move(first, last, dest) and std::move_backward, n elements from p to q *)
Fixpoint move_fwd (p q : ptr) (n : nat) : comp unit :=
  match n with
  | O => ret tt
  | S n' => move_assign q p ;;; move_fwd (off p 1) (off q 1) n'
  end.
Fixpoint move_bwd (p q : ptr) (n : nat) : comp unit :=
  match n with
  | O => ret tt
  | S n' => move_assign (off q n') (off p n') ;;; move_bwd p q n'
  end.
(** std::fill_n and std::copy_n: copy assignment to existing elements *)
Fixpoint fill_n (p : ptr) (n : nat) (a : arg) : comp unit :=
  match n with
  | O => ret tt
  | S n' => (tick ;;; x <~ read_arg a ;; poke p x) ;;; fill_n (off p 1) n' a
  end.
Fixpoint copy_n (xs : list A) (p : ptr) : comp unit :=
  match xs with
  | [] => ret tt
  | x :: xs' => (tick ;;; poke p x) ;;; copy_n xs' (off p 1)
  end.

(** * Member functions *)
(** SmallVector.h:1072-1089 reserve; the unique_ptr frees the new block during stack unwinding *)
Definition reserve (this n : nat) : comp unit :=
  v <~ getv this ;;
  if Nat.leb n (cap v) then ret tt
  else
    nb <~ alloc n ;;
    on_throw (uninit_move_or_copy (data v, 0) (nb, 0) (size v)) (free nb) ;;;
    destroy_range (data v, 0) (size v) ;;;
    (if allocated this v then free (data v) else ret tt) ;;;
    setv this (Vec nb n (size v)).
(** SmallVector.h:1383-1397 grow *)
Definition grow (this : nat) : comp unit :=
  v <~ getv this ;;
  let remaining := M - cap v in
  if Nat.eqb remaining 0 then throw_ LengthError
  else
    let increase := cap v / 2 in
    let increase := if Nat.ltb remaining increase then remaining
                    else if Nat.eqb increase 0 then 1 else increase in
    reserve this (wrap (cap v + increase)).
(** SmallVector.h:568-572 clear *)
Definition clear (this : nat) : comp unit :=
  v <~ getv this ;;
  destroy_range (data v, 0) (size v) ;;;
  set_size this 0.
(** SmallVector.h:317 default constructor: member initializers *)
Definition ctor_default (this : nat) : comp unit := setv this (Vec this N 0).
(** SmallVector.h:325-334 SmallVector(num_elements) *)
Fixpoint default_loop (p : ptr) (n : nat) : comp unit :=
  match n with
  | O => ret tt
  | S n' => (tick ;;; construct p d) ;;; default_loop (off p 1) n'
  end.
Definition ctor_n (this n : nat) : comp unit :=
  ctor_default this ;;;
  reserve this n ;;;
  v <~ getv this ;;
  default_loop (data v, 0) n ;;;
  set_size this n.
(** SmallVector.h:1340-1345 fill_empty_vector_with_copied_value *)
Definition fill_value (this n : nat) (a : arg) : comp unit :=
  reserve this n ;;;
  v <~ getv this ;;
  copy_value (data v, 0) n a ;;;
  set_size this n.
(** SmallVector.h:1322-1331 fill_empty_vector_with_copied_range *)
Definition fill_range (this : nat) (xs : list A) : comp unit :=
  let n := wrap (length xs) in
  reserve this n ;;;
  v <~ getv this ;;
  copy_range (data v, 0) xs ;;;
  set_size this n.
(** SmallVector.h:343-346, 363-368, 412-415 the constructors from n copies, a range and an
    initializer_list *)
Definition ctor_value (this n : nat) (a : arg) : comp unit := ctor_default this ;;; fill_value this n a.
Definition ctor_range (this : nat) (xs : list A) : comp unit := ctor_default this ;;; fill_range this xs.
(** Values of the elements of another vector *)
Fixpoint read_all (p : ptr) (n : nat) : comp (list A) :=
  match n with
  | O => ret []
  | S n' => x <~ rd p ;; xs <~ read_all (off p 1) n' ;; ret (x :: xs)
  end.
Definition contents (this : nat) : comp (list A) := v <~ getv this ;; read_all (data v, 0) (size v).
(** SmallVector.h:378-384 copy constructor; the elements of [other] are read up front, they do
    not change *)
Definition ctor_copy (this other : nat) : comp unit :=
  ctor_default this ;;;
  xs <~ contents other ;;
  fill_range this xs.
(** SmallVector.h:1491-1509 move_or_copy_all_elements_from *)
Definition move_all_from (this other : nat) : comp unit :=
  o <~ getv other ;;
  if allocated other o then
    setv this (Vec (data o) (cap o) (size o)) ;;;
    setv other (Vec other N 0)
  else
    v <~ getv this ;;
    setv this (Vec this N (size v)) ;;;
    uninit_move_or_copy (data o, 0) (this, 0) (size o) ;;;
    set_size this (size o) ;;;
    clear other.
(** SmallVector.h:401-405 move constructor *)
Definition ctor_move (this other : nat) : comp unit := ctor_default this ;;; move_all_from this other.
(** SmallVector.h:420-427 destructor *)
Definition dtor (this : nat) : comp unit :=
  clear this ;;;
  v <~ getv this ;;
  if allocated this v then free (data v) else ret tt.
(** SmallVector.h:433-484 assign *)
Definition assign_value (this n : nat) (a : arg) : comp unit := clear this ;;; fill_value this n a.
Definition assign_range (this : nat) (xs : list A) : comp unit := clear this ;;; fill_range this xs.
(** std::uninitialized_copy of values from outside, as in assign(initializer_list) 476-484 *)
Definition assign_init (this : nat) (xs : list A) : comp unit :=
  let n := wrap (length xs) in
  clear this ;;;
  reserve this n ;;;
  v <~ getv this ;;
  copy_range (data v, 0) xs ;;;
  set_size this n.
(** SmallVector.h:908-920 copy assignment *)
Definition assign_copy (this other : nat) : comp unit :=
  if Nat.eqb other this then ret tt
  else
    clear this ;;;
    o <~ getv other ;;
    reserve this (size o) ;;;
    v <~ getv this ;;
    uninit_copy (data o, 0) (data v, 0) (size o) ;;;
    set_size this (size o).
(** SmallVector.h:935-948 move assignment *)
Definition assign_move (this other : nat) : comp unit :=
  if Nat.eqb other this then ret tt
  else
    clear this ;;;
    v <~ getv this ;;
    (if allocated this v then free (data v) else ret tt) ;;;
    move_all_from this other.
(** SmallVector.h:490-503 at, 979-988 operator[], 510-522 back, 753-766 front *)
Definition index (this i : nat) : comp A := v <~ getv this ;; rd (data v, i).
Definition at_ (this i : nat) : comp A :=
  v <~ getv this ;; if Nat.leb (size v) i then throw_ OutOfRange else rd (data v, i).
Definition front (this : nat) : comp A := index this 0.
Definition back (this : nat) : comp A :=
  v <~ getv this ;; match size v with O => undef | S k => rd (data v, k) end.
(** Assignment to an element through the reference returned by operator[] *)
Definition write (this i : nat) (x : A) : comp unit := v <~ getv this ;; tick ;;; poke (data v, i) x.
(** SmallVector.h:999-1004 pop_back *)
Definition pop_back (this : nat) : comp unit :=
  v <~ getv this ;;
  match size v with
  | O => undef
  | S k => set_size this k ;;; destroy (data v, k)
  end.
(** SmallVector.h:1015-1041 push_back, 671-683 emplace_back: the new element is constructed from
    the argument; [mv_ctor] tells whether this is a move construction of a temporary. *)
Definition push_back (this : nat) (mv_ctor : bool) (a : arg) : comp unit :=
  v <~ getv this ;;
  (if Nat.eqb (size v) (cap v) then grow this else ret tt) ;;;
  v <~ getv this ;;
  (if mv_ctor then tick_move else tick) ;;;
  x <~ read_arg a ;;
  construct (data v, size v) x ;;;
  set_size this (wrap (size v + 1)).
(** SmallVector.h:1400-1427 insert_single_value; returns the position of the new element.  An
    iterator behind end() is undefined behavior, as in the functions below. *)
Definition insert_single (this pos : nat) (mv_ctor : bool) (a : arg) : comp nat :=
  v <~ getv this ;;
  if Nat.ltb (size v) pos then undef
  else if Nat.eqb pos (size v) then
    push_back this mv_ctor a ;;; v <~ getv this ;; ret (size v - 1)
  else
    (if Nat.eqb (size v) (cap v) then grow this else ret tt) ;;;
    v <~ getv this ;;
    move_construct (data v, size v) (data v, size v - 1) ;;;
    move_bwd (data v, pos) (data v, pos + 1) (size v - 1 - pos) ;;;
    set_size this (wrap (size v + 1)) ;;;
    (if mv_ctor then tick_move else tick) ;;;
    x <~ read_arg a ;;
    poke (data v, pos) x ;;;
    ret pos.
(** SmallVector.h:640-652 emplace *)
Definition emplace (this pos : nat) (x : A) : comp nat :=
  v <~ getv this ;;
  if Nat.eqb pos (size v) then
    push_back this false (Val x) ;;; v <~ getv this ;; ret (size v - 1)
  else
    tick ;;; insert_single this pos true (Val x).
(** SmallVector.h:717-747 erase of n elements from pos *)
Definition erase (this pos n : nat) : comp nat :=
  v <~ getv this ;;
  if Nat.ltb (size v) (pos + n) then undef
  else
    move_fwd (data v, pos + n) (data v, pos) (size v - (pos + n)) ;;;
    destroy_range (data v, size v - n) n ;;;
    set_size this (size v - n) ;;;
    ret pos.
(** SmallVector.h:1445-1471 make_space_at_idx_for_n_elements *)
Fixpoint move_init (from to : ptr) (n : nat) : comp unit :=
  match n with
  | O => ret tt
  | S n' => move_construct to from ;;; move_init (off from 1) (off to 1) n'
  end.
Definition make_space (this idx n : nat) : comp nat :=
  v <~ getv this ;;
  if Nat.ltb (size v) idx then undef else
  let new_size := wrap (size v + n) in
  (if Nat.ltb (cap v) new_size then reserve this new_size else ret tt) ;;;
  v <~ getv this ;;
  let num_shifted := size v - idx in
  let num_init := Nat.min num_shifted n in
  let num_moved := num_shifted - num_init in
  let from := size v - num_init in
  move_init (data v, from) (data v, from + n) num_init ;;;
  move_bwd (data v, idx) (data v, from + n - num_moved) num_moved ;;;
  ret num_init.
(** SmallVector.h:807-827 insert(pos, n, value) *)
Definition insert_value (this pos n : nat) (a : arg) : comp nat :=
  if Nat.ltb n 1 then ret pos
  else
    k <~ make_space this pos n ;;
    v <~ getv this ;;
    fill_n (data v, pos) k a ;;;
    copy_value (data v, size v) (n - k) a ;;;
    set_size this (wrap (size v + n)) ;;;
    ret pos.
(** SmallVector.h:848-888 insert(pos, first, last) and insert(pos, initializer_list); the range
    is a list of values outside of the vector *)
Definition insert_range (this pos : nat) (xs : list A) : comp nat :=
  let n := wrap (length xs) in
  if Nat.ltb n 1 then ret pos
  else
    k <~ make_space this pos n ;;
    v <~ getv this ;;
    copy_n (firstn k xs) (data v, pos) ;;;
    copy_range (data v, size v) (skipn k xs) ;;;
    set_size this (wrap (size v + n)) ;;;
    ret pos.
(** SmallVector.h:1106-1124 resize(n) *)
Definition resize (this n : nat) : comp unit :=
  v <~ getv this ;;
  (if Nat.ltb n (size v) then destroy_range (data v, n) (size v - n)
   else if Nat.ltb (size v) n then
     reserve this n ;;;
     v <~ getv this ;;
     fill_default (data v, size v) (n - size v)
   else ret tt) ;;;
  set_size this n.
(** SmallVector.h:1137-1149 resize(n, element) *)
Definition resize_value (this n : nat) (a : arg) : comp unit :=
  v <~ getv this ;;
  (if Nat.ltb n (size v) then destroy_range (data v, n) (size v - n)
   else if Nat.ltb (size v) n then
     reserve this n ;;;
     v <~ getv this ;;
     copy_value (data v, size v) (n - size v) a
   else ret tt) ;;;
  set_size this n.
(** SmallVector.h:1155-1183 shrink_to_fit *)
Definition shrink_to_fit (this : nat) : comp unit :=
  v <~ getv this ;;
  let n := Nat.max N (size v) in
  if Nat.eqb n (cap v) then ret tt
  else
    nb <~ (if Nat.eqb n N then ret this else alloc n) ;;
    on_throw (uninit_move_or_copy (data v, 0) (nb, 0) (size v))
             (if Nat.eqb n N then ret tt else free nb) ;;;
    destroy_range (data v, 0) (size v) ;;;
    (if allocated this v then free (data v) else ret tt) ;;;
    setv this (Vec nb n (size v)).
(** std::swap of n elements *)
Fixpoint swap_elements (p q : ptr) (n : nat) : comp unit :=
  match n with
  | O => ret tt
  | S n' =>
      tick_move ;;; tmp <~ take p ;;
      move_assign p q ;;;
      tick_move ;;; poke q tmp ;;;
      swap_elements (off p 1) (off q 1) n'
  end.
(** SmallVector.h:1516-1567 the three cases of swap *)
Definition swap_heap_with_heap (a b : nat) : comp unit :=
  va <~ getv a ;; vb <~ getv b ;;
  setv a vb ;;; setv b va.
Definition swap_heap_with_internal (a b : nat) : comp unit :=
  va <~ getv a ;; vb <~ getv b ;;
  uninit_move_or_copy (data vb, 0) (a, 0) (size vb) ;;;
  destroy_range (data vb, 0) (size vb) ;;;
  setv b (Vec (data va) (cap va) (size va)) ;;;
  setv a (Vec a (cap vb) (size vb)).
Definition swap_internal_with_internal (a b : nat) : comp unit :=
  va <~ getv a ;; vb <~ getv b ;;
  (if Nat.leb (size va) (size vb) then
     swap_elements (data va, 0) (data vb, 0) (size va) ;;;
     uninit_move_or_copy (data vb, size va) (data va, size va) (size vb - size va) ;;;
     destroy_range (data vb, size va) (size vb - size va)
   else
     swap_elements (data va, 0) (data vb, 0) (size vb) ;;;
     uninit_move_or_copy (data va, size vb) (data vb, size vb) (size va - size vb) ;;;
     destroy_range (data va, size vb) (size va - size vb)) ;;;
  set_size a (size vb) ;;;
  set_size b (size va).
(** SmallVector.h:1195-1211 swap *)
Definition swap (a b : nat) : comp unit :=
  va <~ getv a ;; vb <~ getv b ;;
  if allocated a va then
    if allocated b vb then swap_heap_with_heap a b else swap_heap_with_internal a b
  else
    if allocated b vb then swap_heap_with_internal b a else swap_internal_with_internal a b.
(** SmallVector.h:959-976 operator== with a given element comparison *)
Definition equal (eqb : A -> A -> bool) (a b : nat) : comp bool :=
  xs <~ contents a ;; ys <~ contents b ;;
  ret (Nat.eqb (length xs) (length ys) && forallb (fun p => eqb (fst p) (snd p)) (combine xs ys)).
End SmallVector.
