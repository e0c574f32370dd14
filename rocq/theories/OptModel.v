(** Model of include/gul14/optional.h.

    A program works on a fixed number of optional<T> variables.  Each variable is unused or
    holds an optional object: its flag init_ and its storage, which is raw memory or a live
    element.  The state also counts how many T objects were constructed and destroyed.

    [Undef] stands for undefined behavior and for lifetime errors: constructing on top of a
    live element, destroying or reading raw memory, or ending the lifetime of an optional
    whose storage still holds a live element.

    The element type is described by the value [mv x] a moved-from element is left with and
    by is_nothrow_move_constructible ([nothrow_move], also taken for move assignment).  All
    other constructors and assignments of T may throw: [bud] counts the potentially throwing
    operations until the first one that does throw; None means that nothing throws.
    A throwing operation of T has no effect (a constructor that throws constructs nothing,
    an assignment that throws leaves the target as it was).
    Simplification: the variant with a trivial destructor (optional.h:228-253) is not
    distinguished; its destructor calls are no-ops. *)
From Verif Require Import Base.
From Coq Require Import PeanoNat.

Section Optional.
Context {A : Type} (mv : A -> A) (nothrow_move : bool).

Inductive cell := Raw | Live (x : A).
(** optional.h:200-203 init_ and storage_ *)
Record opt := Opt { init_ : bool; storage_ : cell }.
Record state := State { vars : list (option opt); made : nat; gone : nat; bud : option nat }.

Inductive res (X : Type) := Done (s : state) (x : X) | Thrown (e : exn) (s : state) | Undef.
Arguments Done {X} s x.
Arguments Thrown {X} e s.
Arguments Undef {X}.
Definition comp (X : Type) : Type := state -> res X.
Definition ret {X} (x : X) : comp X := fun s => Done s x.
Definition bindc {X Y} (m : comp X) (f : X -> comp Y) : comp Y := fun s =>
  match m s with
  | Done s' x => f x s'
  | Thrown e s' => Thrown e s'
  | Undef => Undef
  end.
Local Notation "x <~ m ;; f" := (bindc m (fun x => f)) (at level 61, m at next level, right associativity).
Local Notation "m ;;; f" := (bindc m (fun _ => f)) (at level 61, right associativity).
Definition throw_ {X} (e : exn) : comp X := fun s => Thrown e s.
Definition undef {X} : comp X := fun _ => Undef.

(** * Objects *)
Fixpoint set_nth {T} (l : list T) (i : nat) (x : T) : list T :=
  match l, i with
  | [], _ => []
  | _ :: l', O => x :: l'
  | a :: l', S i' => a :: set_nth l' i' x
  end.
Definition get (i : nat) : comp opt := fun s =>
  match nth_error (vars s) i with Some (Some o) => Done s o | _ => Undef end.
Definition put (i : nat) (o : option opt) : comp unit := fun s =>
  Done (State (set_nth (vars s) i o) (made s) (gone s) (bud s)) tt.
Definition count_made : comp unit := fun s => Done (State (vars s) (S (made s)) (gone s) (bud s)) tt.
Definition count_gone : comp unit := fun s => Done (State (vars s) (made s) (S (gone s)) (bud s)) tt.

(** An operation that may throw *)
Definition tick : comp unit := fun s =>
  match bud s with
  | None => Done s tt
  | Some O => Thrown UserException (State (vars s) (made s) (gone s) None)
  | Some (S k) => Done (State (vars s) (made s) (gone s) (Some k)) tt
  end.
Definition tick_move : comp unit := if nothrow_move then ret tt else tick.

(** The element in the storage of optional i: value, new value, placement new, destructor *)
Definition rd (i : nat) : comp A :=
  o <~ get i ;; match storage_ o with Live x => ret x | Raw => undef end.
Definition poke (i : nat) (x : A) : comp unit :=
  o <~ get i ;; match storage_ o with Live _ => put i (Some (Opt (init_ o) (Live x))) | Raw => undef end.
Definition construct (i : nat) (x : A) : comp unit :=
  o <~ get i ;;
  match storage_ o with Raw => put i (Some (Opt (init_ o) (Live x))) ;;; count_made | Live _ => undef end.
Definition destroy (i : nat) : comp unit :=
  o <~ get i ;;
  match storage_ o with Live _ => put i (Some (Opt (init_ o) Raw)) ;;; count_gone | Raw => undef end.
(** The value is taken out of an element by std::move *)
Definition take (i : nat) : comp A := x <~ rd i ;; poke i (mv x) ;;; ret x.

(** Setting the flag *)
Definition set_init (i : nat) (b : bool) : comp unit :=
  o <~ get i ;; put i (Some (Opt b (storage_ o))).

(** A T argument: an rvalue or lvalue living elsewhere, or the element *j of another (or the
    same) optional, passed as an lvalue *)
Inductive arg := RVal (x : A) | LVal (x : A) | Ref (j : nat).
(** T(std::forward<Args>(args)...) or = std::forward<U>(v): reads the argument *)
Definition use (a : arg) : comp A :=
  match a with
  | RVal x => tick_move ;;; ret x
  | LVal x => tick ;;; ret x
  | Ref j => tick ;;; rd j
  end.

(** optional.h:303-306 clear() *)
Definition clear (i : nat) : comp unit :=
  o <~ get i ;;
  (if init_ o then destroy i else ret tt) ;;;
  set_init i false.

(** optional.h:308-313 and 315-320 initialize(); the assertion is not modelled: [construct]
    over a live element is an error already *)
Definition initialize (i : nat) (a : arg) : comp unit :=
  x <~ use a ;; construct i x ;;; set_init i true.
(** initialize from std::move of the element of rhs *)
Definition initialize_move (i j : nat) : comp unit :=
  tick_move ;;; x <~ take j ;; construct i x ;;; set_init i true.

(** * Constructors: variable i must be unused.  If a constructor throws there is no object. *)
Definition unused (i : nat) : comp unit := fun s =>
  match nth_error (vars s) i with Some None => Done s tt | _ => Undef end.
(** optional.h:327-331 and 201-202 optional(), optional(nullopt) *)
Definition ctor_empty (i : nat) : comp unit := unused i ;;; put i (Some (Opt false Raw)).
(** optional.h:349-364 and 204-217 optional(const T&), optional(T&&), optional(in_place, ...) *)
Definition ctor_value (i : nat) (a : arg) : comp unit :=
  unused i ;;; x <~ use a ;; put i (Some (Opt true (Live x))) ;;; count_made.
(** ~optional_base, optional.h:219-221, and the end of the storage *)
Definition dtor (i : nat) : comp unit :=
  o <~ get i ;;
  (if init_ o then destroy i else ret tt) ;;;
  o' <~ get i ;;
  match storage_ o' with Raw => put i None | Live _ => undef end.
(** A constructor body that throws: the base class is destroyed *)
Definition ctor_body (i : nat) (m : comp unit) : comp unit := fun s =>
  match m s with
  | Thrown e s' => match dtor i s' with Done s'' _ => Thrown e s'' | Thrown e' s'' => Thrown e' s'' | Undef => Undef end
  | r => r
  end.
(** optional.h:333-339 copy constructor *)
Definition ctor_copy (i j : nat) : comp unit :=
  ctor_empty i ;;;
  ctor_body i
    (r <~ get j ;;
     if init_ r then (x <~ use (Ref j) ;; construct i x ;;; set_init i true) else ret tt).
(** optional.h:341-347 move constructor *)
Definition ctor_move (i j : nat) : comp unit :=
  ctor_empty i ;;;
  ctor_body i
    (r <~ get j ;;
     if init_ r then (tick_move ;;; x <~ take j ;; construct i x ;;; set_init i true) else ret tt).

(** * Assignment *)
(** optional.h:370-373 operator=(nullopt) and 496-498 reset() *)
Definition assign_null (i : nat) : comp unit := clear i.
Definition reset (i : nat) : comp unit := clear i.
(** optional.h:375-380 operator=(const optional&) *)
Definition assign_copy (i j : nat) : comp unit :=
  o <~ get i ;; r <~ get j ;;
  if init_ o && negb (init_ r) then clear i
  else if negb (init_ o) && init_ r then initialize i (Ref j)
  else if init_ o && init_ r then x <~ use (Ref j) ;; poke i x
  else ret tt.
(** optional.h:382-388 operator=(optional&&) *)
Definition assign_move (i j : nat) : comp unit :=
  o <~ get i ;; r <~ get j ;;
  if init_ o && negb (init_ r) then clear i
  else if negb (init_ o) && init_ r then initialize_move i j
  else if init_ o && init_ r then tick_move ;;; x <~ take j ;; poke i x
  else ret tt.
(** optional.h:390-399 operator=(U&&) for U = T *)
Definition assign_value (i : nat) (a : arg) : comp unit :=
  o <~ get i ;;
  if init_ o then x <~ use a ;; poke i x else initialize i a.
(** optional.h:401-411 emplace(...) *)
Definition emplace (i : nat) (a : arg) : comp unit := clear i ;;; initialize i a.

(** std::swap of two elements: a temporary is move constructed, two move assignments, and
    the temporary is destroyed on every way out *)
Definition swap_elements (i j : nat) : comp unit :=
  tick_move ;;; tmp <~ take i ;; count_made ;;;
  (fun s =>
     match (tick_move ;;; x <~ take j ;; poke i x ;;; tick_move ;;; poke j tmp) s with
     | Done s' _ => count_gone s'
     | Thrown e s' => match count_gone s' with Done s'' _ => Thrown e s'' | _ => Undef end
     | Undef => Undef
     end).
(** optional.h:415-427 swap() *)
Definition swap (i j : nat) : comp unit :=
  o <~ get i ;; r <~ get j ;;
  if init_ o && negb (init_ r) then initialize_move j i ;;; clear i
  else if negb (init_ o) && init_ r then initialize_move i j ;;; clear j
  else if init_ o && init_ r then swap_elements i j
  else ret tt.

(** * Observers *)
(** optional.h:431-437 operator bool, has_value() *)
Definition has_value (i : nat) : comp bool := o <~ get i ;; ret (init_ o).
(** optional.h:448-460 operator*; without a value it is undefined (the assertion fails or,
    with NDEBUG, raw storage is read) *)
Definition deref (i : nat) : comp A := o <~ get i ;; if init_ o then rd i else undef.
(** *o = v, through optional.h:452-455 *)
Definition write (i : nat) (a : arg) : comp unit :=
  o <~ get i ;; if init_ o then x <~ use a ;; poke i x else undef.
(** optional.h:462-474 value() *)
Definition value (i : nat) : comp A :=
  o <~ get i ;; if init_ o then rd i else throw_ BadOptionalAccess.
(** optional.h:481-484 value_or(v) const&; the copy of the result may throw *)
Definition value_or (i : nat) (a : arg) : comp A :=
  o <~ get i ;; if init_ o then tick ;;; rd i else use a.
(** optional.h:486-489 value_or(v) &&: the value is moved out *)
Definition value_or_move (i : nat) (a : arg) : comp A :=
  o <~ get i ;; if init_ o then tick_move ;;; take i else use a.

End Optional.

Arguments RVal {A}. Arguments LVal {A}. Arguments Ref {A}.
Arguments Raw {A}. Arguments Live {A}. Arguments Opt {A}. Arguments State {A}.
Arguments Done {A X}. Arguments Thrown {A X}. Arguments Undef {A X}.

(** * Relational operators, optional.h:638-763

    Parameters: the element type's operators.  Reading *x of an optional without a value is
    undefined. *)
Record rel (A : Type) := Rel { r_eq : A -> A -> bool; r_ne : A -> A -> bool; r_lt : A -> A -> bool;
  r_gt : A -> A -> bool; r_le : A -> A -> bool; r_ge : A -> A -> bool }.
Arguments Rel {A}. Arguments r_eq {A}. Arguments r_ne {A}. Arguments r_lt {A}. Arguments r_gt {A}.
Arguments r_le {A}. Arguments r_ge {A}.
Section Relational.
Context {A : Type} (o : rel A).
Local Notation eq := (r_eq o). Local Notation ne := (r_ne o). Local Notation lt := (r_lt o).
Local Notation gt := (r_gt o). Local Notation le := (r_le o). Local Notation ge := (r_ge o).
Local Open Scope outcome_scope.
Definition star (x : opt) : outcome A :=
  if init_ x then match storage_ x with Live a => Ok a | Raw => UB end else UB.
Definition bool_of (x : @opt A) : bool := init_ x.
(** Lines 638-640 *)
Definition opt_eq (x y : opt) : outcome bool :=
  if negb (Bool.eqb (bool_of x) (bool_of y)) then Ok false
  else if negb (bool_of x) then Ok true
  else a <- star x ;; b <- star y ;; Ok (eq a b).
(** Lines 642-644 *)
Definition opt_ne (x y : opt) : outcome bool := b <- opt_eq x y ;; Ok (negb b).
(** Lines 646-648 *)
Definition opt_lt (x y : opt) : outcome bool :=
  if negb (bool_of y) then Ok false
  else if negb (bool_of x) then Ok true
  else a <- star x ;; b <- star y ;; Ok (lt a b).
(** Lines 650-660 *)
Definition opt_gt (x y : opt) : outcome bool := opt_lt y x.
Definition opt_le (x y : opt) : outcome bool := b <- opt_lt y x ;; Ok (negb b).
Definition opt_ge (x y : opt) : outcome bool := b <- opt_lt x y ;; Ok (negb b).

(** Lines 665-711: comparison with nullopt, on the right and on the left *)
Definition eq_null (x : @opt A) : bool := negb (bool_of x).
Definition null_eq (x : @opt A) : bool := negb (bool_of x).
Definition ne_null (x : @opt A) : bool := bool_of x.
Definition null_ne (x : @opt A) : bool := bool_of x.
Definition lt_null (x : @opt A) : bool := false.
Definition null_lt (x : @opt A) : bool := bool_of x.
Definition le_null (x : @opt A) : bool := negb (bool_of x).
Definition null_le (x : @opt A) : bool := true.
Definition gt_null (x : @opt A) : bool := bool_of x.
Definition null_gt (x : @opt A) : bool := false.
Definition ge_null (x : @opt A) : bool := true.
Definition null_ge (x : @opt A) : bool := negb (bool_of x).

(** Lines 717-763: comparison with a value on the right and on the left.  [op] is the
    element operator, the last argument the result for an optional without a value. *)
Definition with_value (op : A -> A -> bool) (x : opt) (v : A) (none : bool) : outcome bool :=
  if bool_of x then a <- star x ;; Ok (op a v) else Ok none.
Definition value_with (op : A -> A -> bool) (v : A) (x : opt) (none : bool) : outcome bool :=
  if bool_of x then a <- star x ;; Ok (op v a) else Ok none.
Definition eq_val (x : opt) (v : A) := with_value eq x v false.
Definition val_eq (v : A) (x : opt) := value_with eq v x false.
Definition ne_val (x : opt) (v : A) := with_value ne x v true.
Definition val_ne (v : A) (x : opt) := value_with ne v x true.
Definition lt_val (x : opt) (v : A) := with_value lt x v true.
Definition val_gt (v : A) (x : opt) := value_with gt v x true.
Definition gt_val (x : opt) (v : A) := with_value gt x v false.
Definition val_lt (v : A) (x : opt) := value_with lt v x false.
Definition ge_val (x : opt) (v : A) := with_value ge x v false.
Definition val_le (v : A) (x : opt) := value_with le v x false.
Definition le_val (x : opt) (v : A) := with_value le x v true.
Definition val_ge (v : A) (x : opt) := value_with ge v x true.
End Relational.

(** * optional<T&>, optional.h:507-626: a pointer to an object in [m], or null. *)
Section Reference.
Context {A : Type}.
Definition rref : Type := option nat.
(** Lines 523-543, 582-584 and 621-623: null, reference to object k, copy, emplace, reset *)
Definition ref_null : rref := None.
Definition ref_to (k : nat) : rref := Some k.
(** Lines 550-577 operator=: rebinds, does not assign to the object *)
Definition ref_assign (this rhs : rref) : rref := rhs.
(** Lines 588-590 swap() *)
Definition ref_swap (this rhs : rref) : rref * rref := (rhs, this).
(** Lines 606-612 operator bool, has_value() *)
Definition ref_has_value (r : rref) : bool := match r with Some _ => true | None => false end.
(** Lines 602-604 value() *)
Definition ref_value (m : list A) (r : rref) : outcome A :=
  match r with
  | Some k => match nth_error m k with Some a => Ok a | None => UB end
  | None => Throw BadOptionalAccess
  end.
(** Lines 614-617 value_or(v) *)
Definition ref_value_or (m : list A) (r : rref) (v : A) : outcome A :=
  if ref_has_value r
  then match r with
       | Some k => match nth_error m k with Some a => Ok a | None => UB end
       | None => UB
       end
  else Ok v.
End Reference.
