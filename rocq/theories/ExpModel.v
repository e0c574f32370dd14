(** Model of include/gul14/expected.h.

    A program works on a fixed number of expected<T, E> variables.  Each variable is unused
    or holds an object: the flag m_has_val and the union, which is raw memory, a live T or a
    live unexpected<E>.  The state also counts how many T and E objects were constructed
    and destroyed.

    [Undef] stands for undefined behavior: destroying, reading or assigning an object that
    is not there, or ending the lifetime of a variable whose union still holds a live
    object.  Placement new over a live object is not undefined; that object is just never
    destroyed.  [Terminated] stands for std::terminate(), called when an exception leaves a
    noexcept function.

    The element types are described by the value a moved-from object is left with and by the
    type traits is_nothrow_copy_constructible etc.  An operation that is not declared
    noexcept may throw: [bud] counts the potentially throwing operations until the first one
    that does throw; None means that nothing throws.  A throwing operation of T or E has no
    effect.
    Simplifications: the variants with trivial destructors (expected.h:415-544) and trivial
    copies (851-858, 880-886, 908-919, 937-948) are not distinguished; their destructor
    calls and copies are no-ops and bytewise copies.  expected<void, E> (546-614, 798-849)
    is the instance T = unit with nothing throwing: assign() at 818-831 is the same case
    distinction as 646-656 and 761-775. *)
From Verif Require Import Base.
From Coq Require Import PeanoNat.

(** is_nothrow_copy_constructible, is_nothrow_move_constructible, and the same for
    assignment, of an element type *)
Record traits := Traits { nt_copy : bool; nt_move : bool; nt_copy_assign : bool; nt_move_assign : bool }.

Section Expected.
Context {A B : Type} (mv : A -> A) (mve : B -> B) (dflt : A) (T E : traits).

Inductive cell := Raw | Val (x : A) | Err (e : B).
(** expected.h:407-412 the union and m_has_val *)
Record ex := Ex { has : bool; slot : cell }.
Record state := State { vars : list (option ex); made : nat; gone : nat; bud : option nat }.

(** bad_expected_access<E> with its error (expected.h:1142-1155), or an exception of T or E *)
Inductive exc := Bad (e : B) | User.
Inductive res (X : Type) := Done (s : state) (x : X) | Thrown (e : exc) (s : state) | Terminated | Undef.
Arguments Done {X} s x.
Arguments Thrown {X} e s.
Arguments Terminated {X}.
Arguments Undef {X}.
Definition comp (X : Type) : Type := state -> res X.
Definition ret {X} (x : X) : comp X := fun s => Done s x.
Definition bindc {X Y} (m : comp X) (f : X -> comp Y) : comp Y := fun s =>
  match m s with
  | Done s' x => f x s'
  | Thrown e s' => Thrown e s'
  | Terminated => Terminated
  | Undef => Undef
  end.
Local Notation "x <~ m ;; f" := (bindc m (fun x => f)) (at level 61, m at next level, right associativity).
Local Notation "m ;;; f" := (bindc m (fun _ => f)) (at level 61, right associativity).
Definition throw_ {X} (e : exc) : comp X := fun s => Thrown e s.
Definition undef {X} : comp X := fun _ => Undef.
(** A noexcept function *)
Definition noexcept_ {X} (b : bool) (m : comp X) : comp X := fun s =>
  match m s with Thrown e s' => if b then Terminated else Thrown e s' | r => r end.
(** try { m } catch (...) { h; throw; } *)
Definition try_ {X} (m : comp X) (h : comp unit) : comp X := fun s =>
  match m s with
  | Thrown e s' => match h s' with
                   | Done s'' _ => Thrown e s''
                   | Thrown e' s'' => Thrown e' s''
                   | Terminated => Terminated
                   | Undef => Undef
                   end
  | r => r
  end.

(** * Objects *)
Fixpoint set_nth {Y} (l : list Y) (i : nat) (x : Y) : list Y :=
  match l, i with
  | [], _ => []
  | _ :: l', O => x :: l'
  | a :: l', S i' => a :: set_nth l' i' x
  end.
Definition get (i : nat) : comp ex := fun s =>
  match nth_error (vars s) i with Some (Some o) => Done s o | _ => Undef end.
Definition put (i : nat) (o : option ex) : comp unit := fun s =>
  Done (State (set_nth (vars s) i o) (made s) (gone s) (bud s)) tt.
Definition count_made : comp unit := fun s => Done (State (vars s) (S (made s)) (gone s) (bud s)) tt.
Definition count_gone : comp unit := fun s => Done (State (vars s) (made s) (S (gone s)) (bud s)) tt.
(** An element operation; [nt]: it is noexcept *)
Definition tick (nt : bool) : comp unit := fun s =>
  if nt then Done s tt else
  match bud s with
  | None => Done s tt
  | Some O => Thrown User (State (vars s) (made s) (gone s) None)
  | Some (S k) => Done (State (vars s) (made s) (gone s) (Some k)) tt
  end.
(** The scope of a local object of type T or E that has just been initialized: it is
    destroyed on every way out *)
Definition scoped {X} (m : comp X) : comp X :=
  count_made ;;;
  (fun s => match m s with
            | Done s' x => Done (State (vars s') (made s') (S (gone s')) (bud s')) x
            | Thrown e s' => Thrown e (State (vars s') (made s') (S (gone s')) (bud s'))
            | Terminated => Terminated
            | Undef => Undef
            end).

(** The T and the unexpected<E> in the union: value, assignment, placement new, destructor *)
Definition rd_val (i : nat) : comp A :=
  o <~ get i ;; match slot o with Val x => ret x | _ => undef end.
Definition rd_err (i : nat) : comp B :=
  o <~ get i ;; match slot o with Err e => ret e | _ => undef end.
Definition poke_val (i : nat) (x : A) : comp unit :=
  o <~ get i ;; match slot o with Val _ => put i (Some (Ex (has o) (Val x))) | _ => undef end.
Definition poke_err (i : nat) (e : B) : comp unit :=
  o <~ get i ;; match slot o with Err _ => put i (Some (Ex (has o) (Err e))) | _ => undef end.
Definition new_val (i : nat) (x : A) : comp unit :=
  o <~ get i ;; put i (Some (Ex (has o) (Val x))) ;;; count_made.
Definition new_err (i : nat) (e : B) : comp unit :=
  o <~ get i ;; put i (Some (Ex (has o) (Err e))) ;;; count_made.
Definition del_val (i : nat) : comp unit :=
  o <~ get i ;; match slot o with Val _ => put i (Some (Ex (has o) Raw)) ;;; count_gone | _ => undef end.
Definition del_err (i : nat) : comp unit :=
  o <~ get i ;; match slot o with Err _ => put i (Some (Ex (has o) Raw)) ;;; count_gone | _ => undef end.
(** The value is taken out by std::move *)
Definition take_val (i : nat) : comp A := x <~ rd_val i ;; poke_val i (mv x) ;;; ret x.
Definition take_err (i : nat) : comp B := e <~ rd_err i ;; poke_err i (mve e) ;;; ret e.
Definition set_has (i : nat) (b : bool) : comp unit :=
  o <~ get i ;; put i (Some (Ex b (slot o))).
Definition swap_has (i j : nat) : comp unit :=
  o <~ get i ;; r <~ get j ;; set_has i (has r) ;;; set_has j (has o).

(** An argument for T: an rvalue or an lvalue of type T living elsewhere, arguments of
    other types ([nt]: is_nothrow_constructible<T, Args...>), or the value *j of an expected
    variable, passed as an lvalue *)
Inductive arg := RVal (x : A) | LVal (x : A) | Via (nt : bool) (x : A) | Ref (j : nat).
(** is_nothrow_constructible<T, U&&> *)
Definition nt_arg (a : arg) : bool :=
  match a with RVal _ => nt_move T | LVal _ | Ref _ => nt_copy T | Via nt _ => nt end.
(** T(std::forward<U>(v)): reads the argument *)
Definition use (a : arg) : comp A :=
  tick (nt_arg a) ;;; match a with RVal x | LVal x | Via _ x => ret x | Ref j => rd_val j end.
(** The argument of an assignment to a T; from another type it may always throw *)
Definition use_assign (a : arg) : comp A :=
  tick (match a with RVal _ => nt_move_assign T | LVal _ | Ref _ => nt_copy_assign T | Via _ _ => false end) ;;;
  match a with RVal x | LVal x | Via _ x => ret x | Ref j => rd_val j end.
(** An argument for E: an rvalue or an lvalue unexpected<E> *)
Inductive earg := ERVal (e : B) | ELVal (e : B).
Definition euse (a : earg) : comp B :=
  match a with ERVal e => tick (nt_move E) ;;; ret e | ELVal e => tick (nt_copy E) ;;; ret e end.

(** * Constructors: variable i must be unused *)
Definition unused (i : nat) : comp unit := fun s =>
  match nth_error (vars s) i with Some None => Done s tt | _ => Undef end.
(** expected.h:371 and 1417 expected() *)
Definition ctor_default (i : nat) : comp unit :=
  unused i ;;; tick false ;;; put i (Some (Ex true (Val dflt))) ;;; count_made.
(** expected.h:374-385, 1423-1435 and 1546-1558: from a value or in place *)
Definition ctor_value (i : nat) (a : arg) : comp unit :=
  unused i ;;; x <~ use a ;; put i (Some (Ex true (Val x))) ;;; count_made.
(** expected.h:386-398 and 1437-1486: from unexpected<G> or with the unexpect tag *)
Definition ctor_error (i : nat) (a : earg) : comp unit :=
  unused i ;;; e <~ euse a ;; put i (Some (Ex false (Err e))) ;;; count_made.
(** expected.h:372: no_init *)
Definition ctor_no_init (i : nat) : comp unit := unused i ;;; put i (Some (Ex false Raw)).

(** expected.h:622-636 construct, construct_with and construct_error; all are noexcept.
    The operand is a copy or a move of the content of j. *)
Definition construct_copy (i j : nat) : comp unit :=
  noexcept_ true (tick (nt_copy T) ;;; x <~ rd_val j ;; new_val i x ;;; set_has i true).
Definition construct_move (i j : nat) : comp unit :=
  noexcept_ true (tick (nt_move T) ;;; x <~ take_val j ;; new_val i x ;;; set_has i true).
Definition construct_error_copy (i j : nat) : comp unit :=
  noexcept_ true (tick (nt_copy E) ;;; e <~ rd_err j ;; new_err i e ;;; set_has i false).
Definition construct_error_move (i j : nat) : comp unit :=
  noexcept_ true (tick (nt_move E) ;;; e <~ take_err j ;; new_err i e ;;; set_has i false).

(** expected.h:866-873 copy constructor *)
Definition ctor_copy (i j : nat) : comp unit :=
  ctor_no_init i ;;; r <~ get j ;;
  if has r then construct_copy i j else construct_error_copy i j.
(** expected.h:895-903 move constructor; noexcept if T's is *)
Definition ctor_move (i j : nat) : comp unit :=
  noexcept_ (nt_move T)
    (ctor_no_init i ;;; r <~ get j ;;
     if has r then construct_move i j else construct_error_move i j).
(** expected.h:1488-1544 conversion from expected<U, G>: the base class is default
    constructed, then construct or construct_error, which are noexcept.  [src] is the
    converted content of the operand. *)
Definition ctor_convert (i : nat) (src : A + B) : comp unit :=
  ctor_default i ;;;
  match src with
  | inl x => noexcept_ true (tick false ;;; new_val i x ;;; set_has i true)
  | inr e => noexcept_ true (tick false ;;; new_err i e ;;; set_has i false)
  end.
(** expected.h:400-406 destructor, and the end of the storage *)
Definition dtor (i : nat) : comp unit :=
  o <~ get i ;;
  (if has o then del_val i else del_err i) ;;;
  o' <~ get i ;;
  match slot o' with Raw => put i None | _ => undef end.

(** * Assignment *)
(** expected.h:762-775 assign_common for a const lvalue *)
Definition assign_common_copy (i j : nat) : comp unit :=
  o <~ get i ;; r <~ get j ;;
  if has o
  then if has r then tick (nt_copy_assign T) ;;; x <~ rd_val j ;; poke_val i x
       else del_val i ;;; construct_error_copy i j
  else if negb (has r) then tick (nt_copy_assign E) ;;; e <~ rd_err j ;; poke_err i e
       else ret tt.
(** expected.h:762-775 assign_common for an rvalue *)
Definition assign_common_move (i j : nat) : comp unit :=
  o <~ get i ;; r <~ get j ;;
  if has o
  then if has r then tick (nt_move_assign T) ;;; x <~ take_val j ;; poke_val i x
       else del_val i ;;; construct_error_move i j
  else if negb (has r) then tick (nt_move_assign E) ;;; e <~ take_err j ;; poke_err i e
       else ret tt.
(** expected.h:646-656 assign for nothrow copyable T *)
Definition assign_copy1 (i j : nat) : comp unit :=
  noexcept_ true
    (o <~ get i ;; r <~ get j ;;
     if negb (has o) && has r then del_err i ;;; construct_copy i j
     else assign_common_copy i j).
(** expected.h:660-672 assign for nothrow movable T: a copy is made first and moved *)
Definition assign_copy2 (i j : nat) : comp unit :=
  noexcept_ true
    (o <~ get i ;; r <~ get j ;;
     if negb (has o) && has r
     then tick (nt_copy T) ;;; tmp <~ rd_val j ;;
          scoped (del_err i ;;;
                  noexcept_ true (tick (nt_move T) ;;; new_val i tmp ;;; set_has i true))
     else assign_common_copy i j).
(** expected.h:679-701 assign for other T *)
Definition assign_copy3 (i j : nat) : comp unit :=
  o <~ get i ;; r <~ get j ;;
  if negb (has o) && has r
  then tick (nt_move E) ;;; tmp <~ take_err i ;;
       scoped (del_err i ;;;
               try_ (construct_copy i j) (tick (nt_move_assign E) ;;; poke_err i tmp))
  else assign_common_copy i j.
(** expected.h:929-932 operator=(const expected&): overload resolution on the traits of T *)
Definition assign_copy (i j : nat) : comp unit :=
  if nt_copy T then assign_copy1 i j
  else if nt_move T then assign_copy2 i j
  else assign_copy3 i j.
(** expected.h:704-714 *)
Definition assign_move1 (i j : nat) : comp unit :=
  noexcept_ true
    (o <~ get i ;; r <~ get j ;;
     if negb (has o) && has r then del_err i ;;; construct_move i j
     else assign_common_move i j).
(** expected.h:716-736 *)
Definition assign_move2 (i j : nat) : comp unit :=
  o <~ get i ;; r <~ get j ;;
  if negb (has o) && has r
  then tick (nt_move E) ;;; tmp <~ take_err i ;;
       scoped (del_err i ;;;
               try_ (construct_move i j) (tick (nt_move_assign E) ;;; poke_err i tmp))
  else assign_common_move i j.
(** expected.h:963-969 operator=(expected&&) *)
Definition assign_move (i j : nat) : comp unit :=
  noexcept_ (nt_move T && nt_move_assign T)
    (if nt_move T then assign_move1 i j else assign_move2 i j).

(** expected.h:1560-1582 and 1584-1618 operator=(U&&).  Only available if E is nothrow move
    constructible; otherwise, and for scalar T, the call is a conversion to a temporary
    expected followed by a move assignment. *)
Definition assign_value (i : nat) (a : arg) : comp unit :=
  o <~ get i ;;
  if has o then x <~ use_assign a ;; poke_val i x
  else if nt_arg a
  then del_err i ;;; x <~ use a ;; new_val i x ;;; set_has i true
  else tick (nt_move E) ;;; tmp <~ take_err i ;;
       scoped (del_err i ;;;
               try_ (x <~ use a ;; new_val i x ;;; set_has i true)
                    (tick (nt_move_assign E) ;;; poke_err i tmp)).
(** expected.h:1620-1633 operator=(const unexpected<E>&), available if E is nothrow copy
    constructible; otherwise a temporary expected is constructed and moved *)
Definition assign_unexpected_copy (i : nat) (e : B) : comp unit :=
  o <~ get i ;;
  if negb (has o) then tick (nt_copy_assign E) ;;; poke_err i e
  else del_val i ;;; tick (nt_copy E) ;;; new_err i e ;;; set_has i false.
(** expected.h:1635-1648 operator=(unexpected<E>&&), available if E is nothrow move
    constructible *)
Definition assign_unexpected_move (i : nat) (e : B) : comp unit :=
  noexcept_ true
    (o <~ get i ;;
     if negb (has o) then tick (nt_move_assign E) ;;; poke_err i e
     else del_val i ;;; tick (nt_move E) ;;; new_err i e ;;; set_has i false).
(** expected.h:1650-1660 and 1662-1685 emplace(args...) *)
Definition emplace (i : nat) (a : arg) : comp unit :=
  o <~ get i ;;
  if nt_arg a
  then (if has o then del_val i else del_err i ;;; set_has i true) ;;;
       x <~ use a ;; new_val i x
  else if has o then del_val i ;;; x <~ use a ;; new_val i x
  else tick (nt_move E) ;;; tmp <~ take_err i ;;
       scoped (del_err i ;;;
               try_ (x <~ use a ;; new_val i x ;;; set_has i true)
                    (tick (nt_move_assign E) ;;; poke_err i tmp)).
(** expected.h:1687-1699 and 1701-1725 emplace(initializer_list, args...) *)
Definition emplace_list (i : nat) (a : arg) : comp unit :=
  o <~ get i ;;
  if has o
  then x <~ use a ;; scoped (tick (nt_move_assign T) ;;; poke_val i x)
  else if nt_arg a
  then del_err i ;;; x <~ use a ;; new_val i x ;;; set_has i true
  else tick (nt_move E) ;;; tmp <~ take_err i ;;
       scoped (del_err i ;;;
               try_ (x <~ use a ;; new_val i x ;;; set_has i true)
                    (tick (nt_move_assign E) ;;; poke_err i tmp)).

(** * Swap *)
(** std::swap of two values or two errors: a move construction and two move assignments *)
Definition swap_vals (i j : nat) : comp unit :=
  tick (nt_move T) ;;; tmp <~ take_val i ;;
  scoped (tick (nt_move_assign T) ;;; x <~ take_val j ;; poke_val i x ;;;
          tick (nt_move_assign T) ;;; poke_val j tmp).
Definition swap_errs (i j : nat) : comp unit :=
  tick (nt_move E) ;;; tmp <~ take_err i ;;
  scoped (tick (nt_move_assign E) ;;; x <~ take_err j ;; poke_err i x ;;;
          tick (nt_move_assign E) ;;; poke_err j tmp).
(** expected.h:1757-1766 both moves are noexcept *)
Definition swap_one1 (i j : nat) : comp unit :=
  noexcept_ true
    (tick (nt_move T) ;;; temp <~ take_val i ;;
     scoped (del_val i ;;;
             tick (nt_move E) ;;; e <~ take_err j ;; new_err i e ;;;
             del_err j ;;;
             tick (nt_move T) ;;; new_val j temp ;;;
             swap_has i j)).
(** expected.h:1768-1789 moving E may throw *)
Definition swap_one2 (i j : nat) : comp unit :=
  tick (nt_move T) ;;; temp <~ take_val i ;;
  scoped (del_val i ;;;
          try_ (tick (nt_move E) ;;; e <~ take_err j ;; new_err i e ;;;
                del_err j ;;;
                tick (nt_move T) ;;; new_val j temp ;;;
                swap_has i j)
               (tick (nt_move_assign T) ;;; poke_val i temp)).
(** expected.h:1791-1812 moving T may throw *)
Definition swap_one3 (i j : nat) : comp unit :=
  tick (nt_move E) ;;; temp <~ take_err j ;;
  scoped (del_err j ;;;
          try_ (tick (nt_move T) ;;; x <~ take_val i ;; new_val j x ;;;
                del_val i ;;;
                tick (nt_move E) ;;; new_err i temp ;;;
                swap_has i j)
               (tick (nt_move_assign E) ;;; poke_err j temp)).
(** expected.h:1751-1755: i holds a value, j an error; swap is not available if neither type
    is nothrow move constructible *)
Definition swap_one (i j : nat) : comp unit :=
  if nt_move T then (if nt_move E then swap_one1 i j else swap_one2 i j)
  else if nt_move E then swap_one3 i j else undef.
(** expected.h:1814-1835 swap and 2211-2220 *)
Definition swap (i j : nat) : comp unit :=
  noexcept_ (nt_move T && (nt_move T && nt_move_assign T) && nt_move E && (nt_move E && nt_move_assign E))
    (o <~ get i ;; r <~ get j ;;
     if has o && has r then swap_vals i j
     else if negb (has o) && has r then swap_one j i
     else if has o then swap_one i j
     else swap_errs i j).

(** * Observers *)
(** expected.h:1871-1872 has_value(), operator bool *)
Definition has_value (i : nat) : comp bool := o <~ get i ;; ret (has o).
(** expected.h:1846-1869 operator*; without a value it is undefined: the assertion fails or,
    with NDEBUG, the inactive member is read *)
Definition deref (i : nat) : comp A := o <~ get i ;; if has o then rd_val i else undef.
(** *e = v *)
Definition write (i : nat) (a : arg) : comp unit :=
  o <~ get i ;; if has o then x <~ use_assign a ;; poke_val i x else undef.
(** expected.h:1874-1901 value(): the error is copied into the exception *)
Definition value (i : nat) : comp A :=
  o <~ get i ;;
  if negb (has o) then e <~ rd_err i ;; tick (nt_copy E) ;;; throw_ (Bad e) else rd_val i.
(** expected.h:1903-1918 error(); asserts that there is no value *)
Definition error (i : nat) : comp B := o <~ get i ;; if negb (has o) then rd_err i else undef.
(** error() = v *)
Definition write_error (i : nat) (a : earg) : comp unit :=
  o <~ get i ;;
  if negb (has o)
  then match a with
       | ERVal e => tick (nt_move_assign E) ;;; poke_err i e
       | ELVal e => tick (nt_copy_assign E) ;;; poke_err i e
       end
  else undef.
(** expected.h:1920-1925 value_or(v) const& and 1926-1931 value_or(v) && *)
Definition value_or (i : nat) (a : arg) : comp A :=
  o <~ get i ;; if has o then tick (nt_copy T) ;;; rd_val i else use a.
Definition value_or_move (i : nat) (a : arg) : comp A :=
  o <~ get i ;; if has o then tick (nt_move T) ;;; take_val i else use a.

End Expected.

Arguments RVal {A}. Arguments LVal {A}. Arguments Via {A}. Arguments Ref {A}.
Arguments ERVal {B}. Arguments ELVal {B}. Arguments Bad {B}. Arguments User {B}.
Arguments Raw {A B}. Arguments Val {A B}. Arguments Err {A B}.
Arguments Ex {A B}. Arguments State {A B}.
Arguments Done {A B X}. Arguments Thrown {A B X}. Arguments Terminated {A B X}. Arguments Undef {A B X}.

(** * Monadic operations, expected.h:1934-2146

    The object is given by its flag and union.  The callable may read and change a state of
    type S (whatever it captures), so that the number and order of its invocations is
    visible.  *x and x.error() of an object without a value or error are undefined.
    Simplification: for rvalues only the value passed to the callable is modelled, not that
    the callable may move out of it. *)
Section Monadic.
Context {A B S : Type}.
Local Open Scope outcome_scope.
Definition star (x : @ex A B) : outcome A :=
  if has x then match slot x with Val a => Ok a | _ => UB end else UB.
Definition err_of (x : @ex A B) : outcome B :=
  if negb (has x) then match slot x with Err e => Ok e | _ => UB end else UB.
(** The objects built by result(...) and result(unexpect, ...) *)
Definition of_val {A B} (a : A) : @ex A B := Ex true (Val a).
Definition of_err {A B} (e : B) : @ex A B := Ex false (Err e).
(** Lines 1939-1949 and 1951-1959 and_then *)
Definition and_then {C} (x : @ex A B) (f : A -> S -> S * @ex C B) (s : S) : outcome (S * @ex C B) :=
  if has x then a <- star x ;; Ok (f a s)
  else e <- err_of x ;; Ok (s, of_err e).
(** Lines 1961-1971 and 1988-1996 map / transform *)
Definition map_ {C} (x : @ex A B) (f : A -> S -> S * C) (s : S) : outcome (S * @ex C B) :=
  if has x then a <- star x ;; let (s', c) := f a s in Ok (s', of_val c)
  else e <- err_of x ;; Ok (s, of_err e).
(** Lines 1973-1986 and 1998-2010: the callable returns void *)
Definition map_void (x : @ex A B) (f : A -> S -> S) (s : S) : outcome (S * @ex unit B) :=
  if has x then a <- star x ;; Ok (f a s, of_val tt)
  else e <- err_of x ;; Ok (s, of_err e).
(** Lines 2013-2024 and 2039-2050 map_error / transform_error *)
Definition map_error {D} (x : @ex A B) (f : B -> S -> S * D) (s : S) : outcome (S * @ex A D) :=
  if has x then a <- star x ;; Ok (s, of_val a)
  else e <- err_of x ;; let (s', d) := f e s in Ok (s', of_err d).
(** Lines 2025-2038 and 2051-2064: the callable returns void, the error type is monostate *)
Definition map_error_void (x : @ex A B) (f : B -> S -> S) (s : S) : outcome (S * @ex A unit) :=
  if has x then a <- star x ;; Ok (s, of_val a)
  else e <- err_of x ;; Ok (f e s, of_err tt).
(** Lines 2126-2134 or_else *)
Definition or_else (x : @ex A B) (f : B -> S -> S * @ex A B) (s : S) : outcome (S * @ex A B) :=
  if has x then Ok (s, x) else e <- err_of x ;; Ok (f e s).
(** Lines 2136-2144: the callable returns void *)
Definition or_else_void (x : @ex A B) (f : B -> S -> S) (s : S) : outcome (S * @ex A B) :=
  if has x then Ok (s, x) else e <- err_of x ;; Ok (f e s, x).
End Monadic.

(** * Comparison, expected.h:2148-2209.  Parameters: the operators of T and E. *)
Record eqs (A B : Type) := Eqs { t_eq : A -> A -> bool; t_ne : A -> A -> bool;
  e_eq : B -> B -> bool; e_ne : B -> B -> bool }.
Arguments Eqs {A B}. Arguments t_eq {A B}. Arguments t_ne {A B}. Arguments e_eq {A B}. Arguments e_ne {A B}.
Section Comparison.
Context {A B : Type} (o : eqs A B).
Local Notation eqv := (t_eq o). Local Notation nev := (t_ne o).
Local Notation eqe := (e_eq o). Local Notation nee := (e_ne o).
Local Open Scope outcome_scope.
(** Lines 2148-2154 *)
Definition ex_eq (l r : @ex A B) : outcome bool :=
  if negb (Bool.eqb (has l) (has r)) then Ok false
  else if negb (has l) then a <- err_of l ;; b <- err_of r ;; Ok (eqe a b)
  else a <- star l ;; b <- star r ;; Ok (eqv a b).
(** Lines 2155-2161 *)
Definition ex_ne (l r : @ex A B) : outcome bool :=
  if negb (Bool.eqb (has l) (has r)) then Ok true
  else if negb (has l) then a <- err_of l ;; b <- err_of r ;; Ok (nee a b)
  else a <- star l ;; b <- star r ;; Ok (nev a b).
(** Lines 2162-2168: expected<void, E> *)
Definition void_eq (l r : @ex unit B) : outcome bool :=
  if negb (Bool.eqb (has l) (has r)) then Ok false
  else if negb (has l) then a <- err_of l ;; b <- err_of r ;; Ok (eqe a b)
  else Ok true.
(** Lines 2169-2175: expected<void, E>; the errors are compared with operator== *)
Definition void_ne (l r : @ex unit B) : outcome bool :=
  if negb (Bool.eqb (has l) (has r)) then Ok true
  else if negb (has l) then a <- err_of l ;; b <- err_of r ;; Ok (eqe a b)
  else Ok false.
(** Lines 2177-2184 and 2185-2192: with a value on either side *)
Definition eq_val (x : @ex A B) (v : A) : outcome bool :=
  if has x then a <- star x ;; Ok (eqv a v) else Ok false.
Definition val_eq (v : A) (x : @ex A B) : outcome bool :=
  if has x then a <- star x ;; Ok (eqv a v) else Ok false.
Definition ne_val (x : @ex A B) (v : A) : outcome bool :=
  if has x then a <- star x ;; Ok (nev a v) else Ok true.
Definition val_ne (v : A) (x : @ex A B) : outcome bool :=
  if has x then a <- star x ;; Ok (nev a v) else Ok true.
(** Lines 2194-2201 and 2202-2209: with an unexpected on either side *)
Definition eq_unexp (x : @ex A B) (e : B) : outcome bool :=
  if has x then Ok false else a <- err_of x ;; Ok (eqe a e).
Definition unexp_eq (e : B) (x : @ex A B) : outcome bool :=
  if has x then Ok false else a <- err_of x ;; Ok (eqe a e).
Definition ne_unexp (x : @ex A B) (e : B) : outcome bool :=
  if has x then Ok true else a <- err_of x ;; Ok (nee a e).
Definition unexp_ne (e : B) (x : @ex A B) : outcome bool :=
  if has x then Ok true else a <- err_of x ;; Ok (nee a e).
End Comparison.
