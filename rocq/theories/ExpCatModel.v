(** Model of the value categories in include/gul14/expected.h: what the overloads of
    and_then, map, map_error, or_else, value, operator*, error and value_or for lvalues,
    const lvalues, rvalues and const rvalues do with the object they are called on.

    An object is the flag and the union of ExpModel.  Everything outside of it (what the
    callable captures, counters of the element types) is the world W.  Copy and move
    constructors of the element types and the callables are arbitrary functions that change
    the world and may throw; a move constructor also changes the object it moves from, and a
    callable may change what its argument refers to, unless the reference is to const.
    Simplifications: or_else callables return the object's own type.  Copy elision takes
    place wherever C++17 guarantees it, also for prvalues that differ in const only.
    T = void is in ExpCatVoidModel.v. *)
From Verif Require Import Base ExpModel.

(** The four kinds of object expression: x, as_const(x), move(x), move(as_const(x)) *)
Inductive cat := Lvalue | ConstLvalue | Rvalue | ConstRvalue.
Definition constant (c : cat) : bool :=
  match c with ConstLvalue | ConstRvalue => true | Lvalue | Rvalue => false end.

Section Category.
Context {W X : Type}.

(** Copy and move constructor of an element type.  [inr x]: an exception is thrown. *)
Record ctors (T : Type) := Ctors {
  copy : T -> W -> W * (T + X);
  move : T -> W -> T * W * (T + X) }.
Arguments copy {T}. Arguments move {T}.

(** A function that takes a reference to T: new referent, new world, result or exception *)
Definition body (T Y : Type) : Type := T -> W -> T * W * (Y + X).
(** A callable may be overloaded on the value category. *)
Definition callable (T Y : Type) : Type := cat -> body T Y.

(** T t(r) for a reference r: only a non-const rvalue is moved from. *)
Definition make {T} (ty : ctors T) : callable T T := fun c =>
  match c with
  | Rvalue => move ty
  | Lvalue | ConstLvalue | ConstRvalue => fun t w => let (w', r) := copy ty t w in (t, w', r)
  end.

Context {A B : Type}.
(** bad_expected_access<E> with its error, or an exception of the element types or callable *)
Inductive exn := Bad (e : B) | User (x : X).
Inductive res (Y : Type) := Value (y : Y) | Throws (x : exn) | Terminates | Undefined.
Arguments Value {Y}. Arguments Throws {Y}. Arguments Terminates {Y}. Arguments Undefined {Y}.
Definition comp (Y : Type) : Type := @ex A B -> W -> @ex A B * W * res Y.
Definition ret {Y} (y : Y) : comp Y := fun x w => (x, w, Value y).
Definition bind {Y Z} (m : comp Y) (k : Y -> comp Z) : comp Z := fun x w =>
  match m x w with
  | (x', w', Value y) => k y x' w'
  | (x', w', Throws e) => (x', w', Throws e)
  | (x', w', Terminates) => (x', w', Terminates)
  | (x', w', Undefined) => (x', w', Undefined)
  end.
(** A computation that does not touch the object *)
Definition outside {Y} (m : W -> W * (Y + X)) : comp Y := fun x w =>
  match m w with (w', inl y) => (x, w', Value y) | (w', inr e) => (x, w', Throws (User e)) end.
Definition temporary {T} (ty : ctors T) (t : T) : comp T :=
  outside (fun w => match move ty t w with (_, w', r) => (w', r) end).
(** An exception that leaves a noexcept function *)
Definition noexcept_ {Y} (m : comp Y) : comp Y := fun x w =>
  match m x w with (x', w', Throws _) => (x', w', Terminates) | r => r end.

(** expected.h:1846-1869 operator* and 1903-1918 error(), and then the use of the reference.
    Through a reference to const the object cannot be changed. *)
Definition with_value {Y} (c : cat) (f : body A Y) : comp Y := fun x w =>
  match x with
  | Ex true (Val a) =>
      match f a w with
      | (a', w', r) => (if constant c then x else Ex true (Val a'), w',
                        match r with inl y => Value y | inr e => Throws (User e) end)
      end
  | _ => (x, w, Undefined)
  end.
Definition with_error {Y} (c : cat) (f : body B Y) : comp Y := fun x w =>
  match x with
  | Ex false (Err e) =>
      match f e w with
      | (e', w', r) => (if constant c then x else Ex false (Err e'), w',
                        match r with inl y => Value y | inr e => Throws (User e) end)
      end
  | _ => (x, w, Undefined)
  end.
Definition if_value {Y} (m m' : comp Y) : comp Y := fun x w => if has x then m x w else m' x w.

Context (T : ctors A) (E : ctors B).
(** Result(unexpect, std::forward<Exp>(exp).error()) *)
Definition pass_error {Y} (c : cat) : comp (@ex Y B) :=
  bind (with_error c (make E c)) (fun e => ret (of_err e)).
(** expected.h:866-873 and 895-903: copy or move construction from the object; construct_with
    and construct_error (622-636) are noexcept. *)
Definition whole (c : cat) : comp (@ex A B) :=
  if_value (bind (noexcept_ (with_value c (make T c))) (fun a => ret (of_val a)))
           (bind (noexcept_ (with_error c (make E c))) (fun e => ret (of_err e))).

(** expected.h:1199-1210 and 1939-1949 and_then *)
Definition and_then {C} (c : cat) (f : callable A (@ex C B)) : comp (@ex C B) :=
  if_value (with_value c (f c)) (pass_error c).
(** expected.h:1243-1254, 1282-1293 and 1961-1971 map, transform; [conv] constructs the new value
    from the callable's result. *)
Definition map_ {R C} (c : cat) (f : callable A R) (conv : R -> W -> W * (C + X)) : comp (@ex C B) :=
  if_value (bind (with_value c (f c)) (fun r => bind (outside (conv r)) (fun y => ret (of_val y))))
           (pass_error c).
(** expected.h:1973-1986 map of a callable that returns void *)
Definition map_void (c : cat) (f : callable A unit) : comp (@ex unit B) :=
  if_value (bind (with_value c (f c)) (fun _ => ret (of_val tt))) (pass_error c).
(** expected.h:1321-1400 and 2013-2024 map_error, transform_error *)
Definition map_error {R D} (c : cat) (f : callable B R) (conv : R -> W -> W * (D + X)) : comp (@ex A D) :=
  if_value (bind (with_value c (make T c)) (fun a => ret (of_val a)))
           (bind (with_error c (f c)) (fun r => bind (outside (conv r)) (fun y => ret (of_err y)))).
(** expected.h:2025-2038 map_error of a callable that returns void *)
Definition map_error_void (c : cat) (f : callable B unit) : comp (@ex A unit) :=
  if_value (bind (with_value c (make T c)) (fun a => ret (of_val a)))
           (bind (with_error c (f c)) (fun _ => ret (of_err tt))).
(** expected.h:2126-2134 or_else *)
Definition or_else (c : cat) (f : callable B (@ex A B)) : comp (@ex A B) :=
  if_value (whole c) (with_error c (f c)).
(** expected.h:2136-2144 or_else of a callable that returns void: the object is copied or moved
    into the result after the callable has been given the error. *)
Definition or_else_void (c : cat) (f : callable B unit) : comp (@ex A B) :=
  if_value (whole c) (bind (with_error c (f c)) (fun _ => whole c)).

(** T t(x.value()), expected.h:1874-1901.  The error is copied or moved into the parameter of
    bad_expected_access (1146), moved from there into the member, and with the exception object
    once more (throw_exception, 219-222). *)
Definition init_from_value (c : cat) : comp A :=
  if_value (with_value c (make T c))
           (bind (with_error c (make E c)) (fun e => bind (temporary E e) (fun e =>
            bind (temporary E e) (fun e => fun x w => (x, w, Throws (Bad e)))))).
(** T t( *x ) and E e(x.error()), expected.h:1846-1869 and 1903-1918 *)
Definition init_from_star (c : cat) : comp A := with_value c (make T c).
Definition init_from_error (c : cat) : comp B := with_error c (make E c).
(** expected.h:1920-1931 value_or: an overload for const lvalues, which all categories but
    non-const rvalues use, and one for rvalues; [v] makes a T from the argument. *)
Definition value_or (c : cat) (v : W -> W * (A + X)) : comp A :=
  let c' := match c with Rvalue => Rvalue | Lvalue | ConstLvalue | ConstRvalue => ConstLvalue end in
  if_value (with_value c' (make T c')) (outside v).
End Category.

Arguments ctors : clear implicits. Arguments Ctors {W X T}. Arguments copy {W X T}. Arguments move {W X T}.
Arguments exn : clear implicits. Arguments Bad {X B}. Arguments User {X B}.
Arguments res : clear implicits.
Arguments Value {X B Y}. Arguments Throws {X B Y}. Arguments Terminates {X B Y}. Arguments Undefined {X B Y}.
