(** Specification for the value categories of expected: the list of calls, and what a reader of
    the documentation expects of lvalues and rvalues. *)
From Verif Require Import Base ExpModel ExpCatModel.

Section Spec.
Context {W X A B C D R R' : Type}.

(** The calls on one object *)
Inductive mcall :=
| AndThen (f : callable (W:=W) (X:=X) A (@ex C B))
| Map (f : callable (W:=W) (X:=X) A R) (conv : R -> W -> W * (C + X))
| MapVoid (f : callable (W:=W) (X:=X) A unit)
| MapError (f : callable (W:=W) (X:=X) B R') (conv : R' -> W -> W * (D + X))
| MapErrorVoid (f : callable (W:=W) (X:=X) B unit)
| OrElse (f : callable (W:=W) (X:=X) B (@ex A B))
| OrElseVoid (f : callable (W:=W) (X:=X) B unit)
| InitValue                                   (* T t(x.value()) *)
| InitStar                                    (* T t( *x ) *)
| InitError                                   (* E e(x.error()) *)
| ValueOr (v : W -> W * (A + X)).             (* x.value_or(v) *)

(** What the call returns *)
Definition answer (m : mcall) : Type :=
  match m with
  | AndThen _ | Map _ _ => @ex C B
  | MapVoid _ => @ex unit B
  | MapError _ _ => @ex A D
  | MapErrorVoid _ => @ex A unit
  | OrElse _ | OrElseVoid _ => @ex A B
  | InitValue | InitStar | ValueOr _ => A
  | InitError => B
  end.
Definition run (T : ctors W X A) (E : ctors W X B) (c : cat) (m : mcall) :
  @ex A B -> W -> @ex A B * W * res X B (answer m) :=
  match m with
  | AndThen f => and_then E c f
  | Map f conv => map_ E c f conv
  | MapVoid f => map_void E c f
  | MapError f conv => map_error T c f conv
  | MapErrorVoid f => map_error_void T c f
  | OrElse f => or_else T E c f
  | OrElseVoid f => or_else_void T E c f
  | InitValue => init_from_value T E c
  | InitStar => init_from_star T c
  | InitError => init_from_error E c
  | ValueOr v => value_or T c v
  end.

(** The object that holds this value or this error *)
Definition holding {A B} (v : A + B) : @ex A B := match v with inl a => of_val a | inr e => of_err e end.
(** Calls with a precondition: *x needs a value, x.error() an error. *)
Definition allowed (m : mcall) (v : A + B) : Prop :=
  match m, v with InitStar, inr _ => False | InitError, inl _ => False | _, _ => True end.
(** The callable does not change what it is given a reference to. *)
Definition reads_only (c : cat) (m : mcall) : Prop :=
  let untouched {T Y} (f : callable (W:=W) (X:=X) T Y) := forall t w, fst (fst (f c t w)) = t in
  match m with
  | AndThen f => untouched f | Map f _ => untouched f | MapVoid f => untouched f
  | MapError f _ => untouched f | MapErrorVoid f => untouched f
  | OrElse f => untouched f | OrElseVoid f => untouched f
  | _ => True
  end.
(** The exception of the callable, or of the default argument of value_or, if it throws *)
Definition user_exception (c : cat) (v : A + B) (w : W) (m : mcall) : option X :=
  let thrown {P Y : Type} (r : P * (Y + X)) := match r with (_, inr x) => Some x | _ => None end in
  match m, v with
  | AndThen f, inl a => thrown (f c a w) | Map f _, inl a => thrown (f c a w)
  | MapVoid f, inl a => thrown (f c a w)
  | MapError f _, inr e => thrown (f c e w) | MapErrorVoid f, inr e => thrown (f c e w)
  | OrElse f, inr e => thrown (f c e w) | OrElseVoid f, inr e => thrown (f c e w)
  | ValueOr d, inr _ => thrown (d w)
  | _, _ => None
  end.

(** Element types whose copies and moves succeed and give the value that was copied or moved;
    moving leaves [left t] behind. *)
Record regular {T} (ty : ctors W X T) (left : T -> T) := Regular {
  copies : forall t w, copy ty t w = (w, inl t);
  moves : forall t w, move ty t w = (left t, w, inl t) }.

(** With such types: the content of the object after the call, the world and the answer. *)
Definition meaning (leftv : A -> A) (lefte : B -> B) (c : cat) (m : mcall) (v : A + B) (w : W) :
  (A + B) * W * res X B (answer m) :=
  let passed := match c, v with
                | Rvalue, inl a => inl (leftv a)
                | Rvalue, inr e => inr (lefte e)
                | _, _ => v
                end in
  let seen_value a' := if constant c then v else inl a' in
  let seen_error e' := if constant c then v else inr e' in
  match m with
  | AndThen f =>
      match v with
      | inl a => match f c a w with
                 | (a', w', inl y) => (seen_value a', w', Value y)
                 | (a', w', inr x) => (seen_value a', w', Throws (User x))
                 end
      | inr e => (passed, w, Value (of_err e))
      end
  | Map f conv =>
      match v with
      | inl a => match f c a w with
                 | (a', w', inl r) =>
                     match conv r w' with
                     | (w'', inl y) => (seen_value a', w'', Value (of_val y))
                     | (w'', inr x) => (seen_value a', w'', Throws (User x))
                     end
                 | (a', w', inr x) => (seen_value a', w', Throws (User x))
                 end
      | inr e => (passed, w, Value (of_err e))
      end
  | MapVoid f =>
      match v with
      | inl a => match f c a w with
                 | (a', w', inl _) => (seen_value a', w', Value (of_val tt))
                 | (a', w', inr x) => (seen_value a', w', Throws (User x))
                 end
      | inr e => (passed, w, Value (of_err e))
      end
  | MapError f conv =>
      match v with
      | inl a => (passed, w, Value (of_val a))
      | inr e => match f c e w with
                 | (e', w', inl r) =>
                     match conv r w' with
                     | (w'', inl y) => (seen_error e', w'', Value (of_err y))
                     | (w'', inr x) => (seen_error e', w'', Throws (User x))
                     end
                 | (e', w', inr x) => (seen_error e', w', Throws (User x))
                 end
      end
  | MapErrorVoid f =>
      match v with
      | inl a => (passed, w, Value (of_val a))
      | inr e => match f c e w with
                 | (e', w', inl _) => (seen_error e', w', Value (of_err tt))
                 | (e', w', inr x) => (seen_error e', w', Throws (User x))
                 end
      end
  | OrElse f =>
      match v with
      | inl a => (passed, w, Value (of_val a))
      | inr e => match f c e w with
                 | (e', w', inl y) => (seen_error e', w', Value y)
                 | (e', w', inr x) => (seen_error e', w', Throws (User x))
                 end
      end
  | OrElseVoid f =>
      (* the error is returned as the callable leaves it *)
      match v with
      | inl a => (passed, w, Value (of_val a))
      | inr e => match f c e w with
                 | (e', w', inl _) =>
                     let now := if constant c then e else e' in
                     (match c with Rvalue => inr (lefte now) | _ => inr now end, w', Value (of_err now))
                 | (e', w', inr x) => (seen_error e', w', Throws (User x))
                 end
      end
  | InitValue =>
      match v with
      | inl a => (passed, w, Value a)
      | inr e => (passed, w, Throws (Bad e))
      end
  | InitStar => match v with inl a => (passed, w, Value a) | inr _ => (v, w, Undefined) end
  | InitError => match v with inl _ => (v, w, Undefined) | inr e => (passed, w, Value e) end
  | ValueOr d =>
      match v with
      | inl a => (passed, w, Value a)
      | inr _ => match d w with (w', inl y) => (v, w', Value y) | (w', inr x) => (v, w', Throws (User x)) end
      end
  end.
End Spec.
Arguments mcall : clear implicits.
