(** Model of the value categories in include/gul14/optional.h and variant.h: what the overloads
    of operator*, value and value_or of optional, and get and visit of variant, for lvalues,
    const lvalues, rvalues and const rvalues do with the object they are called on.

    As in ExpCatModel.v, everything outside of the object is the world W, copy and move
    constructors of the element types are arbitrary functions that may throw, and whoever gets
    a reference may change what it refers to, unless it is a reference to const.
    Simplification: copy elision takes place wherever C++17 guarantees it, also for prvalues
    that differ in const only. *)
From Verif Require Import Base.
From Verif Require ExpCatModel OptModel VtModel.
Import ExpCatModel(cat(..), constant, ctors(..), copy, move, body, callable, make).

Section Category.
Context {W X : Type}.
(** [Bad]: bad_optional_access or bad_variant_access; [Throws]: an exception of the element type
    or of the callable *)
Inductive res (Y : Type) := Value (y : Y) | Bad | Throws (x : X) | Undefined.
Arguments Value {Y}. Arguments Bad {Y}. Arguments Throws {Y}. Arguments Undefined {Y}.
Definition result {Y} (r : Y + X) : res Y := match r with inl y => Value y | inr x => Throws x end.

(** * optional *)
Section Optional.
Context {A V : Type} (T : ctors W X A).
Definition obj : Type := @OptModel.opt A.
Definition live (a : A) : obj := OptModel.Opt true (OptModel.Live a).
(** The kind of reference that operator* (optional.h:448-460) and value (462-474) return: there is
    no overload for const rvalues, which use the one for const lvalues. *)
Definition star_ref (c : cat) : cat :=
  match c with Rvalue => Rvalue | Lvalue => Lvalue | ConstLvalue | ConstRvalue => ConstLvalue end.
(** contained_val(), optional.h:291-301, and then the use of the reference *)
Definition contained {Y} (c : cat) (f : body A Y) (o : obj) (w : W) : obj * W * res Y :=
  match OptModel.storage_ o with
  | OptModel.Live a =>
      match f a w with
      | (a', w', r) => (if constant c then o else OptModel.Opt (OptModel.init_ o) (OptModel.Live a'), w', result r)
      end
  | OptModel.Raw => (o, w, Undefined)
  end.
(** f( *o ), optional.h:448-460: the assertion *)
Definition use_star {Y} (c : cat) (f : callable A Y) (o : obj) (w : W) : obj * W * res Y :=
  if OptModel.init_ o then contained (star_ref c) (f (star_ref c)) o w else (o, w, Undefined).
(** f(o.value()), optional.h:462-474 *)
Definition use_value {Y} (c : cat) (f : callable A Y) (o : obj) (w : W) : obj * W * res Y :=
  if OptModel.init_ o then contained (star_ref c) (f (star_ref c)) o w else (o, w, Bad).
(** o.value_or(v), optional.h:481-489, for an argument v of type V and category d; [conv] is the
    construction of a T from it.  The overload for const lvalues, which all categories but
    non-const rvalues use, copies the value; the one for rvalues moves it.  The argument is
    converted for the parameter of convert<T> (120-125), which is moved into the result. *)
Definition value_or (c d : cat) (conv : callable V A) (o : obj) (v : V) (w : W) : obj * V * W * res A :=
  if OptModel.init_ o then
    let c' := match c with Rvalue => Rvalue | Lvalue | ConstLvalue | ConstRvalue => ConstLvalue end in
    match contained c' (make T c') o w with (o', w', r) => (o', v, w', r) end
  else
    match conv d v w with
    | (v', w', inl p) =>
        match move T p w' with (_, w'', r) => (o, if constant d then v else v', w'', result r) end
    | (v', w', inr x) => (o, if constant d then v else v', w', Throws x)
    end.
End Optional.

(** * variant *)
Section Variant.
Context {A : Type}.
Definition vobj : Type := @VtModel.vobj A.
(** f(get<k>(v)), variant.h:1698-1757, with four overloads: the check comes before the access. *)
Definition use_get {Y} (ts : list VtModel.alt_ty) (c : cat) (k : nat) (f : callable A Y) (o : vobj) (w : W) :
  vobj * W * res Y :=
  if VtModel.holds_alternative ts o k then
    match VtModel.alt_value o k with
    | Ok x =>
        match f c x w with
        | (x', w', r) => (if constant c then o else VtModel.V (VtModel.idx o) (VtModel.Alt k x'), w', result r)
        end
    | _ => (o, w, Undefined)
    end
  else (o, w, Bad).

(** One argument of visit: category, alternative types and object *)
Definition operand : Type := (cat * list VtModel.alt_ty * vobj)%type.
Definition category (v : operand) : cat := fst (fst v).
(** A visitor gets one reference for each variant: the number of the alternative, which stands for
    its type, the category and the value; it may change the values and the world. *)
Definition visitor (Y : Type) : Type := list (nat * cat * A) -> W -> list A * W * (Y + X).
Definition assign_alt (v : operand) (x : A) : operand :=
  match v with
  | (c, ts, o) =>
      match VtModel.data o with
      | VtModel.Alt k _ => if constant c then v else (c, ts, VtModel.V (VtModel.idx o) (VtModel.Alt k x))
      | VtModel.Raw => v
      end
  end.
Fixpoint assign_alts (vs : list operand) (xs : list A) : list operand :=
  match vs, xs with
  | v :: vs', x :: xs' => assign_alt v x :: assign_alts vs' xs'
  | _, _ => vs
  end.
(** visit(f, vs...), variant.h:1880-1898: forwards each variant, 844-915, 513-535, to get_alt
    (422-448), which keeps the category. *)
Definition visit {Y} (f : visitor Y) (vs : list operand) (w : W) : list operand * W * res Y :=
  match VtModel.visit
          (fun alts w => match f (map (fun ca => (fst (snd ca), fst ca, snd (snd ca)))
                                      (combine (map category vs) alts)) w with
                         | (xs, w', r) => Ok (w', (xs, r))
                         end)
          (map (fun v => (snd (fst v), snd v)) vs) w with
  | Ok (w', (xs, r)) => (assign_alts vs xs, w', result r)
  | Throw _ => (vs, w, Bad)
  | _ => (vs, w, Undefined)
  end.
End Variant.
End Category.
Arguments res : clear implicits.
Arguments Value {X Y}. Arguments Bad {X Y}. Arguments Throws {X Y}. Arguments Undefined {X Y}.
