(** Specification for the value categories of optional and variant: contents are options and
    numbered values; a reference to const cannot be used to change anything. *)
From Verif Require Import Base.
From Verif Require ExpCatModel OptModel OptSpec VtModel VtSpec RefModel.
Import ExpCatModel(cat(..), constant, ctors(..), copy, move, callable).

(** What is behind a reference of kind c after someone wanted to change it from x to x' *)
Definition after {A} (c : cat) (x x' : A) : A := if constant c then x else x'.
(** optional has no overloads for const rvalues; they are treated as const lvalues. *)
Definition gives (c : cat) : cat := match c with ConstRvalue => ConstLvalue | _ => c end.
(** The object is an optional with this content. *)
Definition is_optional {A} (o : @OptModel.opt A) (v : option A) : Prop :=
  OptSpec.sound o /\ OptSpec.observe o = v.
(** Copies and moves of the element type succeed and give the value that was copied or moved;
    moving leaves [left t] behind. *)
Definition regular {W X T} (ty : ctors W X T) (left : T -> T) : Prop :=
  (forall t w, copy ty t w = (w, inl t)) /\ (forall t w, move ty t w = (left t, w, inl t)).
(** Normal return, or the exception of the callable or constructor *)
Definition outcome_of {X Y} (r : Y + X) : RefModel.res X Y :=
  match r with inl y => RefModel.Value y | inr x => RefModel.Throws x end.

(** The arguments of visit are variants with these contents. *)
Definition contents {A} (vs : list (@RefModel.operand A)) (cs : list (@VtSpec.content A)) : Prop :=
  VtSpec.variants (map (fun v => (snd (fst v), snd v)) vs) cs.
(** The references a visitor gets *)
Definition references {A} (vs : list (@RefModel.operand A)) (l : list (nat * A)) : list (nat * cat * A) :=
  map (fun p => (fst (snd p), fst (fst (fst p)), snd (snd p))) (combine vs l).
(** A visitor does not change the number of its arguments. *)
Definition proper {W X A Y} (f : @RefModel.visitor W X A Y) : Prop :=
  forall l w, length (fst (fst (f l w))) = length l.
(** The contents after the visitor wanted to change the values to xs *)
Definition contents_after {A} (vs : list (@RefModel.operand A)) (l : list (nat * A)) (xs : list A) :
  list (@VtSpec.content A) :=
  map (fun p => match p with (v, (k, x), x') => Some (k, after (fst (fst v)) x x') end) (combine (combine vs l) xs).
