(** What cat should do with arguments of different types, without reference to memory. *)
From Coq Require Import ZArith List Reals.
From Verif Require Import Base CatModel ToNumSpec.
From Flocq Require Import Core.Core IEEE754.BinarySingleNaN.
Import ListNotations.
Local Open Scope Z_scope.

(** The text in front of the first zero character *)
Definition c_string (s t : str) : Prop := exists r, (s = t \/ s = t ++ "000"%char :: r) /\ ~ In "000"%char t.
(** [s] is [x] with six decimals: a digit string without superfluous zeros, a point, and six digits,
    which together are the integer that is nearest to a million times |x| (the even one of two) *)
Definition six_decimals (x : binary_float 53 1024) (s : str) : Prop :=
  match x with
  | B754_nan => s = !"nan"
  | B754_infinity sg => s = (if sg then !"-inf" else !"inf")
  | _ => exists d1 d2, s = (if Bsign x then ["-"%char] else []) ++ d1 ++ ["."%char] ++ d2 /\
         d1 = decimal_of (digits_value d1) /\ all_digits d1 /\ all_digits d2 /\ length d2 = 6%nat /\
         digits_value (d1 ++ d2) = ZnearestE (Rabs (B2R x) * 1000000)%R
  end.
(** The text an argument stands for; [t k] is that of object number k *)
Definition denotes (t : nat -> option str) (a : arg) (s : str) : Prop :=
  match a with
  | Text u => s = u
  | CString u => c_string u s
  | Char c => s = [c]
  | Int z => s = decimal_of z
  | Double x => six_decimals x s
  | Obj k => t k = Some s
  end.
(** An object as the user sees it: the text it was made from, whose buffer the text is in (None:
    in one that does not belong to any of the objects), and whether its lifetime has ended. *)
Record shown := Shown { text : str; buffer : option nat; ended : bool }.
Definition lives (w : list shown) (k : nat) : bool :=
  match nth_error w k with Some o => negb (ended o) | None => false end.
(** An object can be used if it lives and so does the one that has the buffer *)
Definition usable (w : list shown) (k : nat) : option str :=
  match nth_error w k with
  | Some o => if ended o then None else
      match buffer o with
      | None => Some (text o)
      | Some j => if lives w j then Some (text o) else None
      end
  | None => None
  end.
(** The object made from an argument *)
Definition shown_of (w : list shown) (a : arg) (o : shown) : Prop :=
  ended o = false /\
  match a with
  | Obj k => exists p, nth_error w k = Some p /\ ended p = false /\ text o = text p /\ buffer o = buffer p
  | Text _ | CString _ => denotes (fun _ => None) a (text o) /\ buffer o = None
  | _ => denotes (fun _ => None) a (text o) /\ buffer o = Some (length w)
  end.
Definition end_of (w : list shown) (k : nat) : list shown :=
  firstn k w ++ match skipn k w with o :: r => Shown (text o) (buffer o) true :: r | [] => [] end.
(** What the calls of cat in a program return *)
Inductive results : list shown -> list act -> list str -> Prop :=
| results_nil : forall w, results w [] []
| results_new : forall w a o l r, shown_of w a o -> results (w ++ [o]) l r -> results w (New a :: l) r
| results_end : forall w k l r, results (end_of w k) l r -> results w (End_of k :: l) r
| results_cat : forall w args ts l r, Forall2 (denotes (usable w)) args ts -> results w l r ->
    results w (Cat args :: l) (concat ts :: r).

(** Integers with the character [c] between them, as arguments *)
Fixpoint separated (c : ascii) (zs : list Z) : list arg :=
  match zs with
  | [] => []
  | [z] => [Int z]
  | z :: zs' => Int z :: Char c :: separated c zs'
  end.
