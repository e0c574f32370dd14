(** Semantics of the string search primitives used by the string functions
    (string_view::find, find_first_of, find_first_not_of, find_last_not_of, substr,
    compare, and the identically specified std::string members).

    Positions are natural numbers and [None] stands for npos: every position that occurs is
    at most the length of a string, which is below 2^63, so that no wrap-around can happen
    here.  SvModel.v transcribes the string_view implementation of these functions with
    64-bit positions and explicit memory accesses, and SvProps.v proves that they compute
    the functions below. *)
From Verif Require Import Base.

(** [s] is a prefix of [t].  string_view.h:78-87 char_traits::compare(p, s, n) == 0. *)
Fixpoint prefixb (s t : str) : bool :=
  match s, t with
  | [], _ => true
  | _ :: _, [] => false
  | a :: s', b :: t' => Ascii.eqb a b && prefixb s' t'
  end.

(** First occurrence of [s] in [t]. *)
Fixpoint find0 (t s : str) : option nat :=
  if prefixb s t then Some 0
  else match t with
       | [] => None
       | _ :: t' => option_map S (find0 t' s)
       end.

(** string_view.h:251-264 find(s, pos). *)
Definition find (t s : str) (pos : nat) : option nat :=
  if Nat.leb pos (length t)
  then option_map (Nat.add pos) (find0 (skipn pos t) s)
  else None.

(** First position whose byte satisfies [p]. *)
Fixpoint find_if (p : ascii -> bool) (t : str) : option nat :=
  match t with
  | [] => None
  | c :: t' => if p c then Some 0 else option_map S (find_if p t')
  end.

Definition find_if_from (p : ascii -> bool) (t : str) (pos : nat) : option nat :=
  option_map (Nat.add pos) (find_if p (skipn pos t)).

(** string_view.h:295-301 find_first_of(s, pos). *)
Definition find_first_of (t s : str) (pos : nat) : option nat :=
  find_if_from (fun c => memb c s) t pos.

(** string_view.h:329-336 find_first_not_of(s, pos). *)
Definition find_first_not_of (t s : str) (pos : nat) : option nat :=
  find_if_from (fun c => negb (memb c s)) t pos.

(** string_view.h:345-353 find_last_not_of(s) (default pos = npos). *)
Definition find_last_not_of (t s : str) : option nat :=
  option_map (fun i => length t - 1 - i) (find_if (fun c => negb (memb c s)) (rev t)).

(** string_view.h:214-220 substr(pos, n). *)
Definition substr (t : str) (pos n : nat) : outcome str :=
  if Nat.ltb (length t) pos then Throw OutOfRange
  else Ok (firstn n (skipn pos t)).

(** string_view.h:214-220 substr(pos) (n = npos). *)
Definition substr_from (t : str) (pos : nat) : outcome str :=
  if Nat.ltb (length t) pos then Throw OutOfRange
  else Ok (skipn pos t).

(** string_view.h:78-87 and 222-225: three-way comparison by unsigned byte value. *)
Fixpoint compare (s t : str) : Z :=
  match s, t with
  | [], [] => 0%Z
  | [], _ :: _ => (-1)%Z
  | _ :: _, [] => 1%Z
  | a :: s', b :: t' =>
      if (uc a <? uc b)%Z then (-1)%Z
      else if (uc b <? uc a)%Z then 1%Z
      else compare s' t'
  end.
