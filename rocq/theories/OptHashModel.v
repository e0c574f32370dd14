(** std::hash of optional, include/gul14/optional.h:893-914 *)
From Coq Require Import ZArith List.
From Verif Require Import Base OptModel.
Local Open Scope outcome_scope.

(** optional.h:894-903 hash<optional<T>>; [h] is std::hash<T> *)
Definition opt_hash {A} (h : A -> Z) (arg : @opt A) : outcome Z :=
  if bool_of arg then a <- star arg ;; Ok (h a) else Ok 0%Z.
(** optional.h:905-914 hash<optional<T&>>: the object is hashed, not the pointer; [m] as in
    [ref_value] *)
Definition ref_hash {A} (h : A -> Z) (m : list A) (arg : rref) : outcome Z :=
  match arg with
  | Some k => match nth_error m k with Some a => Ok (h a) | None => UB end
  | None => Ok 0%Z
  end.
