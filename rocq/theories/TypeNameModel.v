(** Model of include/gul14/type_name.h.  The compiler's text for the function (__PRETTY_FUNCTION__,
    __FUNCSIG__) is a parameter [sig]; it is a C string. *)
From Verif Require Import Base SvModel.
Local Open Scope Z_scope.
Local Open Scope outcome_scope.

(** A string literal as the argument of find (string_view made from a C string) *)
Definition lit (s : str) : view := View s 0 (zlen s).

(** type_name.h:95-107: GCC and Clang *)
Definition type_name_gnu (sig : str) : outcome view :=
  s <- sv_from_cstr (sig ++ ["000"%char]) ;;
  i <- sv_find s (lit !" = ") 0 ;;
  let s := sv_remove_prefix s (w64 (i + 3)) in
  j <- sv_find s (lit !";") 0 ;;
  let suff := if negb (j =? npos) then w64 (sv_size s - j) else 1 in
  Ok (sv_remove_suffix s suff).

(** type_name.h:114-120: the loop over end_idx; it ends at the latest with end_idx = 0 *)
Fixpoint last_gt (fuel : nat) (s : view) (i : Z) : outcome view :=
  match fuel with
  | O => Diverge
  | S fuel' =>
      if i =? 0 then Ok s
      else
        c <- sv_index s i ;;
        if negb (ch_eq c ">") then last_gt fuel' s (w64 (i - 1))
        else Ok (sv_remove_suffix s (w64 (sv_size s - i)))
  end.
(** type_name.h:108-121: MSVC; sizeof of the literal counts the terminating zero *)
Definition type_name_msvc (sig : str) : outcome view :=
  s <- sv_from_cstr (sig ++ ["000"%char]) ;;
  i <- sv_find s (lit !"gul14::type_name<") 0 ;;
  let s := sv_remove_prefix s (w64 (w64 (i + 18) - 1)) in
  last_gt (S (Z.to_nat (sv_size s))) s (w64 (sv_size s - 1)).
