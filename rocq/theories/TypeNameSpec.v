(** What type_name should return *)
From Verif Require Import Base SvModel SvSpec.
Local Open Scope Z_scope.

(** The first occurrence of [mark] in [head ++ mark ++ ...] is the one behind [head] *)
Definition first_mark (mark head : str) : Prop := forall p, occurs_at mark (head ++ mark) p -> p = zlen head.
(** What compilers say about the function for a type with the given name.  GCC: "constexpr
    gul14::string_view gul14::type_name() [with T = int; ...]", Clang: the same without "with".
    In the list of template parameters the name is followed by the closing bracket or a semicolon. *)
Definition gnu_signature (name sig : str) : Prop :=
  exists head tail, sig = head ++ !" = " ++ name ++ tail /\ first_mark !" = " head /\
    (tail = !"]" \/ exists more, tail = ";"%char :: more).
(** MSVC: "class gul14::basic_string_view<char> __cdecl gul14::type_name<int>(void)" *)
Definition msvc_signature (name sig : str) : Prop :=
  exists head tail, sig = head ++ !"gul14::type_name<" ++ name ++ ">"%char :: tail /\
    first_mark !"gul14::type_name<" head /\ ~ In ">"%char tail.
(** A C string of a possible size *)
Definition c_literal (s : str) : Prop := ~ In "000"%char s /\ zlen s < 2 ^ 63.
