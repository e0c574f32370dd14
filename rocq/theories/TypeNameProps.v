(** Property C83: type_name *)
From Coq Require Import Lia.
From Verif Require Import Base SvModel SvSpec TypeNameModel TypeNameSpec TypeNameProofs.
Local Open Scope Z_scope.

(** GCC and Clang: the result is exactly the name of the type, if it has no semicolon *)
Theorem C83_gnu : forall name sig : str, c_literal sig -> gnu_signature name sig -> ~ In ";"%char name ->
  exists v, type_name_gnu sig = Ok v /\ valid v /\ content v = name.
Proof.
  intros name sig L (head & tail & E & F & [->|[more ->]]) N.
  - eapply gnu_bracket; eassumption.
  - eapply gnu_semicolon; eassumption.
Qed.
(** MSVC: the result is exactly the name of the type *)
Theorem C83_msvc : forall name sig : str, c_literal sig -> msvc_signature name sig -> name <> [] ->
  exists v, type_name_msvc sig = Ok v /\ valid v /\ content v = name.
Proof. intros. apply msvc_ok; assumption. Qed.
(** Types whose names are different are told apart *)
Theorem C83_injective : forall name1 name2 sig1 sig2 v1 v2, c_literal sig1 -> c_literal sig2 ->
  gnu_signature name1 sig1 -> gnu_signature name2 sig2 -> ~ In ";"%char name1 -> ~ In ";"%char name2 ->
  type_name_gnu sig1 = Ok v1 -> type_name_gnu sig2 = Ok v2 -> (content v1 = content v2 <-> name1 = name2).
Proof.
  intros n1 n2 s1 s2 v1 v2 L1 L2 G1 G2 N1 N2 E1 E2.
  destruct (C83_gnu n1 s1 L1 G1 N1) as (u1 & U1 & _ & <-). destruct (C83_gnu n2 s2 L2 G2 N2) as (u2 & U2 & _ & <-).
  rewrite E1 in U1. rewrite E2 in U2. injection U1 as <-. injection U2 as <-. reflexivity.
Qed.
(** Whatever the compiler's text is, the result is a part of it and nothing else is read *)
Theorem C83_safe : forall sig : str, c_literal sig -> exists v, type_name_gnu sig = Ok v /\ valid v.
Proof. exact gnu_safe. Qed.
(** Finding: a name with a semicolon (GCC calls a class in a function template
    "f() [with T = int; U = char]::S") is cut off there *)
Theorem C83_semicolon_finding : forall name1 name2 sig : str, c_literal sig ->
  gnu_signature (name1 ++ ";"%char :: name2) sig -> ~ In ";"%char name1 ->
  exists v, type_name_gnu sig = Ok v /\ valid v /\ content v = name1.
Proof.
  intros n1 n2 sig L (head & tail & E & F & _) N. eapply (gnu_semicolon sig head n1 (n2 ++ tail)); try eassumption.
  rewrite E, <- !app_assoc. reflexivity.
Qed.
Lemma mark_check mark head : (forall a, In a (seq 0 (length head)) -> firstn (length mark) (skipn a (head ++ mark)) <> mark) -> first_mark mark head.
Proof.
  intros H p (a & b & E & <-). destruct (Nat.eq_dec (length a) (length head)) as [L|L]; [unfold zlen; lia|].
  assert (length a <= length head)%nat.
  { apply (f_equal (@length _)) in E. rewrite !app_length in E. lia. }
  exfalso. apply (H (length a)); [apply in_seq; lia|]. rewrite E, skipn_app, skipn_all, Nat.sub_diag. cbn [skipn app].
  rewrite firstn_app, firstn_all, Nat.sub_diag. cbn. apply app_nil_r.
Qed.
Example C83_example :
  gnu_signature !"std::vector<int>" !"constexpr gul14::string_view gul14::type_name() [with T = std::vector<int>; gul14::string_view = gul14::basic_string_view<char>]" /\
  gnu_signature !"const char (&)[5]" !"gul14::string_view gul14::type_name() [T = const char (&)[5]]" /\
  msvc_signature !"class std::vector<int>" !"class gul14::basic_string_view<char> __cdecl gul14::type_name<class std::vector<int>>(void)" /\
  (exists v, type_name_gnu !"constexpr gul14::string_view gul14::type_name() [with T = int; x = y]" = Ok v /\ content v = !"int").
Proof.
  repeat split.
  - exists !"constexpr gul14::string_view gul14::type_name() [with T", !"; gul14::string_view = gul14::basic_string_view<char>]".
    split; [reflexivity|]. split; [|right; eexists; reflexivity]. apply mark_check. apply Forall_forall. vm_compute. repeat (constructor; [discriminate|]). constructor.
  - exists !"gul14::string_view gul14::type_name() [T", !"]".
    split; [reflexivity|]. split; [|left; reflexivity]. apply mark_check. apply Forall_forall. vm_compute. repeat (constructor; [discriminate|]). constructor.
  - exists !"class gul14::basic_string_view<char> __cdecl ", !"(void)".
    split; [reflexivity|]. split; [|cbn; intuition discriminate]. apply mark_check. apply Forall_forall. vm_compute. repeat (constructor; [discriminate|]). constructor.
  - eexists. split; [vm_compute; reflexivity|vm_compute; reflexivity].
Qed.
Print Assumptions C83_gnu.
