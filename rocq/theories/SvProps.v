(** Properties C18-C20, C59, C60: string_view.  Specification vocabulary: SvSpec.v. *)
From Verif Require Import Base StrSpec StrSearch StrProofs2 SvModel SvSpec SvProofs.
Local Open Scope Z_scope.
Local Open Scope outcome_scope.

(** Views used in the examples: hello is the part of a larger block without its neighbours. *)
Definition ex_hello : view := View (!"xxhello worldxx") 2 11.
Definition ex_set (s : str) : view := View s 0 (zlen s).
Example ex_hello_valid : valid ex_hello /\ content ex_hello = !"hello world" /\
  (forall s : str, zlen s < 2 ^ 63 -> valid (ex_set s) /\ content (ex_set s) = s).
Proof.
  split; [unfold valid; vm_compute; intuition congruence|]. split; [reflexivity|].
  intros s H. unfold valid, content, ex_set, zlen in *. cbn [v_mem v_off v_len].
  split; [lia|]. rewrite Nat2Z.id. simpl. apply firstn_all.
Qed.

(** ** C18: searches.  Every call returns normally (in particular without an access outside of
    the two views, which is UB in the model), and the result is the extremal position. *)
Theorem C18_find : forall t s pos, valid t -> valid s -> is_size_t pos ->
  exists r, sv_find t s pos = Ok r /\ is_first (occurs_at (content s) (content t)) pos r.
Proof. exact sv_find_ok. Qed.
Theorem C18_rfind : forall t s pos, valid t -> valid s -> is_size_t pos ->
  exists r, sv_rfind t s pos = Ok r /\ is_last (occurs_at (content s) (content t)) pos r.
Proof. exact sv_rfind_ok. Qed.
Theorem C18_find_first_of : forall t s pos, valid t -> valid s -> is_size_t pos ->
  exists r, sv_find_first_of t s pos = Ok r /\ is_first (char_in (content s) (content t)) pos r.
Proof. exact sv_find_first_of_ok. Qed.
Theorem C18_find_last_of : forall t s pos, valid t -> valid s -> is_size_t pos ->
  exists r, sv_find_last_of t s pos = Ok r /\ is_last (char_in (content s) (content t)) pos r.
Proof. exact sv_find_last_of_ok. Qed.
Theorem C18_find_first_not_of : forall t s pos, valid t -> valid s -> is_size_t pos ->
  exists r, sv_find_first_not_of t s pos = Ok r /\
            is_first (char_not_in (content s) (content t)) pos r.
Proof. exact sv_find_first_not_of_ok. Qed.
Theorem C18_find_last_not_of : forall t s pos, valid t -> valid s -> is_size_t pos ->
  exists r, sv_find_last_not_of t s pos = Ok r /\
            is_last (char_not_in (content s) (content t)) pos r.
Proof. exact sv_find_last_not_of_ok. Qed.
(** The list-level functions of StrSearch.v, on which the models of the other string
    functions are built, are what the string_view members compute. *)
Theorem C18_refines_StrSearch : forall t s pos, valid t -> valid s -> is_size_t pos ->
  sv_find t s pos = Ok (pos_z (find (content t) (content s) (Z.to_nat pos))) /\
  sv_find_first_of t s pos = Ok (pos_z (find_first_of (content t) (content s) (Z.to_nat pos))) /\
  sv_find_first_not_of t s pos
    = Ok (pos_z (find_first_not_of (content t) (content s) (Z.to_nat pos))) /\
  sv_find_last_not_of t s npos = Ok (pos_z (find_last_not_of (content t) (content s))) /\
  sv_compare t s = Ok (compare (content t) (content s)).
Proof.
  intros t s pos Ht Hs Hp. repeat split.
  - now apply sv_find_bridge.
  - now apply sv_find_first_of_bridge.
  - now apply sv_find_first_not_of_bridge.
  - now apply sv_find_last_not_of_bridge.
  - now apply sv_compare_ok.
Qed.
Example C18_example :
  sv_find ex_hello (ex_set (!"o")) 5 = Ok 7 /\ sv_rfind ex_hello (ex_set (!"o")) npos = Ok 7 /\
  sv_rfind ex_hello (ex_set (!"o")) 6 = Ok 4 /\ sv_find ex_hello (ex_set (!"x")) 0 = Ok npos /\
  sv_find_last_of ex_hello (ex_set (!"eh")) npos = Ok 1 /\
  sv_find_last_not_of ex_hello (ex_set (!"dlr")) npos = Ok 7 /\
  sv_find_last_not_of (ex_set []) (ex_set (!"a")) 3 = Ok npos /\ is_size_t npos.
Proof.
  unfold is_size_t. split; [vm_compute; reflexivity|]. split; [vm_compute; reflexivity|].
  split; [vm_compute; reflexivity|]. split; [vm_compute; reflexivity|].
  split; [vm_compute; reflexivity|]. split; [vm_compute; reflexivity|].
  split; [vm_compute; reflexivity|]. unfold npos. lia.
Qed.

(** ** C19: substr.  Full claim: for all pos <= size() and all n the result is the min(n,
    size() - pos) characters from pos.  This fails exactly when pos + n wraps around in
    size_t arithmetic and n is not npos. *)
Theorem C19_substr_throws : forall v pos n, valid v -> is_size_t pos -> is_size_t n ->
  sv_substr v pos n = Throw OutOfRange <-> v_len v < pos.
Proof.
  intros v pos n Hv Hp Hn. unfold sv_substr. destruct (Z.ltb_spec (v_len v) pos).
  - tauto.
  - split; [discriminate|lia].
Qed.
Theorem C19_substr_partial : forall v pos n, valid v -> is_size_t pos -> is_size_t n ->
  (n = npos \/ pos + n < 2 ^ 64) -> pos <= v_len v ->
  exists v', sv_substr v pos n = Ok v' /\ valid v' /\ v_mem v' = v_mem v /\
    v_off v' = v_off v + pos /\ v_len v' = Z.min n (v_len v - pos) /\
    content v' = firstn (Z.to_nat (Z.min n (v_len v - pos))) (skipn (Z.to_nat pos) (content v)).
Proof.
  intros v pos n Hv Hp Hn Hw Hle.
  destruct (sv_substr_ok v pos n Hv Hp Hn Hw Hle) as (v' & E & H1 & H2 & H3).
  exists v'. repeat split; auto; try apply H1; revert E; unfold sv_substr;
    destruct (v_len v <? pos); intros [= <-]; reflexivity.
Qed.
(** Whenever the addition wraps around, the returned view is longer than what is left of the
    original one and is not a valid view: using it is undefined behaviour. *)
Theorem C19_substr_wrap : forall v pos n, valid v -> is_size_t pos -> is_size_t n ->
  pos <= v_len v -> n <> npos -> 2 ^ 64 <= pos + n ->
  exists v', sv_substr v pos n = Ok v' /\ v_len v' = n /\ v_len v - pos < n /\ ~ valid v'.
Proof. exact sv_substr_wraps. Qed.
Theorem C19_substr_refuted : exists v pos n, valid v /\ is_size_t pos /\ is_size_t n /\
  pos <= v_len v /\
  exists v', sv_substr v pos n = Ok v' /\ v_len v' <> Z.min n (v_len v - pos) /\
             sv_to_string (sv_remove_suffix v' (n - 20)) = UB.
Proof.
  exists ex_hello, 2, (2 ^ 64 - 2). split; [apply ex_hello_valid|].
  split; [unfold is_size_t; lia|]. split; [unfold is_size_t; lia|]. split; [cbn; lia|].
  exists (View (!"xxhello worldxx") 4 (2 ^ 64 - 2)). split; [vm_compute; reflexivity|].
  split; vm_compute; [discriminate | reflexivity].
Qed.
Example C19_example : sv_substr ex_hello 6 100 = Ok (View (!"xxhello worldxx") 8 5).
Proof. reflexivity. Qed.

(** ** C20: comparison *)
Theorem C20_compare : forall x y, valid x -> valid y ->
  exists c, sv_compare x y = Ok c /\
    (c < 0 <-> lex_lt (content x) (content y)) /\
    (c = 0 <-> content x = content y) /\
    (c > 0 <-> lex_lt (content y) (content x)).
Proof.
  intros x y Hx Hy. rewrite sv_compare_ok by auto. eexists. split; [reflexivity|].
  rewrite compare_lt, compare_eq, <- (compare_lt (content y)), (compare_opp (content x) (content y)).
  repeat split; auto; lia.
Qed.
Theorem C20_operators : forall x y, valid x -> valid y ->
  exists eq ne lt gt le ge,
  sv_eq x y = Ok eq /\ sv_ne x y = Ok ne /\ sv_lt x y = Ok lt /\ sv_gt x y = Ok gt /\
  sv_le x y = Ok le /\ sv_ge x y = Ok ge /\
  (eq = true <-> content x = content y) /\ (ne = true <-> content x <> content y) /\
  (lt = true <-> lex_lt (content x) (content y)) /\
  (gt = true <-> lex_lt (content y) (content x)) /\
  (le = true <-> lex_lt (content x) (content y) \/ content x = content y) /\
  (ge = true <-> lex_lt (content y) (content x) \/ content x = content y).
Proof. exact sv_operators_ok. Qed.
(** Comparing parts of the views *)
Theorem C20_compare_parts : forall x pos1 n1 y pos2 n2, valid x -> valid y ->
  is_size_t pos1 -> is_size_t n1 -> is_size_t pos2 -> is_size_t n2 ->
  (n1 = npos \/ pos1 + n1 < 2 ^ 64) -> (n2 = npos \/ pos2 + n2 < 2 ^ 64) -> pos1 <= v_len x -> pos2 <= v_len y ->
  let s := firstn (Z.to_nat (Z.min n1 (v_len x - pos1))) (skipn (Z.to_nat pos1) (content x)) in
  let t := firstn (Z.to_nat (Z.min n2 (v_len y - pos2))) (skipn (Z.to_nat pos2) (content y)) in
  (exists c, sv_compare_sub x pos1 n1 y = Ok c /\ (c < 0 <-> lex_lt s (content y)) /\ (c = 0 <-> s = content y) /\ (c > 0 <-> lex_lt (content y) s)) /\
  (exists c, sv_compare_sub2 x pos1 n1 y pos2 n2 = Ok c /\ (c < 0 <-> lex_lt s t) /\ (c = 0 <-> s = t) /\ (c > 0 <-> lex_lt t s)).
Proof.
  intros x pos1 n1 y pos2 n2 Hx Hy P1 N1 P2 N2 W1 W2 L1 L2 s t.
  destruct (sv_substr_ok x pos1 n1 Hx P1 N1 W1 L1) as (x' & E1 & V1 & _ & C1).
  destruct (sv_substr_ok y pos2 n2 Hy P2 N2 W2 L2) as (y' & E2 & V2 & _ & C2).
  unfold sv_compare_sub, sv_compare_sub2. rewrite E1, E2. cbn [bind]. fold s in C1. fold t in C2. rewrite <- C1, <- C2.
  split; now apply C20_compare.
Qed.
Theorem C20_total_order :
  (forall s, ~ lex_lt s s) /\
  (forall r s t, lex_lt r s -> lex_lt s t -> lex_lt r t) /\
  (forall s t, lex_lt s t \/ s = t \/ lex_lt t s).
Proof. split; [exact lex_lt_irrefl|]. split; [exact lex_lt_trans | exact lex_lt_total]. Qed.
Example C20_example :
  sv_lt (ex_set (!"ab")) (ex_set (!"abc")) = Ok true /\
  sv_lt (ex_set [chr 127]) (ex_set [chr 128]) = Ok true /\
  sv_compare ex_hello (ex_set (!"hello")) = Ok 1.
Proof. vm_compute. auto. Qed.

(** ** C59: writing a view to a stream *)
Theorem C59_stream_insertion : forall os v, valid v -> 0 <= os_width os < 2 ^ 63 ->
  exists os', sv_insert os v = Ok os' /\ os_width os' = 0 /\
    os_fill os' = os_fill os /\ os_left os' = os_left os /\
    let pad := List.repeat (os_fill os) (Z.to_nat (os_width os) - length (content v)) in
    os_out os' = os_out os ++ (if os_left os then content v ++ pad else pad ++ content v).
Proof. intros os v Hv Hw. rewrite sv_insert_ok by auto. eexists. split; [reflexivity|]. auto. Qed.
(** Concatenation of strings and views. *)
Theorem C59_concatenation : forall (a : str) v, valid v ->
  str_append_sv a v = Ok (a ++ content v) /\ str_plus_sv a v = Ok (a ++ content v) /\
  sv_plus_str v a = Ok (content v ++ a).
Proof.
  intros a v Hv. unfold str_plus_sv, str_append_sv, sv_plus_str.
  rewrite sv_to_string_ok by auto. auto.
Qed.
Example C59_example :
  sv_insert (OStream 20 "*"%char false (!"out:")) ex_hello
  = Ok (OStream 0 "*"%char false (!"out:*********hello world")).
Proof. reflexivity. Qed.

(** ** C60: remaining members of string_view *)
Theorem C60_remove_prefix : forall v n, valid v -> is_size_t n ->
  valid (sv_remove_prefix v n) /\ content (sv_remove_prefix v n) = skipn (Z.to_nat n) (content v).
Proof. exact sv_remove_prefix_ok. Qed.
Theorem C60_remove_suffix : forall v n, valid v -> is_size_t n ->
  valid (sv_remove_suffix v n) /\
  content (sv_remove_suffix v n) = firstn (length (content v) - Z.to_nat n) (content v).
Proof. exact sv_remove_suffix_ok. Qed.
Theorem C60_copy : forall v n pos, valid v -> is_size_t n -> is_size_t pos ->
  sv_copy v n pos = if v_len v <? pos then Throw OutOfRange
                    else Ok (firstn (Z.to_nat n) (skipn (Z.to_nat pos) (content v))).
Proof. exact sv_copy_ok. Qed.
Theorem C60_at : forall v pos, valid v -> is_size_t pos ->
  sv_at v pos = match nth_error (content v) (Z.to_nat pos) with
                | Some c => Ok c
                | None => Throw OutOfRange
                end.
Proof. exact sv_at_ok. Qed.
Theorem C60_front_back : forall v, valid v -> 0 < v_len v ->
  exists c s s' d, content v = c :: s /\ sv_front v = Ok c /\
                   content v = s' ++ [d] /\ sv_back v = Ok d.
Proof. exact sv_front_back_ok. Qed.
(** Construction from a C string: the characters before the first NUL; the bytes behind it
    are never read. *)
Theorem C60_from_c_string : forall s rest : str, ~ In "000"%char s -> zlen s < 2 ^ 63 ->
  exists v, sv_from_cstr (s ++ "000"%char :: rest) = Ok v /\ valid v /\ content v = s.
Proof.
  intros s rest H Hl. unfold sv_from_cstr. rewrite traits_length_ok by auto. cbn [bind].
  eexists. split; [reflexivity|]. unfold valid, content, zlen in *. cbn [v_mem v_off v_len].
  rewrite app_length. simpl. split; [lia|]. rewrite Nat2Z.id. simpl.
  rewrite firstn_app, Nat.sub_diag. simpl. rewrite app_nil_r. apply firstn_all.
Qed.
Example C60_example :
  sv_copy ex_hello 3 6 = Ok (!"wor") /\ sv_at ex_hello 11 = Throw OutOfRange /\
  content (sv_remove_prefix ex_hello 6) = !"world" /\
  content (sv_remove_suffix ex_hello 100) = [] /\ ~ In "000"%char (!"abc").
Proof. repeat split; try (vm_compute; reflexivity). simpl. intuition discriminate. Qed.

Print Assumptions C18_find_last_not_of.
Print Assumptions C19_substr_refuted.
Print Assumptions C20_operators.
Print Assumptions C59_stream_insertion.
