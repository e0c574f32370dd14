(** Properties C01-C17: string functions.  Specification vocabulary: StrSpec.v. *)
From Verif Require Import Base StrSpec StrModel StrProofs1 StrProofs2.

(** ** C01: unescape(escape(s)) == s *)
Theorem C01_unescape_escape : forall s : str, unescape (escape s) = s.
Proof. exact unescape_escape. Qed.
Example C01_example :
  escape (!"a\x41""" ++ map chr [0; 10; 200; 52]%Z) = !"a\\x41\""\x00\n\xc84" /\
  unescape (!"a\\x41\""\x00\n\xc84") = !"a\x41""" ++ map chr [0; 10; 200; 52]%Z.
Proof. vm_compute. auto. Qed.

(** ** C02: escape produces printable ASCII, quotes are escaped, injective *)
Theorem C02_escape_printable :
  forall (s : str) (c : ascii), In c (escape s) -> (32 <= uc c <= 127)%Z.
Proof.
  intros s c H. rewrite escape_flat_map in H. apply in_flat_map in H as (x & _ & Hx).
  eapply escape_char_printable; eauto.
Qed.
(** Every quote in the output is the second byte of a two-byte sequence backslash-quote that
    stands for a quote of the input: the text before that backslash is the escaped form of
    the text before the input's quote. *)
Theorem C02_escape_quotes_escaped :
  forall (s a b : str), escape s = a ++ """"%char :: b ->
  exists s1 s2, s = s1 ++ """"%char :: s2 /\ a = escape s1 ++ ["\"%char] /\ b = escape s2.
Proof. exact escape_quotes. Qed.
Theorem C02_escape_injective : forall s t : str, escape s = escape t -> s = t.
Proof. intros s t H. rewrite <- (unescape_escape s), H. apply unescape_escape. Qed.
Example C02_example :
  In """"%char (escape (!"say ""hi""")) /\ escape (!"say ""hi""") = !"say \""hi\""".
Proof. vm_compute. auto 20. Qed.

(** Finding: the documentation promises that all non-printable characters are escaped; DEL is not. *)
Theorem C02_delete_finding : escape [ascii_of_nat 127] = [ascii_of_nat 127].
Proof. vm_compute. reflexivity. Qed.

(** ** C03: unescape replaces exactly the known escape sequences *)
Theorem C03_unescape_spec :
  forall s r : str, unescape s = r <-> unescapes s r.
Proof.
  intros s r. split.
  - intros <-. apply unescape_unescapes.
  - intros H. eapply unescapes_fun; [apply unescape_unescapes | exact H].
Qed.
Theorem C03_unescape_no_backslash :
  forall s : str, ~ In "\"%char s -> unescape s = s.
Proof.
  intros s H. apply C03_unescape_spec. induction s as [|c s IH]; constructor.
  - intros e x rest He E. apply escape_seq_head in He as [e' ->]. simpl in E.
    injection E as -> _. apply H. now left.
  - apply IH. intros Hin. apply H. now right.
Qed.
Example C03_example :
  unescape (!"\xZ1\q\\n\x4a\x4") = !"\xZ1\q\nJ\x4" /\ ~ In "\"%char (!"no escapes 'x41'").
Proof. split; [vm_compute; reflexivity|]. simpl. intuition discriminate. Qed.

(** ** C04: join inverts split *)
Theorem C04_join_split :
  forall text delimiter : str,
  exists parts, split text delimiter = Ok parts /\ parts <> [] /\
                join parts delimiter = text.
Proof. exact split_join_total. Qed.
(** join itself: the parts with the glue between neighbours. *)
Theorem C04_join_spec :
  forall (parts : list str) (glue : str), join parts glue = intercalate glue parts.
Proof. exact join_intercalate. Qed.
Example C04_example :
  split (!"aaaxaa") (!"aa") = Ok [!""; !"ax"; !""] /\
  split (!"ab") (!"") = Ok [!""; !"a"; !"b"; !""] /\
  split (!"") (!"") = Ok [!""; !""] /\ split (!"") (!",") = Ok [!""].
Proof. vm_compute. auto. Qed.

(** ** C05: split cuts exactly at the leftmost non-overlapping delimiters *)
Theorem C05_split_leftmost :
  forall text delimiter : str, delimiter <> [] ->
  forall parts, split text delimiter = Ok parts <-> leftmost_cuts delimiter text parts.
Proof.
  intros text d Hd parts. destruct (split_cuts text d Hd) as (ps & Hs & Hc). split.
  - rewrite Hs. intros [= ->]. exact Hc.
  - intros H. rewrite Hs. f_equal. eapply cuts_unique; eauto.
Qed.
Theorem C05_split_no_delimiter :
  forall text delimiter parts, delimiter <> [] -> split text delimiter = Ok parts ->
  forall p, In p parts -> ~ occurs delimiter p.
Proof.
  intros text d parts Hd H. apply C05_split_leftmost in H; auto.
  eapply cuts_no_delim; eauto.
Qed.
Theorem C05_split_empty_delimiter :
  forall text : str, split text [] = Ok ([[]] ++ map (fun c => [c]) text ++ [[]]).
Proof. exact split_empty. Qed.
Example C05_example : split (!"a<><>b") (!"<>") = Ok [!"a"; !""; !"b"] /\ !"<>" <> [].
Proof. split; [vm_compute; reflexivity | discriminate]. Qed.

(** ** C06: split inverts join *)
Theorem C06_split_join :
  forall (c : ascii) (parts : list str),
  parts <> [] -> (forall p, In p parts -> ~ In c p) ->
  split (join parts [c]) [c] = Ok parts.
Proof. exact split_join_char. Qed.
Example C06_example :
  [!"a b"; !""; !"c"] <> [] /\ (forall p, In p [!"a b"; !""; !"c"] -> ~ In ","%char p).
Proof. split; [discriminate|]. simpl. intuition (subst; simpl in *; intuition discriminate). Qed.

(** ** C07: tokenize returns the maximal delimiter-free runs *)
Theorem C07_tokenize_runs :
  forall s delimiters : str, exists toks,
  tokenize s delimiters = Ok toks /\ runs delimiters s toks.
Proof. exact tokenize_runs. Qed.
Theorem C07_tokenize_tokens :
  forall s delimiters toks, tokenize s delimiters = Ok toks ->
  (forall t, In t toks -> t <> [] /\ none_in delimiters t) /\
  concat toks = filter (fun c => negb (memb c delimiters)) s.
Proof.
  intros s ds toks H. destruct (tokenize_runs s ds) as (ts & H' & Hr).
  rewrite H in H'. injection H' as <-. split.
  - now apply (runs_token ds s).
  - now apply runs_concat.
Qed.
Theorem C07_tokenize_spec :
  forall s delimiters toks, tokenize s delimiters = Ok toks <-> runs delimiters s toks.
Proof.
  intros s ds toks. destruct (tokenize_runs s ds) as (ts & Ht & Hr). rewrite Ht. split.
  - intros [= <-]. exact Hr.
  - intros H. f_equal. eapply runs_unique; eauto.
Qed.
(** Extra delimiters at either end or repeated between tokens make no difference. *)
Theorem C07_tokenize_extra_delimiters :
  forall s delimiters l r, all_in delimiters l -> all_in delimiters r ->
  tokenize (l ++ s ++ r) delimiters = tokenize s delimiters.
Proof.
  intros s ds l r Hl Hr. destruct (tokenize_runs s ds) as (ts & -> & Hs).
  apply C07_tokenize_spec.
  assert (H1 : runs ds (s ++ r) ts).
  { clear l Hl. induction Hs as [t Ht | gap tok rest toks Hg Ht Hn Hrest Hruns IH].
    - constructor. intros x Hx. apply in_app_iff in Hx. destruct Hx; auto.
    - rewrite <- !app_assoc. constructor; auto.
      destruct Hrest as [->|(c & q & -> & Hc)].
      + destruct r as [|c r]; [now left | right]. exists c, r. split; auto. apply Hr. now left.
      + right. exists c, (q ++ r). auto. }
  destruct H1 as [t Ht | gap tok rest toks Hg Ht Hn Hrest Hruns].
  - constructor. intros x Hx. apply in_app_iff in Hx. destruct Hx; auto.
  - rewrite app_assoc. constructor; auto.
    intros x Hx. apply in_app_iff in Hx. destruct Hx; auto.
Qed.
Example C07_example :
  tokenize (!"  hello,, world ") (!" ,") = Ok [!"hello"; !"world"] /\
  tokenize (!"abc") (!"") = Ok [!"abc"] /\ all_in (!" ,") (!", ,").
Proof.
  split; [vm_compute; reflexivity|]. split; [vm_compute; reflexivity|].
  intros c. simpl. tauto.
Qed.

(** ** C08: trim *)
Theorem C08_trim_spec :
  forall s ws t, trim s ws = Ok t <->
  exists l r, s = l ++ t ++ r /\ all_in ws l /\ all_in ws r /\ no_start ws t /\ no_end ws t.
Proof.
  intros s ws t.
  destruct (trim_decomp s ws) as (l' & t' & r' & E & -> & Hl' & Hr' & Hs' & He'). split.
  - intros [= ->]. exists l', r'. auto.
  - intros (l & r & E0 & Hl & Hr & Hs & He). f_equal. subst s.
    eapply trim_both_unique; eauto.
Qed.
Theorem C08_trim_left_spec :
  forall s ws t, trim_left s ws = Ok t <->
  exists l, s = l ++ t /\ all_in ws l /\ no_start ws t.
Proof.
  intros s ws t. destruct (trim_left_decomp s ws) as (l & t' & -> & -> & Hl & Hs). split.
  - intros [= ->]. eauto.
  - intros (l' & E & Hl' & Hs'). f_equal. now apply (trim_left_unique ws l _ l' _ E).
Qed.
Theorem C08_trim_right_spec :
  forall s ws t, trim_right s ws = Ok t <->
  exists r, s = t ++ r /\ all_in ws r /\ no_end ws t.
Proof.
  intros s ws t. destruct (trim_right_decomp s ws) as (t' & r & -> & -> & Hr & He). split.
  - intros [= ->]. eauto.
  - intros (r' & E & Hr' & He'). f_equal. now apply (trim_right_unique ws _ r _ r' E).
Qed.
(** The functions never throw and never run into undefined behaviour, and trimming is
    trimming on both sides. *)
Theorem C08_trim_total :
  forall s ws, exists t u v,
  trim_right s ws = Ok t /\ trim_left t ws = Ok u /\ trim s ws = Ok u /\ trim_left s ws = Ok v.
Proof.
  intros s ws. destruct (trim_right_decomp s ws) as (t & r & Hs & Ht & Hr & He).
  destruct (trim_left_decomp t ws) as (l & u & _ & Hu & _).
  destruct (trim_left_decomp s ws) as (l' & v & _ & Hv & _).
  exists t, u, v. repeat split; auto. rewrite <- Hu. now apply trim_left_right.
Qed.
Theorem C08_trim_idempotent :
  forall s ws t, trim s ws = Ok t -> trim t ws = Ok t.
Proof.
  intros s ws t H. apply C08_trim_spec in H as (l & r & _ & _ & _ & Hs & He).
  apply C08_trim_spec. exists [], []. rewrite app_nil_r. repeat split; auto; intros x [].
Qed.
(** The whitespace used by default: space and the control characters \a \b \t \n \v \f \r,
    which have the codes 7 to 13 *)
Theorem C08_default_whitespace :
  forall c, In c default_whitespace_characters <-> (uc c = 32 \/ 7 <= uc c <= 13)%Z.
Proof.
  intros c.
  assert (H : memb c default_whitespace_characters = ((uc c =? 32) || (7 <=? uc c) && (uc c <=? 13))%Z%bool)
    by (destruct c as [[|] [|] [|] [|] [|] [|] [|] [|]]; reflexivity).
  rewrite <- memb_In, H. rewrite Bool.orb_true_iff, Bool.andb_true_iff, Z.eqb_eq, !Z.leb_le. reflexivity.
Qed.
Example C08_example :
  trim (!"  a b  ") default_whitespace_characters = Ok (!"a b") /\
  trim (!"   ") default_whitespace_characters = Ok [] /\
  trim_left (!"  a b  ") (!" ") = Ok (!"a b  ") /\ trim_right (!"  a b  ") (!" ") = Ok (!"  a b").
Proof. vm_compute. auto. Qed.

(** ** C09: replace *)
Theorem C09_replace_join_split :
  forall haystack needle hammer : str, needle <> [] ->
  exists parts, split haystack needle = Ok parts /\
                replace haystack needle hammer = Ok (join parts hammer).
Proof.
  intros h n r Hn. destruct (replace_cuts h n r Hn) as (parts & Hc & ->).
  exists parts. split; [|now rewrite join_intercalate].
  now apply C05_split_leftmost.
Qed.
(** Stated without split and join: the haystack is cut at the leftmost non-overlapping
    occurrences of the needle and the pieces are put together with the hammer. *)
Theorem C09_replace_spec :
  forall haystack needle hammer : str, needle <> [] ->
  exists parts, leftmost_cuts needle haystack parts /\
                replace haystack needle hammer = Ok (intercalate hammer parts).
Proof. exact replace_cuts. Qed.
Theorem C09_replace_empty_needle :
  forall haystack hammer : str, replace haystack [] hammer = Ok haystack.
Proof. reflexivity. Qed.
Theorem C09_replace_self :
  forall haystack needle : str, replace haystack needle needle = Ok haystack.
Proof.
  intros h n. destruct n as [|c n]; [reflexivity|].
  destruct (replace_cuts h (c :: n) (c :: n)) as (parts & Hc & ->); [discriminate|].
  f_equal. now apply cuts_intercalate.
Qed.
Example C09_example :
  replace (!"aaaa") (!"aa") (!"aaa") = Ok (!"aaaaaa") /\ !"aa" <> [].
Proof. split; [vm_compute; reflexivity | discriminate]. Qed.

(** ** C10: replace_inplace *)
Theorem C10_replace_inplace :
  forall haystack needle hammer : str,
  exists r, replace_inplace haystack needle hammer = Ok r /\
            replace haystack needle hammer = Ok r.
Proof.
  intros h n r. rewrite replace_inplace_replace. destruct n as [|c n].
  - exists h. auto.
  - destruct (replace_cuts h (c :: n) r) as (parts & _ & ->); [discriminate|]. eauto.
Qed.
Example C10_example : replace_inplace (!"xaxa") (!"a") (!"aa") = Ok (!"xaaxaa").
Proof. vm_compute. reflexivity. Qed.

(** ** C11: contains, starts_with, ends_with *)
Theorem C11_contains : forall h n : str, contains h n = true <-> exists a b, h = a ++ n ++ b.
Proof. exact contains_spec. Qed.
Theorem C11_contains_char : forall (h : str) c, contains_char h c = true <-> In c h.
Proof. intros h c. unfold contains_char. rewrite contains_spec. apply occurs_char. Qed.
Theorem C11_starts_with : forall s p : str, starts_with s p = true <-> exists b, s = p ++ b.
Proof. exact starts_with_spec. Qed.
Theorem C11_starts_with_char :
  forall (s : str) c, starts_with_char s c = true <-> exists b, s = c :: b.
Proof. exact starts_with_char_spec. Qed.
Theorem C11_ends_with : forall s p : str, ends_with s p = true <-> exists a, s = a ++ p.
Proof. exact ends_with_spec. Qed.
Theorem C11_ends_with_char :
  forall (s : str) c, ends_with_char s c = true <-> exists a, s = a ++ [c].
Proof. exact ends_with_char_spec. Qed.
Example C11_example :
  contains (!"hello") (!"ll") = true /\ contains (!"hello") (!"lll") = false /\
  starts_with (!"hello") (!"") = true /\ ends_with (!"hello") (!"lo") = true.
Proof. vm_compute. auto. Qed.

(** ** C12: nocase variants *)
Theorem C12_equals_nocase :
  forall a b : str, exists r, equals_nocase a b = Ok r /\ (r = true <-> lower a = lower b).
Proof. exact equals_nocase_spec. Qed.
Theorem C12_contains_nocase :
  forall h n : str, contains_nocase h n = Ok (contains (lower h) (lower n)).
Proof.
  intros h n. destruct (contains_nocase_spec h n) as (r & -> & Hr). f_equal.
  pose proof (contains_spec (lower h) (lower n)) as Hc.
  destruct r; destruct (contains (lower h) (lower n)); intuition congruence.
Qed.
Theorem C12_starts_with_nocase :
  forall s p : str, starts_with_nocase s p = starts_with (lower s) (lower p).
Proof.
  intros s p. pose proof (starts_with_nocase_spec s p). pose proof (starts_with_spec (lower s) (lower p)).
  destruct (starts_with_nocase s p), (starts_with (lower s) (lower p)); intuition congruence.
Qed.
Theorem C12_ends_with_nocase :
  forall s p : str, ends_with_nocase s p = Ok (ends_with (lower s) (lower p)).
Proof.
  intros s p. destruct (ends_with_nocase_spec s p) as (r & -> & Hr). f_equal.
  pose proof (ends_with_spec (lower s) (lower p)) as Hc.
  destruct r; destruct (ends_with (lower s) (lower p)); intuition congruence.
Qed.
Theorem C12_contains_nocase_char :
  forall (h : str) c, contains_nocase_char h c = true <-> In (lower_char c) (lower h).
Proof. exact contains_nocase_char_spec. Qed.
Theorem C12_starts_with_nocase_char :
  forall (s : str) c, starts_with_nocase_char s c = true <-> exists b, lower s = lower_char c :: b.
Proof. exact starts_with_nocase_char_spec. Qed.
Theorem C12_ends_with_nocase_char :
  forall (s : str) c, ends_with_nocase_char s c = true <-> exists a, lower s = a ++ [lower_char c].
Proof. exact ends_with_nocase_char_spec. Qed.
Example C12_example :
  equals_nocase (!"Hello[") (!"hELLO{") = Ok false /\
  contains_nocase (!"xxABC") (!"aBc") = Ok true /\ ends_with_nocase (!"xAB") (!"Ab") = Ok true.
Proof. vm_compute. auto. Qed.

(** ** C13: ASCII case conversion *)
Theorem C13_lowercase_spec : forall s : str, lowercase_ascii s = lower s.
Proof. exact lowercase_spec. Qed.
Theorem C13_uppercase_spec : forall s : str, uppercase_ascii s = upper s.
Proof. exact uppercase_spec. Qed.
Theorem C13_inplace :
  forall s : str, lowercase_ascii_inplace s = lowercase_ascii s /\
                  uppercase_ascii_inplace s = uppercase_ascii s.
Proof.
  intros s. unfold lowercase_ascii_inplace, uppercase_ascii_inplace.
  rewrite !transform_inplace_map, lowercase_spec, uppercase_spec. split; apply map_ext.
  - apply lowercase_char_spec.
  - apply uppercase_char_spec.
Qed.
Theorem C13_case_laws :
  forall s : str,
  length (lowercase_ascii s) = length s /\ length (uppercase_ascii s) = length s /\
  lowercase_ascii (lowercase_ascii s) = lowercase_ascii s /\
  uppercase_ascii (uppercase_ascii s) = uppercase_ascii s /\
  lowercase_ascii (uppercase_ascii s) = lowercase_ascii s /\
  uppercase_ascii (lowercase_ascii s) = uppercase_ascii s.
Proof.
  intros s. rewrite !lowercase_spec, !uppercase_spec.
  unfold lower, upper. rewrite !map_length, !map_map. repeat split; apply map_ext.
  - apply lower_char_idem.
  - apply upper_char_idem.
  - apply lower_upper_char.
  - apply upper_lower_char.
Qed.
(** Only the letters A-Z (a-z) change, to the letter with the same index in the other case. *)
Theorem C13_only_letters :
  forall (s : str) i c, nth_error s i = Some c ->
  exists c', nth_error (lowercase_ascii s) i = Some c' /\
    uc c' = (if (65 <=? uc c) && (uc c <=? 90) then uc c + 32 else uc c)%Z /\
  exists c'', nth_error (uppercase_ascii s) i = Some c'' /\
    uc c'' = (if (97 <=? uc c) && (uc c <=? 122) then uc c - 32 else uc c)%Z.
Proof.
  intros s i c H. exists (lower_char c).
  rewrite lowercase_spec, uppercase_spec. split; [now apply map_nth_error|]. split.
  - apply Z.eqb_eq. clear. revert c.
    apply (forall_bytes (fun c => uc (lower_char c) =?
      (if (65 <=? uc c) && (uc c <=? 90) then uc c + 32 else uc c))%Z). vm_compute. reflexivity.
  - exists (upper_char c). split; [now apply map_nth_error|].
    apply Z.eqb_eq. clear. revert c.
    apply (forall_bytes (fun c => uc (upper_char c) =?
      (if (97 <=? uc c) && (uc c <=? 122) then uc c - 32 else uc c))%Z). vm_compute. reflexivity.
Qed.
Example C13_example : lowercase_ascii (!"aZ@[{") = !"az@[{" /\ uppercase_ascii (!"aZ`{") = !"AZ`{".
Proof. vm_compute. auto. Qed.

(** ** C14: hex_string of an integer; [n] = sizeof(Integer) *)
Theorem C14_hex_string_value :
  forall (n : nat) (v : Z), denotes_hex (hex_string n v) (v mod 2 ^ (8 * Z.of_nat n)).
Proof. exact hex_string_denotes. Qed.
Theorem C14_hex_string_shape :
  forall (n : nat) (v : Z), length (hex_string n v) = 2 * n /\
  forall c, In c (hex_string n v) -> lowercase_hex_digit c.
Proof.
  intros n v. split; [apply hex_loop_length|]. intros c. apply hex_loop_digits.
Qed.
Theorem C14_hex_string_injective :
  forall (n : nat) (v w : Z), hex_string n v = hex_string n w ->
  (v mod 2 ^ (8 * Z.of_nat n) = w mod 2 ^ (8 * Z.of_nat n))%Z.
Proof.
  intros n v w H. pose proof (hex_string_denotes n v) as Hv.
  pose proof (hex_string_denotes n w) as Hw. rewrite H in Hv.
  eapply denotes_hex_fun; eauto.
Qed.
Example C14_example :
  hex_string 2 (-2) = !"fffe" /\ hex_string 4 256 = !"00000100" /\ hex_string 1 10 = !"0a".
Proof. vm_compute. auto. Qed.

(** ** C15: hex_string of a range *)
Theorem C15_hex_range :
  forall (n : nat) (vs : list Z) (sep : str),
  hex_string_range n vs sep = intercalate sep (map (hex_string n) vs).
Proof. exact hex_range_intercalate. Qed.
Theorem C15_hex_range_injective :
  forall (n : nat) (vs ws : list Z), 0 < n ->
  hex_string_range n vs [] = hex_string_range n ws [] ->
  map (fun v => v mod 2 ^ (8 * Z.of_nat n))%Z vs = map (fun v => v mod 2 ^ (8 * Z.of_nat n))%Z ws.
Proof.
  intros n vs ws Hn H. rewrite !hex_range_intercalate, !intercalate_nil_concat in H.
  apply (concat_blocks_inj (2 * n)) in H; try lia;
    try (intros b Hb; apply in_map_iff in Hb as (v & <- & _); apply hex_loop_length).
  revert ws H; induction vs as [|v vs IH]; intros [|w ws] H; simpl in *; try discriminate; auto.
  injection H as H1 H2. f_equal; auto. now apply C14_hex_string_injective.
Qed.
Example C15_example :
  hex_string_range 1 [0; 15; 16; 255]%Z (!"-") = !"00-0f-10-ff" /\ 0 < 1.
Proof. split; [vm_compute; reflexivity | lia]. Qed.

(** ** C16: repeat and cat *)
Theorem C16_repeat :
  forall (s : str) (n : nat), length (repeat s n) = n * length s /\
  forall i d, i < n * length s -> nth i (repeat s n) d = nth (i mod length s) s d.
Proof.
  intros s n. rewrite repeat_spec. split; [apply concat_repeat_length|].
  intros i d. apply concat_repeat_nth.
Qed.
Theorem C16_cat : forall args : list str, cat args = concat args.
Proof. exact cat_spec. Qed.
Example C16_example :
  repeat (!"ab") 3 = !"ababab" /\ cat [!"a"; !""; !"bc"; !"d"; !"e"] = !"abcde" /\ 5 < 3 * 2.
Proof. split; [vm_compute; reflexivity|]. split; [vm_compute; reflexivity | lia]. Qed.

(** ** C17: safe_string.  The buffer either has [len] accessible bytes or contains a NUL. *)
Theorem C17_safe_string :
  forall (mem : str) (len : nat), (len <= length mem \/ In "000"%char mem) ->
  exists pre post, mem = pre ++ post /\ safe_string (Some mem) len = Ok pre /\
    ~ In "000"%char pre /\ length pre <= len /\
    (length pre = len \/ exists rest, post = "000"%char :: rest).
Proof. exact safe_string_loop_spec. Qed.
Theorem C17_safe_string_null : forall len : nat, safe_string None len = Ok [].
Proof. reflexivity. Qed.
(** No byte beyond the terminator or beyond [len] influences the result (it is not read). *)
Theorem C17_safe_string_no_overread :
  forall (pre rest1 rest2 : str) (len : nat),
  safe_string (Some (pre ++ "000"%char :: rest1)) len
  = safe_string (Some (pre ++ "000"%char :: rest2)) len /\
  (len <= length pre -> safe_string (Some (pre ++ rest1)) len = safe_string (Some pre) len).
Proof.
  intros pre rest1 rest2 len. simpl. split.
  - revert len; induction pre as [|c pre IH]; intros [|len]; simpl; auto.
    rewrite IH. reflexivity.
  - revert len; induction pre as [|c pre IH]; intros [|len] Hl; simpl in *; auto; try lia.
    + destruct rest1; reflexivity.
    + rewrite IH by lia. reflexivity.
Qed.
Example C17_example :
  safe_string (Some (!"ab" ++ "000"%char :: !"cd")) 100 = Ok (!"ab") /\
  In "000"%char (!"ab" ++ "000"%char :: !"cd") /\ safe_string (Some (!"abcd")) 3 = Ok (!"abc").
Proof. split; [vm_compute; reflexivity|]. split; [simpl; auto | vm_compute; reflexivity]. Qed.

Print Assumptions C01_unescape_escape.
Print Assumptions C05_split_leftmost.
Print Assumptions C07_tokenize_spec.
Print Assumptions C08_trim_spec.
Print Assumptions C10_replace_inplace.
Print Assumptions C12_contains_nocase.
Print Assumptions C14_hex_string_injective.
