(** Specification vocabulary for the string functions, independent of the model. *)
From Verif Require Import Base.

(** [d] occurs somewhere in [t]. *)
Definition occurs (d t : str) : Prop := exists a b, t = a ++ d ++ b.

(** [t = a ++ d ++ rest] and this is the leftmost occurrence of [d] in [t]. *)
Definition first_occurrence (d t a rest : str) : Prop :=
  t = a ++ d ++ rest /\
  forall a' b', t = a' ++ d ++ b' -> length a <= length a'.

(** [leftmost_cuts d t parts]: cutting [t] at the leftmost occurrence of [d], then at the
    leftmost occurrence in what follows it, and so on, gives [parts]. *)
Inductive leftmost_cuts (d : str) : str -> list str -> Prop :=
| cuts_last t : ~ occurs d t -> leftmost_cuts d t [t]
| cuts_more t a rest parts :
    first_occurrence d t a rest ->
    leftmost_cuts d rest parts ->
    leftmost_cuts d t (a :: parts).

(** Parts put together with a glue string between neighbours. *)
Fixpoint intercalate (glue : str) (parts : list str) : str :=
  match parts with
  | [] => []
  | [p] => p
  | p :: ps => p ++ glue ++ intercalate glue ps
  end.

(** All characters of [t] belong / do not belong to the set [s]. *)
Definition all_in (s t : str) : Prop := forall c, In c t -> In c s.
Definition none_in (s t : str) : Prop := forall c, In c t -> ~ In c s.

(** [runs ds t toks]: [toks] are the maximal non-empty runs of characters of [t] that do not
    belong to [ds], in order. *)
Inductive runs (ds : str) : str -> list str -> Prop :=
| runs_end t : all_in ds t -> runs ds t []
| runs_more gap tok rest toks :
    all_in ds gap ->
    tok <> [] -> none_in ds tok ->
    (rest = [] \/ exists c r, rest = c :: r /\ In c ds) ->
    runs ds rest toks ->
    runs ds (gap ++ tok ++ rest) (tok :: toks).

(** [t] does not start / end with a character of [s]. *)
Definition no_start (s t : str) : Prop := forall c r, t = c :: r -> ~ In c s.
Definition no_end (s t : str) : Prop := forall c r, t = r ++ [c] -> ~ In c s.

(** ASCII case folding. *)
Definition lower_char (c : ascii) : ascii :=
  if (65 <=? uc c)%Z && (uc c <=? 90)%Z then ascii_of_N (N_of_ascii c + 32) else c.
Definition upper_char (c : ascii) : ascii :=
  if (97 <=? uc c)%Z && (uc c <=? 122)%Z then ascii_of_N (N_of_ascii c - 32) else c.
Definition lower (s : str) : str := map lower_char s.
Definition upper (s : str) : str := map upper_char s.

(** Hexadecimal digit characters and their values. *)
Inductive hex_value : ascii -> Z -> Prop :=
| hv_digit c : (48 <= uc c <= 57)%Z -> hex_value c (uc c - 48)
| hv_upper c : (65 <= uc c <= 70)%Z -> hex_value c (uc c - 55)
| hv_lower c : (97 <= uc c <= 102)%Z -> hex_value c (uc c - 87).
Definition lowercase_hex_digit (c : ascii) : Prop :=
  (48 <= uc c <= 57 \/ 97 <= uc c <= 102)%Z.

(** [denotes s v]: the digit string [s] read as a base-16 number is [v]. *)
Inductive denotes_hex : str -> Z -> Prop :=
| dh_nil : denotes_hex [] 0
| dh_snoc s v c d : denotes_hex s v -> hex_value c d -> denotes_hex (s ++ [c]) (16 * v + d).

(** One escape sequence (the text including the backslash) and the byte it denotes. *)
Inductive escape_seq : str -> ascii -> Prop :=
| es_quote : escape_seq (!"\""") """"
| es_backslash : escape_seq (!"\\") "\"
| es_n : escape_seq (!"\n") "010"
| es_r : escape_seq (!"\r") "013"
| es_t : escape_seq (!"\t") "009"
| es_hex h l vh vl c :
    hex_value h vh -> hex_value l vl -> uc c = (16 * vh + vl)%Z ->
    escape_seq (!"\x" ++ [h; l]) c.

(** [unescapes s r]: reading [s] from left to right, replacing escape sequences by the byte
    they denote and copying every other byte gives [r]. *)
Inductive unescapes : str -> str -> Prop :=
| un_nil : unescapes [] []
| un_seq e c s r : escape_seq e c -> unescapes s r -> unescapes (e ++ s) (c :: r)
| un_copy c s r :
    (forall e x rest, escape_seq e x -> c :: s <> e ++ rest) ->
    unescapes s r -> unescapes (c :: s) (c :: r).
