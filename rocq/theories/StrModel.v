(** Model of the string functions of gul14: string_util, cat, case_ascii, replace, trim,
    escape, join_split, tokenize, substring_checks. *)
From Verif Require Import Base StrSearch.
Open Scope outcome_scope.

(** * string_util *)

(** src/string_util.cc:29: " \t\r\n\a\b\f\v". *)
Definition default_whitespace_characters : str :=
  map chr [32; 9; 13; 10; 7; 8; 12; 11]%Z.

(** src/string_util.cc:30-31 *)
Definition hex_digits : str := !"0123456789abcdef".

(** hex_digits[i] for a nibble i (std::array::operator[]). *)
Definition hex_digit (i : Z) : ascii := nth (Z.to_nat i) hex_digits "000"%char.

(** include/gul14/string_util.h:111-128, the loop over idx = n-1 .. 0 where n is
    sizeof(Integer); [u] is the value converted to the unsigned type of the same size. *)
Fixpoint hex_string_loop (n : nat) (u : Z) : str :=
  match n with
  | O => []
  | S idx =>
      let byte := Z.shiftr u (8 * Z.of_nat idx) in
      let upper_nibble := Z.land (Z.shiftr byte 4) 15 in
      let lower_nibble := Z.land byte 15 in
      hex_digit upper_nibble :: hex_digit lower_nibble :: hex_string_loop idx u
  end.

(** include/gul14/string_util.h:111-128; [n] = sizeof(Integer), [v] the integer value;
    line 115 converts it to unsigned (modulo 2^(8n)). *)
Definition hex_string (n : nat) (v : Z) : str :=
  hex_string_loop n (v mod 2 ^ (8 * Z.of_nat n)).

(** include/gul14/string_util.h:150-172 *)
Definition hex_string_range (n : nat) (vs : list Z) (separator : str) : str :=
  match vs with
  | [] => []
  | v :: vs' =>
      fold_left (fun result it => (result ++ separator) ++ hex_string n it) vs'
                ([] ++ hex_string n v)
  end.

(** src/string_util.cc:33-42 *)
Fixpoint repeat_loop (s : str) (n : nat) (result : str) : str :=
  match n with
  | O => result
  | S n' => repeat_loop s n' (result ++ s)
  end.
Definition repeat (s : str) (n : nat) : str := repeat_loop s n [].

(** src/string_util.cc:44-52.  The pointer is [None] for nullptr, otherwise the list of
    bytes that are accessible from it; std::find reads one byte after the other, reading
    past the accessible bytes is UB.  (Simplification: forming the pointer
    [char_ptr + length] is not itself counted as UB, only reads are.)  The string
    constructor then copies the bytes just read. *)
Fixpoint safe_string_loop (mem : str) (len : nat) : outcome str :=
  match len with
  | O => Ok []
  | S len' =>
      match mem with
      | [] => UB
      | c :: mem' =>
          if Ascii.eqb c "000"%char then Ok []
          else r <- safe_string_loop mem' len' ;; Ok (c :: r)
      end
  end.
Definition safe_string (ptr : option str) (len : nat) : outcome str :=
  match ptr with
  | None => Ok []
  | Some mem => safe_string_loop mem len
  end.

(** * cat *)

(** src/cat.cc:47-61 (and include/gul14/cat.h:116-120 for more than 3 arguments). *)
Definition cat_list (pieces : list str) : str :=
  fold_left (fun s piece => s ++ piece) pieces [].
(** include/gul14/cat.h:97, 100, src/cat.cc:28-35, 37-45 *)
Definition cat0 : str := [].
Definition cat1 (s : str) : str := s.
Definition cat2 (s1 s2 : str) : str := ([] ++ s1) ++ s2.
Definition cat3 (s1 s2 s3 : str) : str := (([] ++ s1) ++ s2) ++ s3.
(** Overload resolution on the number of arguments (ConvertingStringView arguments are
    represented by the string they denote; the objects and the formatting of numbers are in
    CatModel.v). *)
Definition cat (args : list str) : str :=
  match args with
  | [] => cat0
  | [a] => cat1 a
  | [a; b] => cat2 a b
  | [a; b; c] => cat3 a b c
  | _ => cat_list args
  end.

(** * case_ascii *)

(** include/gul14/case_ascii.h:48-53 (char is signed on the modelled platform; the
    comparison with 'A' and 'Z' gives the same result for unsigned char). *)
Definition lowercase_ascii_char (c : ascii) : ascii :=
  if (65 <=? sc c)%Z && (sc c <=? 90)%Z then chr (sc c + 32)%Z else c.
(** include/gul14/case_ascii.h:87-92 *)
Definition uppercase_ascii_char (c : ascii) : ascii :=
  if (97 <=? sc c)%Z && (sc c <=? 122)%Z then chr (sc c - 32)%Z else c.

(** src/case_ascii.cc:29-38 and 48-57: push_back into an empty string. *)
Definition lowercase_ascii (s : str) : str :=
  fold_left (fun result c => result ++ [lowercase_ascii_char c]) s [].
Definition uppercase_ascii (s : str) : str :=
  fold_left (fun result c => result ++ [uppercase_ascii_char c]) s [].

(** src/case_ascii.cc:40-46 and 59-65: overwrite each character in place.  The string is
    updated at index i = 0 .. size-1. *)
Fixpoint update_nth {A : Type} (i : nat) (x : A) (l : list A) : list A :=
  match l, i with
  | [], _ => []
  | _ :: l', O => x :: l'
  | y :: l', S i' => y :: update_nth i' x l'
  end.
Definition transform_inplace (f : ascii -> ascii) (s : str) : str :=
  fold_left (fun t i => update_nth i (f (nth i t "000"%char)) t) (seq 0 (length s)) s.
Definition lowercase_ascii_inplace (s : str) : str := transform_inplace lowercase_ascii_char s.
Definition uppercase_ascii_inplace (s : str) : str := transform_inplace uppercase_ascii_char s.

(** * replace *)

(** src/replace.cc:37-47: loop state pos, last_pos, result. *)
Fixpoint replace_loop (fuel : nat) (haystack needle hammer : str)
    (pos last_pos : nat) (result : str) : outcome str :=
  match fuel with
  | O => Diverge
  | S fuel' =>
      match find haystack needle pos with
      | None =>
          (* line 47 *)
          Ok (result ++ firstn (length haystack - last_pos) (skipn last_pos haystack))
      | Some p =>
          (* lines 41-44 *)
          let result := result ++ firstn (p - last_pos) (skipn last_pos haystack) in
          let result := result ++ hammer in
          let pos' := p + length needle in
          replace_loop fuel' haystack needle hammer pos' pos' result
      end
  end.
(** src/replace.cc:29-51 *)
Definition replace (haystack needle hammer : str) : outcome str :=
  match needle with
  | [] => Ok haystack
  | _ => replace_loop (length haystack + 2) haystack needle hammer 0 0 []
  end.

(** src/replace.cc:59-63.  std::string::erase(pos, n) and insert(pos, s) throw
    out_of_range when pos exceeds the size. *)
Definition erase_str (s : str) (pos n : nat) : outcome str :=
  if Nat.ltb (length s) pos then Throw OutOfRange
  else Ok (firstn pos s ++ skipn n (skipn pos s)).
Definition insert_str (s : str) (pos : nat) (t : str) : outcome str :=
  if Nat.ltb (length s) pos then Throw OutOfRange
  else Ok (firstn pos s ++ t ++ skipn pos s).
Fixpoint replace_inplace_loop (fuel : nat) (haystack needle hammer : str)
    (pos : option nat) : outcome str :=
  match fuel with
  | O => Diverge
  | S fuel' =>
      match pos with
      | None => Ok haystack
      | Some p =>
          h1 <- erase_str haystack p (length needle) ;;
          h2 <- insert_str h1 p hammer ;;
          replace_inplace_loop fuel' h2 needle hammer (find h2 needle (p + length hammer))
      end
  end.
(** src/replace.cc:53-65 (needle and hammer not aliasing haystack); the result is the new
    value of haystack. *)
Definition replace_inplace (haystack needle hammer : str) : outcome str :=
  match needle with
  | [] => Ok haystack
  | _ => replace_inplace_loop (length haystack + 2) haystack needle hammer
                              (find haystack needle 0)
  end.

(** * trim *)

(** src/trim.cc:34-44 *)
Definition trim (s ws_chars : str) : outcome str :=
  match find_first_not_of s ws_chars 0 with
  | None => Ok []
  | Some lpos =>
      match find_last_not_of s ws_chars with
      | None => (* rpos = npos: the count rpos - lpos + 1 wraps to 2^64 - lpos (0 for
                   lpos = 0), and substr's test pos + n > size() wraps as well *)
          if Nat.eqb lpos 0 then Ok [] else UB
      | Some rpos => substr s lpos (rpos - lpos + 1)
      end
  end.
(** src/trim.cc:51-59 *)
Definition trim_left (s ws_chars : str) : outcome str :=
  match find_first_not_of s ws_chars 0 with
  | None => Ok []
  | Some pos => substr_from s pos
  end.
(** src/trim.cc:66-74 *)
Definition trim_right (s ws_chars : str) : outcome str :=
  match find_last_not_of s ws_chars with
  | None => Ok []
  | Some pos => substr s 0 (pos + 1)
  end.

(** * escape *)

(** src/escape.cc:43-75: the text appended for one byte. *)
Definition escape_char (c : ascii) : str :=
  if Ascii.eqb c """" then !"\"""
  else if Ascii.eqb c "\" then !"\\"
  else if Ascii.eqb c "010" then !"\n"
  else if Ascii.eqb c "013" then !"\r"
  else if Ascii.eqb c "009" then !"\t"
  else if (sc c <? 32)%Z then !"\x" ++ hex_string 1 (sc c)
  else [c].
(** src/escape.cc:33-78 *)
Definition escape (s : str) : str :=
  fold_left (fun escaped c => escaped ++ escape_char c) s [].

(** [[:xdigit:]] in the C locale, and the value of a hex digit (std::stoi(_, 0, 16)). *)
Definition is_xdigit (c : ascii) : bool :=
  let z := uc c in
  ((48 <=? z) && (z <=? 57) || (65 <=? z) && (z <=? 70) || (97 <=? z) && (z <=? 102))%Z.
Definition xdigit_value (c : ascii) : Z :=
  let z := uc c in
  (if z <=? 57 then z - 48 else if z <=? 70 then z - 55 else z - 87)%Z.

(** src/escape.cc:82: does the regex (backslash followed by one of double-quote, backslash,
    n, r, t, or by x and two [[:xdigit:]]) match at the beginning of [s]?  Returns capture
    group 1 (the text after the backslash). *)
Definition match_escape (s : str) : option str :=
  match s with
  | bs :: c :: rest =>
      if Ascii.eqb bs "\" then
        if memb c (!"""\nrt") then Some [c]
        else if Ascii.eqb c "x" then
          match rest with
          | h :: l :: _ => if is_xdigit h && is_xdigit l then Some [c; h; l] else None
          | _ => None
          end
        else None
      else None
  | _ => None
  end.

(** src/escape.cc:99-119: the text appended for a match with capture group [g]. *)
Definition unescape_group (g : str) : str :=
  match g with
  | [] => []
  | c :: digits =>
      if Ascii.eqb c """" || Ascii.eqb c "\" then g
      else if Ascii.eqb c "n" then ["010"%char]
      else if Ascii.eqb c "r" then ["013"%char]
      else if Ascii.eqb c "t" then ["009"%char]
      else if Ascii.eqb c "x" then
        [chr (fold_left (fun v d => 16 * v + xdigit_value d) digits 0)%Z]
      else "\"%char :: g
  end.

(** std::regex_iterator: the list of successive leftmost non-overlapping matches, each as
    (prefix since the end of the previous match, group 1), and the suffix after the last
    match.  [pre] is the text scanned since the end of the last match. *)
Fixpoint regex_matches (fuel : nat) (s pre : str) : list (str * str) * str :=
  match fuel with
  | O => ([], pre ++ s)
  | S fuel' =>
      match s with
      | [] => ([], pre)
      | c :: s' =>
          match match_escape s with
          | Some g =>
              let '(ms, suffix) := regex_matches fuel' (skipn (S (length g)) s) [] in
              ((pre, g) :: ms, suffix)
          | None => regex_matches fuel' s' (pre ++ [c])
          end
      end
  end.
(** src/escape.cc:80-125 *)
Definition unescape (s : str) : str :=
  let '(ms, suffix) := regex_matches (S (length s)) s [] in
  match ms with
  | [] => s
  | _ => fold_left (fun unescaped m => (unescaped ++ fst m) ++ unescape_group (snd m)) ms []
           ++ suffix
  end.

(** * join_split *)

(** include/gul14/join_split.h:134-144: loop state search_start, push_start, result. *)
Fixpoint split_loop (fuel : nat) (text delimiter : str) (search_start push_start : nat)
    (result : list str) : outcome (list str) :=
  match fuel with
  | O => Diverge
  | S fuel' =>
      match find text delimiter search_start with
      | None =>
          last <- substr_from text push_start ;; Ok (result ++ [last])
      | Some hit =>
          let hit_len := hit - push_start in
          piece <- substr text push_start hit_len ;;
          split_loop fuel' text delimiter
            (search_start + Nat.max (length delimiter + hit_len) 1)
            (push_start + (length delimiter + hit_len))
            (result ++ [piece])
      end
  end.
(** include/gul14/join_split.h:121-145 *)
Definition split (text delimiter : str) : outcome (list str) :=
  split_loop (length text + 2) text delimiter 0 0 [].

(** include/gul14/join_split.h:257-288 (the length computation only reserves memory) *)
Definition join (parts : list str) (glue : str) : str :=
  match parts with
  | [] => []
  | p :: ps => fold_left (fun result it => (result ++ glue) ++ it) ps ([] ++ p)
  end.

(** * tokenize *)

(** include/gul14/tokenize.h:125-143: loop state token_end, tokens. *)
Fixpoint tokenize_loop (fuel : nat) (s delimiters : str) (token_end : nat)
    (tokens : list str) : outcome (list str) :=
  match fuel with
  | O => Diverge
  | S fuel' =>
      match find_first_not_of s delimiters token_end with
      | None => Ok tokens
      | Some token_start =>
          match find_first_of s delimiters token_start with
          | None =>
              Ok (tokens ++ [firstn (length s - token_start) (skipn token_start s)])
          | Some token_end' =>
              tokenize_loop fuel' s delimiters token_end'
                (tokens ++ [firstn (token_end' - token_start) (skipn token_start s)])
          end
      end
  end.
(** include/gul14/tokenize.h:114-146 *)
Definition tokenize (s delimiters : str) : outcome (list str) :=
  tokenize_loop (length s + 2) s delimiters 0 [].

(** * substring_checks *)

(** include/gul14/substring_checks.h:51-54 *)
Definition contains (haystack needle : str) : bool :=
  match find haystack needle 0 with Some _ => true | None => false end.
(** include/gul14/substring_checks.h:68-71 *)
Definition contains_char (haystack : str) (needle : ascii) : bool :=
  contains haystack [needle].
(** include/gul14/substring_checks.h:85-91 *)
Definition ends_with (s suffix : str) : bool :=
  let hsl := length s in
  let sl := length suffix in
  Nat.leb sl hsl && (compare (firstn sl (skipn (hsl - sl) s)) suffix =? 0)%Z.
(** include/gul14/substring_checks.h:104-107 *)
Definition ends_with_char (s : str) (c : ascii) : bool :=
  negb (Nat.eqb (length s) 0) && Ascii.eqb (last s "000"%char) c.
(** include/gul14/substring_checks.h:121-127 *)
Definition starts_with (s prefix : str) : bool :=
  let hsl := length s in
  let hl := length prefix in
  Nat.leb hl hsl && (compare (firstn hl s) prefix =? 0)%Z.
(** include/gul14/substring_checks.h:140-143 *)
Definition starts_with_char (s : str) (c : ascii) : bool :=
  negb (Nat.eqb (length s) 0) && Ascii.eqb (hd "000"%char s) c.

(** lowercase_ascii( * it1) == lowercase_ascii( * it2) *)
Definition eq_nocase (a b : ascii) : bool :=
  Ascii.eqb (lowercase_ascii_char a) (lowercase_ascii_char b).

(** include/gul14/substring_checks.h:174-181, iterating both strings. *)
Fixpoint equals_nocase_loop (s1 s2 : str) : outcome bool :=
  match s1 with
  | [] => Ok true
  | a :: s1' =>
      match s2 with
      | [] => UB (* dereferencing cend() *)
      | b :: s2' => if negb (eq_nocase a b) then Ok false else equals_nocase_loop s1' s2'
      end
  end.
(** include/gul14/substring_checks.h:165-184 *)
Definition equals_nocase (s1 s2 : str) : outcome bool :=
  if negb (Nat.eqb (length s1) (length s2)) then Ok false
  else equals_nocase_loop s1 s2.

(** include/gul14/substring_checks.h:214-218: the loop [while (j-- > 0)]; the result is the
    final value of j with (size_t)(-1) as -1. *)
Fixpoint nocase_back_loop (haystack needle : str) (j : nat) : outcome Z :=
  match j with
  | O => Ok (-1)%Z
  | S j' =>
      match nth_error haystack j', nth_error needle j' with
      | Some a, Some b =>
          if negb (eq_nocase a b) then Ok (Z.of_nat j')
          else nocase_back_loop haystack needle j'
      | _, _ => UB (* operator[] out of range *)
      end
  end.
(** include/gul14/substring_checks.h:213-224: [n] iterations remain. *)
Fixpoint contains_nocase_loop (n : nat) (haystack needle : str) : outcome bool :=
  match n with
  | O => Ok false
  | S n' =>
      j <- nocase_back_loop haystack needle (length needle) ;;
      if (j =? -1)%Z then Ok true
      else contains_nocase_loop n' (skipn 1 haystack) needle
  end.
(** include/gul14/substring_checks.h:207-225; i runs from 0 to haysize - needlesize. *)
Definition contains_nocase (haystack needle : str) : outcome bool :=
  if Nat.ltb (length haystack) (length needle) then Ok false
  else contains_nocase_loop (S (length haystack - length needle)) haystack needle.
(** include/gul14/substring_checks.h:241-250 *)
Fixpoint contains_nocase_char_loop (haystack : str) (needle : ascii) : bool :=
  match haystack with
  | [] => false
  | c :: h' => if Ascii.eqb (lowercase_ascii_char c) needle then true
               else contains_nocase_char_loop h' needle
  end.
Definition contains_nocase_char (haystack : str) (needle : ascii) : bool :=
  contains_nocase_char_loop haystack (lowercase_ascii_char needle).

(** include/gul14/substring_checks.h:267-278; [fuel] bounds the number of iterations. *)
Fixpoint ends_with_nocase_loop (fuel : nat) (s suffix : str) : outcome bool :=
  match fuel with
  | O => Diverge
  | S fuel' =>
      match s with
      | [] => Ok (Nat.eqb (length suffix) 0)
      | _ =>
          match suffix with
          | [] => Ok true
          | _ =>
              if negb (eq_nocase (last s "000"%char) (last suffix "000"%char)) then Ok false
              else ends_with_nocase_loop fuel' (removelast s) (removelast suffix)
          end
      end
  end.
Definition ends_with_nocase (s suffix : str) : outcome bool :=
  ends_with_nocase_loop (S (length s)) s suffix.
(** include/gul14/substring_checks.h:293-296 *)
Definition ends_with_nocase_char (s : str) (c : ascii) : bool :=
  negb (Nat.eqb (length s) 0) && eq_nocase (last s "000"%char) c.

(** include/gul14/substring_checks.h:313-324 *)
Fixpoint starts_with_nocase (s prefix : str) : bool :=
  match s with
  | [] => Nat.eqb (length prefix) 0
  | a :: s' =>
      match prefix with
      | [] => true
      | b :: prefix' => if negb (eq_nocase a b) then false else starts_with_nocase s' prefix'
      end
  end.
(** include/gul14/substring_checks.h:339-342 *)
Definition starts_with_nocase_char (s : str) (c : ascii) : bool :=
  negb (Nat.eqb (length s) 0) && eq_nocase (hd "000"%char s) c.
