(** Model of include/gul14/string_view.h: views into memory with 64-bit positions.
    Every memory access goes through [rd], which is UB outside of the view.  Template
    parameters are fixed to charT = char, traits = gul14::char_traits<char>. *)
From Verif Require Import Base.
Local Open Scope Z_scope.
Local Open Scope outcome_scope.

(** string_view.h:370-371: ptr_ is an object of type char const* (the block [v_mem] it points
    into and the offset [v_off] in it), len_ is a size_t. *)
Record view := View { v_mem : str; v_off : Z; v_len : Z }.

(** size_t arithmetic; string_view.h:129 npos = size_type(-1). *)
Definition w64 (z : Z) : Z := z mod 2 ^ 64.
Definition npos : Z := 2 ^ 64 - 1.

(** ptr_[i] for a pointer belonging to the view [v]: reading a byte outside of the view is
    treated as UB, even if it would lie in the same memory block. *)
Definition rd (v : view) (i : Z) : outcome ascii :=
  if (0 <=? i) && (i <? v_len v) && (0 <=? v_off v + i)
  then match nth_error (v_mem v) (Z.to_nat (v_off v + i)) with
       | Some c => Ok c
       | None => UB
       end
  else UB.

(** std::char_traits<char>::lt and eq (used at string_view.h:70-71): comparison as unsigned
    char, equality of bytes. *)
Definition ch_lt (a b : ascii) : bool := uc a <? uc b.
Definition ch_eq (a b : ascii) : bool := Ascii.eqb a b.

(** string_view.h:78-87 char_traits::compare(s1, s2, n) with s1 = [x].ptr_ + i and
    s2 = [y].ptr_ + j. *)
Fixpoint traits_compare (x : view) (i : Z) (y : view) (j : Z) (n : nat) : outcome Z :=
  match n with
  | O => Ok 0
  | S n' =>
      a <- rd x i ;;
      b <- rd y j ;;
      if ch_lt a b then Ok (-1)
      else if ch_lt b a then Ok 1
      else traits_compare x (i + 1) y (j + 1) n'
  end.

(** string_view.h:89-95 char_traits::length(s): position of the first NUL of a C string;
    [mem] are the accessible bytes behind s. *)
Fixpoint traits_length (mem : str) (len : Z) : outcome Z :=
  match mem with
  | [] => UB
  | c :: mem' => if ch_eq c "000"%char then Ok len else traits_length mem' (len + 1)
  end.

(** string_view.h:97-104 char_traits::find(s, n, a) != nullptr with s = [y].ptr_ + j. *)
Fixpoint traits_find (y : view) (j : Z) (n : nat) (a : ascii) : outcome bool :=
  match n with
  | O => Ok false
  | S n' => b <- rd y j ;; if ch_eq b a then Ok true else traits_find y (j + 1) n' a
  end.

(** string_view.h:146-147 construction from a C string *)
Definition sv_from_cstr (mem : str) : outcome view :=
  len <- traits_length mem 0 ;; Ok (View mem 0 len).

(** string_view.h:163 size *)
Definition sv_size (v : view) : Z := v_len v.
(** string_view.h:171-173 at *)
Definition sv_at (v : view) (pos : Z) : outcome ascii :=
  if v_len v <=? pos then Throw OutOfRange else rd v pos.
(** string_view.h:169 operator[], 175 front, 176 back (the index len_-1 wraps around) *)
Definition sv_index (v : view) (pos : Z) : outcome ascii := rd v pos.
Definition sv_front (v : view) : outcome ascii := rd v 0.
Definition sv_back (v : view) : outcome ascii := rd v (w64 (v_len v - 1)).

(** string_view.h:180-185 remove_prefix *)
Definition sv_remove_prefix (v : view) (n : Z) : view :=
  let n := if v_len v <? n then v_len v else n in
  View (v_mem v) (v_off v + n) (w64 (v_len v - n)).
(** string_view.h:187-191 remove_suffix *)
Definition sv_remove_suffix (v : view) (n : Z) : view :=
  let n := if v_len v <? n then v_len v else n in
  View (v_mem v) (v_off v) (w64 (v_len v - n)).

(** [n] consecutive bytes starting at index [i] of the view (the reads of std::copy). *)
Fixpoint rd_range (v : view) (i : Z) (n : nat) : outcome str :=
  match n with
  | O => Ok []
  | S n' => c <- rd v i ;; r <- rd_range v (i + 1) n' ;; Ok (c :: r)
  end.

(** string_view.h:199-202 conversion to std::string *)
Definition sv_to_string (v : view) : outcome str := rd_range v 0 (Z.to_nat (v_len v)).

(** string_view.h:204-212 copy(s, n, pos): the bytes written to the destination (their number
    is the return value). *)
Definition sv_copy (v : view) (n pos : Z) : outcome str :=
  if v_len v <? pos then Throw OutOfRange
  else
    let rlen := Z.min n (w64 (v_len v - pos)) in
    rd_range v pos (Z.to_nat rlen).

(** string_view.h:214-220 substr(pos, n); the addition pos + n is a size_t addition. *)
Definition sv_substr (v : view) (pos n : Z) : outcome view :=
  if v_len v <? pos then Throw OutOfRange
  else
    let n := if (n =? npos) || (v_len v <? w64 (pos + n)) then w64 (v_len v - pos) else n in
    Ok (View (v_mem v) (v_off v + pos) n).

(** string_view.h:222-225 compare(x) *)
Definition sv_compare (v x : view) : outcome Z :=
  cmp <- traits_compare v 0 x 0 (Z.to_nat (Z.min (v_len v) (v_len x))) ;;
  Ok (if negb (cmp =? 0) then cmp
      else if v_len v =? v_len x then 0 else if v_len v <? v_len x then -1 else 1).

(** string_view.h:227-235 compare(pos1, n1, x) and compare(pos1, n1, x, pos2, n2) *)
Definition sv_compare_sub (v : view) (pos1 n1 : Z) (x : view) : outcome Z :=
  s <- sv_substr v pos1 n1 ;; sv_compare s x.
Definition sv_compare_sub2 (v : view) (pos1 n1 : Z) (x : view) (pos2 n2 : Z) : outcome Z :=
  s <- sv_substr v pos1 n1 ;; t <- sv_substr x pos2 n2 ;; sv_compare s t.

(** string_view.h:251-264 find(s, pos).  The loop is given more fuel than it can use. *)
Fixpoint sv_find_loop (fuel : nat) (t s : view) (cur end_ : Z) : outcome Z :=
  match fuel with
  | O => Diverge
  | S fuel' =>
      if cur <=? end_ then
        c <- traits_compare t cur s 0 (Z.to_nat (v_len s)) ;;
        if c =? 0 then Ok cur else sv_find_loop fuel' t s (w64 (cur + 1)) end_
      else Ok npos
  end.
Definition sv_find (t s : view) (pos : Z) : outcome Z :=
  if v_len t <? pos then Ok npos
  else if v_len s =? 0 then Ok pos
  else if v_len t <? v_len s then Ok npos
  else sv_find_loop (Z.to_nat (v_len t + 2)) t s pos (w64 (v_len t - v_len s)).

(** string_view.h:273-286 rfind(s, pos); [cur] is the pointer difference cur - ptr_. *)
Fixpoint sv_rfind_loop (fuel : nat) (t s : view) (cur : Z) : outcome Z :=
  match fuel with
  | O => Diverge
  | S fuel' =>
      c <- traits_compare t cur s 0 (Z.to_nat (v_len s)) ;;
      if c =? 0 then Ok cur
      else if cur =? 0 then Ok npos
      else sv_rfind_loop fuel' t s (cur - 1)
  end.
Definition sv_rfind (t s : view) (pos : Z) : outcome Z :=
  if v_len t <? v_len s then Ok npos
  else
    let pos := if w64 (v_len t - v_len s) <? pos then w64 (v_len t - v_len s) else pos in
    if v_len s =? 0 then Ok pos
    else sv_rfind_loop (Z.to_nat (v_len t + 1)) t s pos.

(** A forward search loop over the [n] elements with indices i, i+1, ...: returns the number
    of steps taken to the first element satisfying the test, or [None] for the end iterator.
    string_view.h:363-368 find_not_of and the std::find_first_of algorithm have this form. *)
Fixpoint scan (read : Z -> outcome ascii) (test : ascii -> outcome bool) (i : Z) (n : nat)
  : outcome (option Z) :=
  match n with
  | O => Ok None
  | S n' =>
      c <- read i ;;
      b <- test c ;;
      if b then Ok (Some i) else scan read test (i + 1) n'
  end.

(** The tests: the inner loop of std::find_first_of with traits::eq (string_view.h:298-299), and
    the test of find_not_of (string_view.h:365). *)
Fixpoint any_eq (y : view) (j : Z) (n : nat) (a : ascii) : outcome bool :=
  match n with
  | O => Ok false
  | S n' => b <- rd y j ;; if ch_eq a b then Ok true else any_eq y (j + 1) n' a
  end.
Definition in_set (s : view) (a : ascii) : outcome bool := any_eq s 0 (Z.to_nat (v_len s)) a.
Definition not_in_set (s : view) (a : ascii) : outcome bool :=
  b <- traits_find s 0 (Z.to_nat (v_len s)) a ;; Ok (negb b).

(** string_view.h:295-301 find_first_of(s, pos) *)
Definition sv_find_first_of (t s : view) (pos : Z) : outcome Z :=
  if (v_len t <=? pos) || (v_len s =? 0) then Ok npos
  else
    r <- scan (rd t) (in_set s) pos (Z.to_nat (v_len t - pos)) ;;
    Ok (match r with Some i => i | None => npos end).

(** string_view.h:310-320 find_last_of(s, pos).  Dereferencing the reverse iterator
    crbegin() + k reads the element len_ - 1 - k. *)
Definition rrd (t : view) (k : Z) : outcome ascii := rd t (v_len t - 1 - k).
Definition sv_find_last_of (t s : view) (pos : Z) : outcome Z :=
  if v_len s =? 0 then Ok npos
  else
    let pos := if v_len t <=? pos then 0 else w64 (v_len t - w64 (pos + 1)) in
    r <- scan (rrd t) (in_set s) pos (Z.to_nat (v_len t - pos)) ;;
    Ok (match r with Some k => w64 (v_len t - 1 - k) | None => npos end).

(** string_view.h:329-336 find_first_not_of(s, pos) *)
Definition sv_find_first_not_of (t s : view) (pos : Z) : outcome Z :=
  if v_len t <=? pos then Ok npos
  else if v_len s =? 0 then Ok pos
  else
    r <- scan (rd t) (not_in_set s) pos (Z.to_nat (v_len t - pos)) ;;
    Ok (match r with Some i => i | None => npos end).

(** string_view.h:345-353 find_last_not_of(s, pos); len_ - 1 and pos + 1 wrap around. *)
Definition sv_find_last_not_of (t s : view) (pos : Z) : outcome Z :=
  let pos := if v_len t <=? pos then w64 (v_len t - 1) else pos in
  if v_len s =? 0 then Ok pos
  else
    let pos := w64 (v_len t - w64 (pos + 1)) in
    r <- scan (rrd t) (not_in_set s) pos (Z.to_nat (v_len t - pos)) ;;
    Ok (match r with Some k => w64 (v_len t - 1 - k) | None => npos end).

(** string_view.h:378-419 relational operators *)
Definition sv_eq (x y : view) : outcome bool :=
  if negb (v_len x =? v_len y) then Ok false
  else c <- sv_compare x y ;; Ok (c =? 0).
Definition sv_ne (x y : view) : outcome bool :=
  if negb (v_len x =? v_len y) then Ok true
  else c <- sv_compare x y ;; Ok (negb (c =? 0)).
Definition sv_lt (x y : view) : outcome bool := c <- sv_compare x y ;; Ok (c <? 0).
Definition sv_gt (x y : view) : outcome bool := c <- sv_compare x y ;; Ok (0 <? c).
Definition sv_le (x y : view) : outcome bool := c <- sv_compare x y ;; Ok (c <=? 0).
Definition sv_ge (x y : view) : outcome bool := c <- sv_compare x y ;; Ok (0 <=? c).

(** The part of an ostream that operator<< uses: width, fill character, adjustment, and the
    characters written so far.  Simplification: the stream stays good(). *)
Record ostream := OStream { os_width : Z; os_fill : ascii; os_left : bool; os_out : str }.
Definition os_write (os : ostream) (s : str) : ostream :=
  OStream (os_width os) (os_fill os) (os_left os) (os_out os ++ s).

(** string_view.h:568-577 sv_insert_fill_chars: chunks of 8 fill characters *)
Fixpoint sv_insert_fill_loop (fuel : nat) (os : ostream) (n : Z) : outcome (ostream * Z) :=
  match fuel with
  | O => Diverge
  | S fuel' =>
      if 8 <=? n
      then sv_insert_fill_loop fuel' (os_write os (List.repeat (os_fill os) 8)) (w64 (n - 8))
      else Ok (os, n)
  end.
Definition sv_insert_fill_chars (os : ostream) (n : Z) : outcome ostream :=
  r <- sv_insert_fill_loop (S (Z.to_nat n)) os n ;;
  let (os, n) := (r : ostream * Z) in
  if 0 <? n then Ok (os_write os (firstn (Z.to_nat n) (List.repeat (os_fill os) 8)))
  else Ok os.

(** string_view.h:579-595 sv_insert_aligned *)
Definition sv_insert_aligned (os : ostream) (s : view) : outcome ostream :=
  let alignment_size := w64 (os_width os - v_len s) in
  data <- sv_to_string s ;;
  if negb (os_left os)
  then os <- sv_insert_fill_chars os alignment_size ;; Ok (os_write os data)
  else sv_insert_fill_chars (os_write os data) alignment_size.

(** string_view.h:600-614 operator<< *)
Definition sv_insert (os : ostream) (s : view) : outcome ostream :=
  os <- (if os_width os <=? v_len s
         then data <- sv_to_string s ;; Ok (os_write os data)
         else sv_insert_aligned os s) ;;
  Ok (OStream 0 (os_fill os) (os_left os) (os_out os)).

(** string_view.h:653-669: std::string += view, std::string + view, view + std::string *)
Definition str_append_sv (a : str) (b : view) : outcome str :=
  s <- sv_to_string b ;; Ok (a ++ s).
Definition str_plus_sv (a : str) (b : view) : outcome str := str_append_sv a b.
Definition sv_plus_str (a : view) (b : str) : outcome str :=
  s <- sv_to_string a ;; Ok (firstn 0 b ++ s ++ skipn 0 b).
