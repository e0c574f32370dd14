(** Model of include/gul14/span.h.

    A span points into one array (the complete object its pointer was formed from); the
    array is a list [m] of element values and a non-null pointer is an index into it.  The
    one-past-the-end position is a valid pointer but may not be dereferenced.  Indices,
    counts and extents are std::size_t values, i.e. [Z] with explicit wrap-around.
    Simplifications: pointers into different arrays are not mixed, element type
    conversions (span<T> to span<const T>) leave the model unchanged, and the element
    type's comparison operators are total functions without side effects. *)
From Verif Require Import Base.
Open Scope Z_scope.
Open Scope outcome_scope.

(** A std::size_t result, modulo 2^64. *)
Definition szt (z : Z) : Z := z mod 2 ^ 64.

(** span.h:49 constexpr std::size_t dynamic_extent = SIZE_MAX. *)
Definition dynamic_extent : Z := 2 ^ 64 - 1.

(** span.h:56-77 detail::span_storage together with span's Extent argument (lines
    163-164): the pointer ([None] is nullptr), the static extent and, used only when the
    extent is dynamic, the stored size. *)
Record span : Type := Span { ptr : option Z; extent : Z; stored : Z }.

(** span.h:57-66 / 68-77: storage_(pointer, count).  The storage of a fixed extent
    ignores the count. *)
Definition make (ext : Z) (p : option Z) (count : Z) : span := Span p ext count.

(** span.h:196-201 span(): null pointer and size 0.  Only available for a dynamic extent
    and for extent 0. *)
Definition span_default (ext : Z) : span := Span None ext 0.

(** span.h:353 size() const: storage_.size, lines 65 and 76. *)
Definition size (s : span) : Z :=
  if extent s =? dynamic_extent then stored s else extent s.

Section Array.
Context {A : Type}.

(** Pointer addition p + d: undefined outside the array (and its end). *)
Definition padd (m : list A) (p : option Z) (d : Z) : outcome (option Z) :=
  match p with
  | None => if d =? 0 then Ok None else UB
  | Some i => if (0 <=? i + d) && (i + d <=? zlen m) then Ok (Some (i + d)) else UB
  end.

(** Reading the object a pointer designates. *)
Definition deref (m : list A) (p : option Z) : outcome A :=
  match p with
  | None => UB
  | Some i =>
      if 0 <=? i
      then match nth_error m (Z.to_nat i) with Some a => Ok a | None => UB end
      else UB
  end.

(** Replacing one element of the array. *)
Fixpoint set_nth (m : list A) (n : nat) (a : A) : list A :=
  match m, n with
  | [], _ => []
  | _ :: r, O => a :: r
  | x :: r, S k => x :: set_nth r k a
  end.

(** Writing the object a pointer designates. *)
Definition assign (m : list A) (p : option Z) (a : A) : outcome (list A) :=
  match p with
  | None => UB
  | Some i =>
      if (0 <=? i) && (i <? zlen m) then Ok (set_nth m (Z.to_nat i) a) else UB
  end.

(** span.h:204-206 span(pointer, index_type). *)
Definition span_count (ext : Z) (p : option Z) (count : Z) : span := make ext p count.

(** span.h:209-211 span(pointer first, pointer last): last - first is converted from
    std::ptrdiff_t to std::size_t.  The difference with a null pointer is 0 if both are
    null and undefined otherwise. *)
Definition span_range (ext : Z) (first last : option Z) : outcome span :=
  match first, last with
  | Some i, Some j => Ok (make ext first (szt (j - i)))
  | None, None => Ok (make ext None 0)
  | _, _ => UB
  end.

(** span.h:214-269: the constructors from a C array, std::array or a container with
    data() and size(), whose elements are the whole array [m]. *)
Definition span_container (ext : Z) (m : list A) : span := make ext (Some 0) (zlen m).

(** span.h:275-283: converting constructor between extents and element types. *)
Definition span_convert (ext : Z) (s : span) : span := make ext (ptr s) (size s).

(** span.h:331-334 first(count); dynamic extent. *)
Definition first (s : span) (count : Z) : outcome span :=
  Ok (make dynamic_extent (ptr s) count).

(** span.h:338-341 last(count). *)
Definition last (m : list A) (s : span) (count : Z) : outcome span :=
  p <- padd m (ptr s) (szt (size s - count)) ;;
  Ok (make dynamic_extent p count).

(** span.h:345-350 subspan(offset, count); the default count is dynamic_extent. *)
Definition subspan (m : list A) (s : span) (offset count : Z) : outcome span :=
  p <- padd m (ptr s) offset ;;
  Ok (make dynamic_extent p
        (if count =? dynamic_extent then szt (size s - offset) else count)).

(** span.h:300-304 first<Count>(). *)
Definition first_t (s : span) (count : Z) : outcome span := Ok (make count (ptr s) count).

(** span.h:307-311 last<Count>(). *)
Definition last_t (m : list A) (s : span) (count : Z) : outcome span :=
  p <- padd m (ptr s) (szt (size s - count)) ;;
  Ok (make count p count).

(** span.h:314-319 subspan_return_t. *)
Definition subspan_extent (ext offset count : Z) : Z :=
  if negb (count =? dynamic_extent) then count
  else if negb (ext =? dynamic_extent) then szt (ext - offset) else dynamic_extent.

(** span.h:322-327 subspan<Offset, Count>(). *)
Definition subspan_t (m : list A) (s : span) (offset count : Z) : outcome span :=
  p <- padd m (ptr s) offset ;;
  Ok (make (subspan_extent (extent s) offset count) p
        (if negb (count =? dynamic_extent) then count else szt (size s - offset))).

(** span.h:362-365 empty(). *)
Definition empty (s : span) : bool := size s =? 0.

(** span.h:369-372 operator[](idx), as an rvalue. *)
Definition index (m : list A) (s : span) (idx : Z) : outcome A :=
  p <- padd m (ptr s) idx ;; deref m p.

(** span.h:369-372 operator[](idx) on the left of an assignment: the new array. *)
Definition store (m : list A) (s : span) (idx : Z) (a : A) : outcome (list A) :=
  p <- padd m (ptr s) idx ;; assign m p a.

(** span.h:375-378 front(). *)
Definition front (m : list A) (s : span) : outcome A := deref m (ptr s).

(** span.h:381-384 back(). *)
Definition back (m : list A) (s : span) : outcome A :=
  p <- padd m (ptr s) (szt (size s - 1)) ;; deref m p.

(** span.h:543-547 get<N>(s). *)
Definition get (m : list A) (s : span) (n : Z) : outcome A := index m s n.

(** span.h:390-393 begin() and end(). *)
Definition begin_ (s : span) : option Z := ptr s.
Definition end_ (m : list A) (s : span) : outcome (option Z) := padd m (ptr s) (size s).

(** A range-based for loop over begin() and end() (lines 390-393, 430-433) that collects
    the elements.  [n] is fuel; the loop diverges or is undefined if end() is never
    reached. *)
Fixpoint iterate (m : list A) (n : nat) (p e : option Z) : outcome (list A) :=
  match p, e with
  | None, None => Ok []
  | Some i, Some j =>
      if i =? j then Ok []
      else
        match n with
        | O => Diverge
        | S n' =>
            a <- deref m p ;;
            q <- padd m p 1 ;;
            r <- iterate m n' q e ;;
            Ok (a :: r)
        end
  | _, _ => UB
  end.

(** for (auto x : s) ...; at most one step per array element is possible. *)
Definition for_each (m : list A) (s : span) : outcome (list A) :=
  e <- end_ m s ;; iterate m (length m) (begin_ s) e.

(** The same from rbegin() to rend() (lines 402-411): std::reverse_iterator dereferences
    the position before its base. *)
Fixpoint riterate (m : list A) (n : nat) (p e : option Z) : outcome (list A) :=
  match p, e with
  | None, None => Ok []
  | Some i, Some j =>
      if i =? j then Ok []
      else
        match n with
        | O => Diverge
        | S n' =>
            q <- padd m p (-1) ;;
            a <- deref m q ;;
            r <- riterate m n' q e ;;
            Ok (a :: r)
        end
  | _, _ => UB
  end.
Definition for_each_reverse (m : list A) (s : span) : outcome (list A) :=
  e <- end_ m s ;; riterate m (length m) e (begin_ s).

(** sizeof(element_type) and the object representation of an element. *)
Variable sizeof : Z.
Variable repr : A -> list ascii.

(** span.h:356-359 size_bytes(). *)
Definition size_bytes (s : span) : Z := szt (size s * sizeof).

(** The bytes of the whole array. *)
Definition raw (m : list A) : list ascii := flat_map repr m.

(** span.h:509-515 as_bytes() and 526-532 as_writable_bytes(): a span over [raw m]. *)
Definition as_bytes (s : span) : span :=
  make (if extent s =? dynamic_extent then dynamic_extent else szt (sizeof * extent s))
    (match ptr s with None => None | Some i => Some (i * sizeof) end)
    (size_bytes s).

End Array.

Section Compare.
Context {A B : Type}.
(** lhs[i] != rhs[i], lhs[i] < rhs[i] and lhs[i] > rhs[i] for the element types. *)
Variable ne : A -> B -> bool.
Variable lt gt : A -> B -> bool.

(** span.h:449-453: the loop of operator==, from index [i] with [n] iterations left. *)
Fixpoint eq_loop (m : list A) (l : span) (k : list B) (r : span) (n : nat) (i : Z)
  : outcome bool :=
  match n with
  | O => Ok true
  | S n' =>
      a <- index m l i ;;
      b <- index k r i ;;
      if ne a b then Ok false else eq_loop m l k r n' (i + 1)
  end.

(** span.h:442-456 operator==. *)
Definition span_eq (m : list A) (l : span) (k : list B) (r : span) : outcome bool :=
  if negb (size l =? size r) then Ok false
  else eq_loop m l k r (Z.to_nat (size l)) 0.

(** span.h:458-462 operator!=. *)
Definition span_ne (m : list A) (l : span) (k : list B) (r : span) : outcome bool :=
  b <- span_eq m l k r ;; Ok (negb b).

(** span.h:470-477: the loop of operator<. *)
Fixpoint lt_loop (m : list A) (l : span) (k : list B) (r : span) (n : nat) (i : Z)
  : outcome bool :=
  match n with
  | O => Ok (size l <? size r)
  | S n' =>
      a <- index m l i ;;
      b <- index k r i ;;
      if lt a b then Ok true
      else if gt a b then Ok false
      else lt_loop m l k r n' (i + 1)
  end.

(** span.h:464-479 operator<. *)
Definition span_lt (m : list A) (l : span) (k : list B) (r : span) : outcome bool :=
  lt_loop m l k r (Z.to_nat (if size l <? size r then size l else size r)) 0.

End Compare.

Section Derived.
Context {A : Type}.
Variable lt gt : A -> A -> bool.

(** span.h:481-485 operator<=, 487-491 operator>, 493-497 operator>=, for two spans of
    the same element type. *)
Definition span_le (m : list A) (l : span) (k : list A) (r : span) : outcome bool :=
  b <- span_lt lt gt k r m l ;; Ok (negb b).
Definition span_gt (m : list A) (l : span) (k : list A) (r : span) : outcome bool :=
  span_lt lt gt k r m l.
Definition span_ge (m : list A) (l : span) (k : list A) (r : span) : outcome bool :=
  b <- span_lt lt gt m l k r ;; Ok (negb b).
End Derived.
