(** C++ integer types and the arithmetic conversions used by the numeric functions. *)
From Verif Require Import Base.
Local Open Scope Z_scope.

(** An integral type other than bool: signedness and width in bits.  The platform is LP64:
    short 16, int 32, long and long long 64 bits. *)
Record ity := IT { sgn : bool; wid : Z }.
Definition is_ity (t : ity) : Prop := wid t = 8 \/ wid t = 16 \/ wid t = 32 \/ wid t = 64.
Definition imin (t : ity) : Z := if sgn t then - 2 ^ (wid t - 1) else 0.
Definition imax (t : ity) : Z := if sgn t then 2 ^ (wid t - 1) - 1 else 2 ^ wid t - 1.
Definition in_range (t : ity) (z : Z) : Prop := imin t <= z <= imax t.
Definition in_rangeb (t : ity) (z : Z) : bool := (imin t <=? z) && (z <=? imax t).

(** Conversion to an integral type ([conv.integral]): the value modulo 2^width.  For signed
    targets this is implementation-defined before C++20 and is what gcc and clang do. *)
Definition conv (t : ity) (z : Z) : Z :=
  let m := z mod 2 ^ wid t in
  if sgn t && (2 ^ (wid t - 1) <=? m) then m - 2 ^ wid t else m.

(** Result of an arithmetic operation carried out in type [t] (signed overflow is UB,
    unsigned arithmetic is modulo 2^width). *)
Definition arith (t : ity) (z : Z) : outcome Z :=
  if sgn t then (if in_rangeb t z then Ok z else UB) else Ok (z mod 2 ^ wid t).

(** Integral promotion and the usual arithmetic conversions. *)
Definition promote (t : ity) : ity := if wid t <? 32 then IT true 32 else t.
Definition usual (t1 t2 : ity) : ity :=
  let p1 := promote t1 in
  let p2 := promote t2 in
  if Bool.eqb (sgn p1) (sgn p2) then (if wid p1 <? wid p2 then p2 else p1)
  else
    let (s, u) := if sgn p1 then (p1, p2) else (p2, p1) in
    if wid s <=? wid u then u else s.
(** std::common_type_t: the type itself for two equal types, otherwise the type of the
    conditional operator, i.e. the usual arithmetic conversions. *)
Definition same_ity (t1 t2 : ity) : bool := Bool.eqb (sgn t1) (sgn t2) && (wid t1 =? wid t2).
Definition common_type (t1 t2 : ity) : ity := if same_ity t1 t2 then t1 else usual t1 t2.
