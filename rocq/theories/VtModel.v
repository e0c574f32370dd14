(** Model of include/gul14/variant.h.

    A program works on a fixed number of variables of one type variant<Ts...>.  Each variable
    is unused or holds an object: the number index_ and the recursive union, which is raw
    memory or holds one live alternative.  Alternative number k has the traits [nth k ts];
    the values of all alternatives are taken from one type A.  The state also counts how many
    alternatives were constructed and destroyed.

    [Undef] stands for undefined behavior: reading, assigning or destroying an alternative
    that is not there, reaching __builtin_unreachable, copying the bytes of an object whose
    type is not trivially copyable, calling a deleted function, or ending the lifetime of a
    variable whose union still holds an alternative.  Placement new over a live object and
    abandoning an object with a non-trivial destructor are not undefined; such an object is
    just never destroyed.  [Terminated] stands for std::terminate(), called when an exception
    leaves a noexcept function.

    An operation of an alternative that is not declared noexcept may throw: [bud] counts the
    potentially throwing operations until the first one that does throw; None means that
    nothing throws.  A throwing operation of an alternative has no effect.
    Simplifications: which alternative a converting constructor or assignment selects
    (best_match, lines 1419-1481) is overload resolution by the compiler, see VtSelModel.v; here
    its result is the argument k.  swap of two values is std::swap. *)
From Verif Require Import Base.
From Coq Require Import PeanoNat.

(** variant.h:364 *)
Inductive trait := Trivially | Available | Unavailable.
(** What the standard type traits say about one alternative: lines 390-416 and the
    is_nothrow traits *)
Record alt_ty := AltTy {
  copy_c : trait; move_c : trait; copy_a : trait; move_a : trait; destr : trait;
  nt_copy : bool; nt_move : bool; nt_copy_assign : bool; nt_move_assign : bool }.

(** variant.h:376-387 common_trait: the largest *)
Definition trait_int (t : trait) : Z := match t with Trivially => 0 | Available => 1 | Unavailable => 2 end.
Definition common_trait (l : list trait) : trait :=
  fold_left (fun r t => if trait_int r <? trait_int t then t else r)%Z l Trivially.

(** variant.h:328-343 find_index; [m] tells which types match *)
Inductive found := NotFound | Ambiguous | Index (i : nat).
Fixpoint find_loop (m : list bool) (i : nat) (result : found) : found :=
  match m with
  | [] => result
  | true :: r => match result with NotFound => find_loop r (S i) (Index i) | _ => Ambiguous end
  | false :: r => find_loop r (S i) result
  end.
Definition find_index (m : list bool) : found := find_loop m 0 NotFound.

(** variant.h:549-583 and 617-651: the switch with 32 cases, [f I] being case I; a case with
    I not less than the number n of alternatives is unreachable (lines 492-511).  The
    default case is the same switch for the next 32 numbers (while there are any). *)
Fixpoint cases (count B : nat) (index : Z) : option nat :=
  match count with
  | O => None
  | S c => if (index =? Z.of_nat B)%Z then Some B else cases c (S B) index
  end.
Fixpoint dispatch {R} (unreachable : R) (fuel n B : nat) (index : Z) (f : nat -> R) : R :=
  match cases 32 B index with
  | Some k => if (k <? n)%nat then f k else unreachable
  | None =>
      match fuel with
      | O => unreachable
      | S fuel' =>
          if (B + 32 <? n)%nat then dispatch unreachable fuel' n (B + 32) index f else unreachable
      end
  end.

(** variant.h:321 *)
Definition npos : Z := 2 ^ 64 - 1.

Section Variant.
Context {A : Type} (mv : nat -> A -> A) (dflt : A) (ts : list alt_ty).
Definition n : nat := length ts.
Definition ty (k : nat) : alt_ty :=
  nth k ts (AltTy Trivially Trivially Trivially Trivially Trivially true true true true).

(** variant.h:390-416 *)
Definition copy_constructible_trait : trait := common_trait (map copy_c ts).
Definition move_constructible_trait : trait := common_trait (map move_c ts).
Definition copy_assignable_trait : trait := common_trait (copy_constructible_trait :: map copy_a ts).
Definition move_assignable_trait : trait := common_trait (move_constructible_trait :: map move_a ts).
Definition destructible_trait : trait := common_trait (map destr ts).

(** variant.h:982-990 index_t: unsigned char, unsigned short or unsigned int *)
Definition index_bits : Z :=
  if (Z.of_nat n <? 255)%Z then 8 else if (Z.of_nat n <? 65535)%Z then 16 else 32.
Definition store (k : Z) : Z := k mod 2 ^ index_bits.
Definition minus1 : Z := store (-1).

Inductive cell := Raw | Alt (k : nat) (x : A).
(** variant.h:1026-1027 index_ and data_ *)
Record vobj := V { idx : Z; data : cell }.
(** Variables and the local variable tmp of swap() *)
Inductive loc := Var (i : nat) | Tmp.
Record state := State { vars : list (option vobj); tmp : option vobj; made : nat; gone : nat; bud : option nat }.

Inductive res (X : Type) := Done (s : state) (x : X) | Thrown (s : state) | Terminated | Undef.
Arguments Done {X} s x.
Arguments Thrown {X} s.
Arguments Terminated {X}.
Arguments Undef {X}.
Definition comp (X : Type) : Type := state -> res X.
Definition ret {X} (x : X) : comp X := fun s => Done s x.
Definition bindc {X Y} (m : comp X) (f : X -> comp Y) : comp Y := fun s =>
  match m s with
  | Done s' x => f x s'
  | Thrown s' => Thrown s'
  | Terminated => Terminated
  | Undef => Undef
  end.
Local Notation "x <~ m ;; f" := (bindc m (fun x => f)) (at level 61, m at next level, right associativity).
Local Notation "m ;;; f" := (bindc m (fun _ => f)) (at level 61, right associativity).
Definition undef {X} : comp X := fun _ => Undef.
(** A noexcept function *)
Definition noexcept_ {X} (b : bool) (m : comp X) : comp X := fun s =>
  match m s with Thrown s' => if b then Terminated else Thrown s' | r => r end.
(** try { m } catch (...) { h; throw; } *)
Definition try_ {X} (m : comp X) (h : comp unit) : comp X := fun s =>
  match m s with
  | Thrown s' => match h s' with
                 | Done s'' _ => Thrown s''
                 | Thrown s'' => Thrown s''
                 | Terminated => Terminated
                 | Undef => Undef
                 end
  | r => r
  end.

(** * Objects *)
Fixpoint set_nth {Y} (l : list Y) (i : nat) (x : Y) : list Y :=
  match l, i with
  | [], _ => []
  | _ :: l', O => x :: l'
  | a :: l', S i' => a :: set_nth l' i' x
  end.
Definition get (l : loc) : comp vobj := fun s =>
  match l with
  | Var i => match nth_error (vars s) i with Some (Some o) => Done s o | _ => Undef end
  | Tmp => match tmp s with Some o => Done s o | None => Undef end
  end.
Definition put (l : loc) (o : option vobj) : comp unit := fun s =>
  match l with
  | Var i => Done (State (set_nth (vars s) i o) (tmp s) (made s) (gone s) (bud s)) tt
  | Tmp => Done (State (vars s) o (made s) (gone s) (bud s)) tt
  end.
Definition count_made : comp unit := fun s => Done (State (vars s) (tmp s) (S (made s)) (gone s) (bud s)) tt.
Definition count_gone : comp unit := fun s => Done (State (vars s) (tmp s) (made s) (S (gone s)) (bud s)) tt.
(** An operation of an alternative; [nt]: it is noexcept *)
Definition tick (nt : bool) : comp unit := fun s =>
  if nt then Done s tt else
  match bud s with
  | None => Done s tt
  | Some O => Thrown (State (vars s) (tmp s) (made s) (gone s) None)
  | Some (S b) => Done (State (vars s) (tmp s) (made s) (gone s) (Some b)) tt
  end.
Definition set_index (l : loc) (z : Z) : comp unit := o <~ get l ;; put l (Some (V z (data o))).
Definition set_data (l : loc) (c : cell) : comp unit := o <~ get l ;; put l (Some (V (idx o) c)).

(** variant.h:1003-1009 *)
Definition valueless (o : vobj) : bool := (idx o =? minus1)%Z.
Definition index (o : vobj) : Z := if valueless o then npos else idx o.

(** variant.h:419-451 get_alt<k>(v).value: alternative k must be alive *)
Definition rd (l : loc) (k : nat) : comp A :=
  o <~ get l ;; match data o with Alt k' x => if (k =? k')%nat then ret x else undef | Raw => undef end.
Definition poke (l : loc) (k : nat) (x : A) : comp unit :=
  o <~ get l ;;
  match data o with Alt k' _ => if (k =? k')%nat then set_data l (Alt k x) else undef | Raw => undef end.

(** An argument for alternative k: something not related to the variants; an lvalue or rvalue
    of the same type living in a variant; or an lvalue of another type living in variable j.
    [ntc], [nta]: is_nothrow_constructible<T, Arg>, is_nothrow_assignable<T&, Arg> *)
Inductive arg := Val (ntc nta : bool) (x : A) | Copy (l : loc) | Move (l : loc) | Ref (ntc nta : bool) (j : nat).
Definition ntc (k : nat) (a : arg) : bool :=
  match a with Val b _ _ | Ref b _ _ => b | Copy _ => nt_copy (ty k) | Move _ => nt_move (ty k) end.
Definition nta (k : nat) (a : arg) : bool :=
  match a with Val _ b _ | Ref _ b _ => b | Copy _ => nt_copy_assign (ty k) | Move _ => nt_move_assign (ty k) end.
Definition read (k : nat) (a : arg) : comp A :=
  match a with
  | Val _ _ x => ret x
  | Copy l => rd l k
  | Move l => x <~ rd l k ;; poke l k (mv k x) ;;; ret x
  | Ref _ _ j => o <~ get (Var j) ;; match data o with Alt _ x => ret x | Raw => undef end
  end.

(** variant.h:924-926 and 1110-1115: placement new of alternative k *)
Definition construct_alt (l : loc) (k : nat) (a : arg) : comp unit :=
  tick (ntc k a) ;;; x <~ read k a ;; set_data l (Alt k x) ;;; count_made.

(** An object is left behind without destructor call.  If the destructor is trivial, this
    ends its lifetime just as well. *)
Definition abandon (l : loc) : comp unit :=
  o <~ get l ;;
  match data o with
  | Alt k _ => set_data l Raw ;;; (match destr (ty k) with Trivially => count_gone | _ => ret tt end)
  | Raw => ret tt
  end.
(** variant.h:1033-1043 destructor call for alternative k *)
Definition dtor_alt (l : loc) (k : nat) : comp unit :=
  rd l k ;;; set_data l Raw ;;; count_gone.
(** variant.h:1077-1097 destroy() *)
Definition destroy (l : loc) : comp unit :=
  match destructible_trait with
  | Trivially => abandon l ;;; set_index l minus1
  | Available =>
      o <~ get l ;;
      (if valueless o then ret tt else dispatch undef n n 0 (index o) (fun k => dtor_alt l k)) ;;;
      set_index l minus1
  | Unavailable => undef
  end.
(** ~destructor(), and the end of the storage *)
Definition dtor (l : loc) : comp unit :=
  (match destructible_trait with
   | Trivially => abandon l
   | Available => destroy l
   | Unavailable => undef
   end) ;;;
  o <~ get l ;; match data o with Raw => put l None | _ => undef end.

(** variant.h:1117-1132 generic_construct; [a]: Copy or Move *)
Definition generic_construct (lhs rhs : loc) (a : loc -> arg) : comp unit :=
  destroy lhs ;;;
  r <~ get rhs ;;
  if valueless r then ret tt else
  dispatch undef n n 0 (index r) (fun k => construct_alt lhs k (a rhs)) ;;;
  r <~ get rhs ;; set_index lhs (idx r).

(** Defaulted copy or move operations: the bytes are copied.  [triv]: the trait of the
    alternative that must be trivial *)
Definition bytes (triv : alt_ty -> trait) (l r : loc) : comp unit :=
  o <~ get r ;;
  match data o with
  | Raw => put l (Some o)
  | Alt k _ => match triv (ty k) with Trivially => put l (Some o) ;;; count_made | _ => undef end
  end.
Definition unused (l : loc) : comp unit := fun s =>
  match l with
  | Var i => match nth_error (vars s) i with Some None => Done s tt | _ => Undef end
  | Tmp => match tmp s with None => Done s tt | _ => Undef end
  end.
(** variant.h:995-996 *)
Definition ctor_valueless (l : loc) : comp unit := put l (Some (V minus1 Raw)).
Definition all_alts (p : alt_ty -> bool) : bool := forallb p ts.
(** variant.h:1155-1169 move constructor.  After an exception the valueless object, already
    complete, is destroyed. *)
Definition ctor_move (l r : loc) : comp unit :=
  unused l ;;;
  match move_constructible_trait with
  | Trivially => bytes move_c l r
  | Available =>
      noexcept_ (all_alts nt_move)
        (ctor_valueless l ;;; try_ (generic_construct l r Move) (dtor l))
  | Unavailable => undef
  end.
(** variant.h:1193-1206 copy constructor *)
Definition ctor_copy (l r : loc) : comp unit :=
  unused l ;;;
  match copy_constructible_trait with
  | Trivially => bytes copy_c l r
  | Available => ctor_valueless l ;;; try_ (generic_construct l r Copy) (dtor l)
  | Unavailable => undef
  end.
(** variant.h:998-1001 and 1522-1593: in place, or from a value.  [ctor_in_place] stands for
    all constructors that end up in base(in_place_index_t<I>, args...). *)
Definition ctor_in_place (i k : nat) (a : arg) : comp unit :=
  unused (Var i) ;;; noexcept_ (ntc k a)
    (tick (ntc k a) ;;; x <~ read k a ;; put (Var i) (Some (V (store (Z.of_nat k)) (Alt k x))) ;;; count_made).
(** variant.h:1512-1517 default constructor; nt: is_nothrow_default_constructible *)
Definition ctor_default (i : nat) (nt : bool) : comp unit := ctor_in_place i 0 (Val nt nt dflt).

(** variant.h:1218-1227 emplace<I>(args...) *)
Definition emplace (l : loc) (k : nat) (a : arg) : comp unit :=
  destroy l ;;; construct_alt l k a ;;; set_index l (store (Z.of_nat k)).
(** variant.h:1230-1256 assign_alt: to the live alternative, or emplace, if need be by way of
    a temporary T, which is moved from and destroyed at the end of the expression *)
Definition assign_alt (l : loc) (k : nat) (a : arg) : comp unit :=
  o <~ get l ;;
  if (index o =? Z.of_nat k)%Z
  then tick (nta k a) ;;; x <~ read k a ;; poke l k x
  else if ntc k a || negb (nt_move (ty k)) then emplace l k a
  else tick (ntc k a) ;;; x <~ read k a ;;
       count_made ;;;
       (fun s => match emplace l k (Val (nt_move (ty k)) true x) s with
                 | Done s' u => count_gone s'
                 | Thrown s' => Thrown (State (vars s') (tmp s') (made s') (S (gone s')) (bud s'))
                 | r => r
                 end).
(** variant.h:1258-1274 generic_assign *)
Definition generic_assign (l r : loc) (a : loc -> arg) : comp unit :=
  o <~ get l ;; p <~ get r ;;
  if valueless o && valueless p then ret tt
  else if valueless p then destroy l
  else dispatch undef n n 0 (index p) (fun k => assign_alt l k (a r)).
(** Defaulted assignment: the bytes are copied over the old ones. *)
Definition bytes_over (triv : alt_ty -> trait) (l r : loc) : comp unit :=
  o <~ get r ;; abandon l ;;;
  match data o with
  | Raw => put l (Some o)
  | Alt k _ => match triv (ty k) with Trivially => put l (Some o) ;;; count_made | _ => undef end
  end.
(** variant.h:1297-1313 move assignment *)
Definition assign_move (l r : loc) : comp unit :=
  match move_assignable_trait with
  | Trivially => bytes_over move_a l r
  | Available =>
      noexcept_ (all_alts (fun t => nt_move t && nt_move_assign t)) (generic_assign l r Move)
  | Unavailable => undef
  end.
(** variant.h:1337-1350 copy assignment *)
Definition assign_copy (l r : loc) : comp unit :=
  match copy_assignable_trait with
  | Trivially => bytes_over copy_a l r
  | Available => generic_assign l r Copy
  | Unavailable => undef
  end.
(** variant.h:1600-1613 operator=(Arg&&) and 1368-1372 assign<I> *)
Definition assign (i k : nat) (a : arg) : comp unit :=
  noexcept_ (nta k a && ntc k a) (assign_alt (Var i) k a).

(** variant.h:1409-1414 move_nothrow() *)
Definition move_nothrow (o : vobj) : bool :=
  valueless o || nt_move (ty (Z.to_nat (index o))).
(** std::swap of the values of two alternatives k *)
Definition swap_values (l r : loc) (k : nat) : comp unit :=
  tick (nt_move (ty k)) ;;; x <~ read k (Move l) ;; count_made ;;;
  (fun s =>
     match (tick (nt_move_assign (ty k)) ;;; y <~ read k (Move r) ;; poke l k y ;;;
            tick (nt_move_assign (ty k)) ;;; poke r k x) s with
     | Done s' u => count_gone s'
     | Thrown s' => Thrown (State (vars s') (tmp s') (made s') (S (gone s')) (bud s'))
     | q => q
     end).
(** variant.h:1386-1405: the indices differ.  tmp is destroyed on every way out. *)
Definition swap_tmp (lhs rhs : loc) : comp unit :=
  ctor_move Tmp rhs ;;;
  (fun s =>
     match (try_ (generic_construct rhs lhs Move)
              (t <~ get Tmp ;; if move_nothrow t then generic_construct rhs Tmp Move else ret tt) ;;;
            generic_construct lhs Tmp Move) s with
     | Done s' u => dtor Tmp s'
     | Thrown s' => match dtor Tmp s' with Done s'' _ => Thrown s'' | q => q end
     | q => q
     end).
(** variant.h:1374-1406 and 1675-1679 swap *)
Definition swap (i j : nat) : comp unit :=
  let l := Var i in let r := Var j in
  noexcept_ (all_alts (fun t => nt_move t && (nt_move t && nt_move_assign t)))
    (o <~ get l ;; p <~ get r ;;
     if valueless o && valueless p then ret tt
     else if (index o =? index p)%Z
          then dispatch undef n n 0 (index o) (fun k => swap_values l r k)
     else if move_nothrow o && negb (move_nothrow p) then swap_tmp r l else swap_tmp l r).

(** Assignment to get<k>(v), variant.h:1688-1757 *)
Definition write (i k : nat) (a : arg) : comp unit :=
  o <~ get (Var i) ;;
  if (index o =? Z.of_nat k)%Z then tick (nta k a) ;;; x <~ read k a ;; poke (Var i) k x
  else (fun s => Thrown s).
End Variant.
Arguments Done {A X} s x.
Arguments Thrown {A X} s.
Arguments Terminated {A X}.
Arguments Undef {A X}.

(** * Observers, on objects.  A variant is its list of alternative types and its object. *)
(** The operators ==, !=, <, >, <=, >= of alternative k *)
Record rel (A : Type) := Rel { r_eq : nat -> A -> A -> bool; r_ne : nat -> A -> A -> bool;
  r_lt : nat -> A -> A -> bool; r_gt : nat -> A -> A -> bool; r_le : nat -> A -> A -> bool;
  r_ge : nat -> A -> A -> bool }.
Arguments Rel {A}. Arguments r_eq {A}. Arguments r_ne {A}. Arguments r_lt {A}. Arguments r_gt {A}.
Arguments r_le {A}. Arguments r_ge {A}.
Section Observers.
Context {A : Type}.
Local Open Scope outcome_scope.
Definition alt_value (o : @vobj A) (k : nat) : outcome A :=
  match data o with Alt k' x => if (k =? k')%nat then Ok x else UB | Raw => UB end.
(** variant.h:1688-1696 holds_alternative *)
Definition holds_alternative (ts : list alt_ty) (o : @vobj A) (k : nat) : bool := (index ts o =? Z.of_nat k)%Z.
(** variant.h:1698-1757 get<I> *)
Definition get_ (ts : list alt_ty) (o : @vobj A) (k : nat) : outcome A :=
  if holds_alternative ts o k then alt_value o k else Throw BadVariantAccess.
(** variant.h:1759-1793 get_if<I>; None is the null pointer *)
Definition get_if (ts : list alt_ty) (o : option (@vobj A)) (k : nat) : outcome (option A) :=
  match o with
  | None => Ok None
  | Some o => if holds_alternative ts o k then x <- alt_value o k ;; Ok (Some x) else Ok None
  end.

(** variant.h:513-587 visitation::base::dispatcher::dispatch: [visited] has the variants
    already dispatched with their alternative, [vs] the ones still to be dispatched. *)
Fixpoint collect (visited : list (nat * @vobj A)) : outcome (list (nat * A)) :=
  match visited with
  | [] => Ok []
  | (k, o) :: r => x <- alt_value o k ;; l <- collect r ;; Ok ((k, x) :: l)
  end.
Fixpoint visit_alt {S R} (visitor : list (nat * A) -> S -> outcome (S * R))
    (visited : list (nat * @vobj A)) (vs : list (list alt_ty * @vobj A)) (s : S) : outcome (S * R) :=
  match vs with
  | [] => alts <- collect visited ;; visitor alts s
  | (ts, o) :: r =>
      dispatch UB (length ts) (length ts) 0 (index ts o)
        (fun k => visit_alt visitor (visited ++ [(k, o)]) r s)
  end.
(** variant.h:1880-1898 visit.  The visitor may have an effect on a state s of the program. *)
Definition visit {S R} (visitor : list (nat * A) -> S -> outcome (S * R))
    (vs : list (list alt_ty * @vobj A)) (s : S) : outcome (S * R) :=
  if existsb (fun v => valueless (fst v) (snd v)) vs then Throw BadVariantAccess
  else visit_alt visitor [] vs s.

(** * Comparison, variant.h:1795-1876.  The arguments are the operators of the alternatives. *)
Context (ts : list alt_ty) (o : rel A).
Local Notation eq := (r_eq o). Local Notation ne := (r_ne o). Local Notation lt := (r_lt o).
Local Notation gt := (r_gt o). Local Notation le := (r_le o). Local Notation ge := (r_ge o).
Definition value_at (op : nat -> A -> A -> bool) (x y : @vobj A) : outcome bool :=
  dispatch UB (length ts) (length ts) 0 (index ts x)
    (fun k => a <- alt_value x k ;; b <- alt_value y k ;; Ok (op k a b)).
Definition v_eq (x y : vobj) : outcome bool :=
  if negb (index ts x =? index ts y)%Z then Ok false
  else if valueless ts x then Ok true else value_at eq x y.
Definition v_ne (x y : vobj) : outcome bool :=
  if negb (index ts x =? index ts y)%Z then Ok true
  else if valueless ts x then Ok false else value_at ne x y.
Definition v_lt (x y : vobj) : outcome bool :=
  if valueless ts y then Ok false else if valueless ts x then Ok true
  else if (index ts x <? index ts y)%Z then Ok true
  else if (index ts y <? index ts x)%Z then Ok false else value_at lt x y.
Definition v_gt (x y : vobj) : outcome bool :=
  if valueless ts x then Ok false else if valueless ts y then Ok true
  else if (index ts y <? index ts x)%Z then Ok true
  else if (index ts x <? index ts y)%Z then Ok false else value_at gt x y.
Definition v_le (x y : vobj) : outcome bool :=
  if valueless ts x then Ok true else if valueless ts y then Ok false
  else if (index ts x <? index ts y)%Z then Ok true
  else if (index ts y <? index ts x)%Z then Ok false else value_at le x y.
Definition v_ge (x y : vobj) : outcome bool :=
  if valueless ts y then Ok true else if valueless ts x then Ok false
  else if (index ts y <? index ts x)%Z then Ok true
  else if (index ts x <? index ts y)%Z then Ok false else value_at ge x y.

(** variant.h:1938-1968 std::hash<variant>; [h k] is std::hash of alternative k and
    std::hash<std::size_t> is the identity, as in libstdc++ *)
Definition hash_combine (lhs rhs : Z) : Z :=
  Z.lxor lhs ((rhs + 2654435769 + (lhs * 64) mod 2 ^ 64 + lhs / 4) mod 2 ^ 64).
Definition hash (h : nat -> A -> Z) (x : @vobj A) : outcome Z :=
  result <- (if valueless ts x then Ok 299792458%Z
             else dispatch UB (length ts) (length ts) 0 (index ts x)
                    (fun k => a <- alt_value x k ;; Ok (h k a))) ;;
  Ok (hash_combine result (index ts x)).
End Observers.

(** * monostate, utility.h:72-77 *)
Definition mono_lt (x y : unit) : bool := false.
Definition mono_gt (x y : unit) : bool := false.
Definition mono_le (x y : unit) : bool := true.
Definition mono_ge (x y : unit) : bool := true.
Definition mono_eq (x y : unit) : bool := true.
Definition mono_ne (x y : unit) : bool := false.
