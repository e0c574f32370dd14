(** Specification of expected: each variable is unused or holds a value or an error.
    Nothing here refers to flags, unions or lifetimes. *)
From Verif Require Import Base ExpModel.

(** The calls on variables number i and j. *)
Inductive eop (A B : Type) :=
| NewDefault (i : nat)
| NewValue (i : nat) (a : @arg A)            (* from a value, or in place *)
| NewError (i : nat) (a : @earg B)           (* from unexpected<E>, or with unexpect *)
| NewCopy (i j : nat) | NewMove (i j : nat)
| NewConvert (i : nat) (src : A + B)         (* from expected<U, G> with this (converted) content *)
| Delete (i : nat)                           (* end of lifetime *)
| AssignCopy (i j : nat) | AssignMove (i j : nat)
| AssignValue (i : nat) (a : @arg A)
| AssignUnexpected (i : nat) (a : @earg B)
| Emplace (i : nat) (a : @arg A)
| EmplaceList (i : nat) (a : @arg A)         (* the overload with an initializer_list *)
| Write (i : nat) (a : @arg A)               (* assignment through operator* *)
| WriteError (i : nat) (a : @earg B)         (* assignment through error() *)
| Swap (i j : nat)
| TakeOr (i : nat) (a : @arg A).             (* std::move(i).value_or(a) *)
Arguments NewDefault {A B}. Arguments NewValue {A B}. Arguments NewError {A B}.
Arguments NewCopy {A B}. Arguments NewMove {A B}. Arguments NewConvert {A B}. Arguments Delete {A B}.
Arguments AssignCopy {A B}. Arguments AssignMove {A B}. Arguments AssignValue {A B}.
Arguments AssignUnexpected {A B}. Arguments Emplace {A B}. Arguments EmplaceList {A B}.
Arguments Write {A B}. Arguments WriteError {A B}. Arguments Swap {A B}. Arguments TakeOr {A B}.

Section Spec.
Context {A B : Type} (mv : A -> A) (mve : B -> B) (dflt : A) (T E : traits).

(** [None]: no object; [Some (inl x)]: the value x; [Some (inr e)]: the error e. *)
Definition world : Type := list (option (A + B)).
Definition see (w : world) (i : nat) : option (A + B) :=
  match nth_error w i with Some v => v | None => None end.
Definition free (w : world) (i : nat) : bool :=
  match nth_error w i with Some None => true | _ => false end.
Definition upd (w : world) (i : nat) (v : option (A + B)) : world :=
  firstn i w ++ v :: skipn (S i) w.
(** The value of an argument; a reference needs a variable that holds a value. *)
Definition arg_value (w : world) (a : arg) : option A :=
  match a with
  | RVal x | LVal x | Via _ x => Some x
  | Ref j => match see w j with Some (inl x) => Some x | _ => None end
  end.
Definition earg_value (a : earg) : B := match a with ERVal e | ELVal e => e end.
Definition obind {X Y} (x : option X) (f : X -> option Y) : option Y :=
  match x with Some v => f v | None => None end.
(** What moving from an expected leaves behind: a moved-from value or error. *)
Definition moved (v : A + B) : A + B := match v with inl x => inl (mv x) | inr e => inr (mve e) end.
Definition is_val (v : A + B) : bool := match v with inl _ => true | inr _ => false end.

(** Calls that the declarations admit for these element types. *)
Definition viable (op : eop A B) : bool :=
  match op with
  | AssignValue _ _ => nt_move E
  | AssignUnexpected _ (ELVal _) => nt_copy E
  | AssignUnexpected _ (ERVal _) => nt_move E
  | Swap _ _ => nt_move T || nt_move E
  | _ => true
  end.

(** The new world; [None] when a precondition is violated: a variable that does not (or
    does) hold an object, using the value of an error or the error of a value, or emplace
    with a reference to the value that is being replaced. *)
Definition meaning (w : world) (op : eop A B) : option world :=
  if negb (viable op) then None else
  match op with
  | NewDefault i => if free w i then Some (upd w i (Some (inl dflt))) else None
  | NewValue i a =>
      if free w i then obind (arg_value w a) (fun x => Some (upd w i (Some (inl x)))) else None
  | NewError i a => if free w i then Some (upd w i (Some (inr (earg_value a)))) else None
  | NewCopy i j => if free w i then obind (see w j) (fun v => Some (upd w i (Some v))) else None
  | NewMove i j =>
      if free w i
      then obind (see w j) (fun v => Some (upd (upd w j (Some (moved v))) i (Some v)))
      else None
  | NewConvert i src => if free w i then Some (upd w i (Some src)) else None
  | Delete i => obind (see w i) (fun _ => Some (upd w i None))
  | AssignCopy i j =>
      obind (see w i) (fun _ => obind (see w j) (fun v => Some (upd w i (Some v))))
  | AssignMove i j =>
      obind (see w i) (fun _ => obind (see w j) (fun v =>
        Some (upd (upd w j (Some (moved v))) i (Some v))))
  | AssignValue i a | EmplaceList i a =>
      obind (see w i) (fun _ => obind (arg_value w a) (fun x => Some (upd w i (Some (inl x)))))
  | AssignUnexpected i a => obind (see w i) (fun _ => Some (upd w i (Some (inr (earg_value a)))))
  | Emplace i a =>
      obind (see w i) (fun _ =>
        match a with
        | Ref j => if Nat.eqb i j then None
                   else obind (arg_value w a) (fun x => Some (upd w i (Some (inl x))))
        | _ => obind (arg_value w a) (fun x => Some (upd w i (Some (inl x))))
        end)
  | Write i a =>
      obind (see w i) (fun v =>
        if is_val v then obind (arg_value w a) (fun x => Some (upd w i (Some (inl x)))) else None)
  | WriteError i a =>
      obind (see w i) (fun v => if is_val v then None else Some (upd w i (Some (inr (earg_value a)))))
  | Swap i j =>
      obind (see w i) (fun v => obind (see w j) (fun u => Some (upd (upd w i (Some u)) j (Some v))))
  | TakeOr i a =>
      obind (see w i) (fun v => obind (arg_value w a) (fun _ =>
        Some (upd w i (Some (if is_val v then moved v else v)))))
  end.
Fixpoint meanings (w : world) (ops : list (eop A B)) : option world :=
  match ops with
  | [] => Some w
  | op :: r => obind (meaning w op) (fun w' => meanings w' r)
  end.

(** n unused variables *)
Definition none (n : nat) : world := repeat None n.
Definition start (n : nat) (g : option nat) : @state A B := State (repeat None n) 0 0 g.

(** The same calls on the model *)
Definition drop {X} (r : @res A B X) : @res A B unit :=
  match r with Done s _ => Done s tt | Thrown e s => Thrown e s | Terminated => Terminated | Undef => Undef end.
Definition call (op : eop A B) (s : state) : res unit :=
  match op with
  | NewDefault i => ctor_default dflt i s
  | NewValue i a => ctor_value T i a s
  | NewError i a => ctor_error E i a s
  | NewCopy i j => ctor_copy T E i j s
  | NewMove i j => ctor_move mv mve T E i j s
  | NewConvert i src => ctor_convert dflt i src s
  | Delete i => dtor i s
  | AssignCopy i j => assign_copy mve T E i j s
  | AssignMove i j => assign_move mv mve T E i j s
  | AssignValue i a => assign_value mve T E i a s
  | AssignUnexpected i (ELVal e) => assign_unexpected_copy E i e s
  | AssignUnexpected i (ERVal e) => assign_unexpected_move E i e s
  | Emplace i a => emplace mve T E i a s
  | EmplaceList i a => emplace_list mve T E i a s
  | Write i a => write T i a s
  | WriteError i a => write_error E i a s
  | Swap i j => swap mv mve T E i j s
  | TakeOr i a => drop (value_or_move mv T i a s)
  end.
Fixpoint calls (ops : list (eop A B)) (s : state) : res unit :=
  match ops with
  | [] => Done s tt
  | op :: r => match call op s with Done s' _ => calls r s' | other => other end
  end.

(** What a user can observe of an expected: has_value() and the value or error. *)
Definition observe (o : @ex A B) : option (A + B) :=
  match has o, slot o with
  | true, Val x => Some (inl x)
  | false, Err e => Some (inr e)
  | _, _ => None
  end.
Definition view (s : @state A B) : world :=
  map (fun v => match v with Some o => observe o | None => None end) (vars s).
(** An object in order: the flag tells what the union holds. *)
Definition sound (o : @ex A B) : Prop :=
  match slot o with Val _ => has o = true | Err _ => has o = false | Raw => False end.

(** The number of T and E objects alive inside the variables. *)
Definition holds (v : option (A + B)) : nat := match v with Some _ => 1 | None => 0 end.
Definition alive (w : world) : nat := list_sum (map holds w).

(** Conversions from another expected type: each one leaks an object. *)
Definition is_convert (op : eop A B) : nat := match op with NewConvert _ _ => 1 | _ => 0 end.
Definition converts (ops : list (eop A B)) : nat := list_sum (map is_convert ops).

(** Calls after whose exception the object is not in order, or the behavior undefined:
    a value is constructed in place of an error (or, by emplace, of a value) and this may
    throw; or a value is swapped with an error and one of the moves may throw. *)
Definition hazard (w : world) (op : eop A B) : bool :=
  match op with
  | AssignValue i a | EmplaceList i a =>
      match see w i with Some (inr _) => negb (nt_arg T a) | _ => false end
  | Emplace i a => negb (nt_arg T a)
  | Swap i j =>
      match see w i, see w j with
      | Some v, Some u => negb (Bool.eqb (is_val v) (is_val u)) && negb (nt_move T && nt_move E)
      | _, _ => false
      end
  | _ => false
  end.

(** Calls that can end in std::terminate when an element operation throws. *)
Definition can_terminate (w : world) (op : eop A B) : bool :=
  match op with
  | NewConvert _ _ => true
  | NewCopy _ j =>
      match see w j with Some (inl _) => negb (nt_copy T) | Some (inr _) => negb (nt_copy E) | None => false end
  | NewMove _ j =>
      match see w j with Some (inl _) => negb (nt_move T) | Some (inr _) => negb (nt_move E) | None => false end
  | AssignCopy i j =>
      match see w i, see w j with
      | Some (inl _), Some (inl _) => negb (nt_copy_assign T) && (nt_copy T || nt_move T)
      | Some (inl _), Some (inr _) => negb (nt_copy E)
      | Some (inr _), Some (inl _) => negb (nt_copy T)
      | Some (inr _), Some (inr _) => negb (nt_copy_assign E) && (nt_copy T || nt_move T)
      | _, _ => false
      end
  | AssignMove i j =>
      match see w i, see w j with
      | Some (inl _), Some (inl _) => negb (nt_move_assign T) && nt_move T
      | Some (inl _), Some (inr _) => negb (nt_move E)
      | Some (inr _), Some (inl _) => negb (nt_move T)
      | Some (inr _), Some (inr _) => negb (nt_move_assign E) && nt_move T
      | _, _ => false
      end
  | AssignUnexpected i (ERVal _) =>
      match see w i with Some (inr _) => negb (nt_move_assign E) | _ => false end
  | _ => false
  end.

(** States a program can get into when calls may throw and the program carries on after
    catching the exception, avoiding conversions and the calls above when they throw. *)
Definition with_budget (g : option nat) (s : @state A B) : state := State (vars s) (made s) (gone s) g.
Inductive reach (n : nat) : state -> Prop :=
| reach_start g : reach n (start n g)
| reach_call s g op s' :
    reach n s -> meaning (view s) op <> None -> is_convert op = 0 ->
    (call op (with_budget g s) = Done s' tt \/
     hazard (view s) op = false /\ exists e, call op (with_budget g s) = Thrown e s') ->
    reach n s'.

(** What a call that throws may do: nothing, except that swapping two values or two errors
    (std::swap) may leave other values or errors in both. *)
Definition after_throw (w : world) (op : eop A B) (w' : world) : Prop :=
  w' = w \/
  exists i j v u v' u', op = Swap i j /\ see w i = Some v /\ see w j = Some u /\
    is_val v = is_val u /\ is_val v' = is_val v /\ is_val u' = is_val u /\
    w' = upd (upd w i (Some v')) j (Some u').

(** Monadic operations on values and errors *)
Definition sum_bind {S C} (x : A + B) (f : A -> S -> S * (C + B)) (s : S) : S * (C + B) :=
  match x with inl a => f a s | inr e => (s, inr e) end.
Definition sum_else {S} (x : A + B) (f : B -> S -> S * (A + B)) (s : S) : S * (A + B) :=
  match x with inl a => (s, inl a) | inr e => f e s end.
Definition sum_eq (eqv : A -> A -> bool) (eqe : B -> B -> bool) (x y : A + B) : bool :=
  match x, y with
  | inl a, inl b => eqv a b
  | inr a, inr b => eqe a b
  | _, _ => false
  end.
(** The object that holds a value or an error *)
Definition obj (v : A + B) : @ex A B := match v with inl a => of_val a | inr e => of_err e end.
End Spec.

(** Calls whose element operations are all noexcept. *)
Definition all_noexcept (t : traits) : bool :=
  nt_copy t && nt_move t && nt_copy_assign t && nt_move_assign t.
Definition quiet_arg {A} (a : @arg A) : bool := match a with Via nt _ => nt | _ => true end.
Definition quiet {A B} (op : eop A B) : bool :=
  match op with
  | NewDefault _ | NewConvert _ _ => false
  | NewValue _ a | Emplace _ a | EmplaceList _ a | TakeOr _ a => quiet_arg a
  | AssignValue _ a | Write _ a => match a with Via _ _ => false | _ => true end
  | _ => true
  end.
