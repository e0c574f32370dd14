(** Specification of optionals: each variable is unused or holds an element of the
    mathematical option type.  Nothing here refers to storage or flags. *)
From Verif Require Import Base OptModel.

(** The calls on optional variables number i and j. *)
Inductive oop (A : Type) :=
| New (i : nat)                       (* optional<T> i; or = nullopt *)
| NewValue (i : nat) (a : @arg A)     (* from a value, or in place *)
| NewCopy (i j : nat) | NewMove (i j : nat)
| Delete (i : nat)                    (* end of lifetime *)
| AssignNull (i : nat) | Reset (i : nat)
| AssignCopy (i j : nat) | AssignMove (i j : nat)
| AssignValue (i : nat) (a : @arg A)
| Emplace (i : nat) (a : @arg A)
| Write (i : nat) (a : @arg A)        (* assignment through operator* *)
| Swap (i j : nat)
| TakeOr (i : nat) (a : @arg A).      (* std::move(i).value_or(a) *)
Arguments New {A}. Arguments NewValue {A}. Arguments NewCopy {A}. Arguments NewMove {A}.
Arguments Delete {A}. Arguments AssignNull {A}. Arguments Reset {A}. Arguments AssignCopy {A}.
Arguments AssignMove {A}. Arguments AssignValue {A}. Arguments Emplace {A}. Arguments Write {A}.
Arguments Swap {A}. Arguments TakeOr {A}.

Section Spec.
Context {A : Type} (mv : A -> A).

(** [None]: no object; [Some None]: nullopt; [Some (Some x)]: holds x. *)
Definition world : Type := list (option (option A)).
Definition see (w : world) (i : nat) : option (option A) :=
  match nth_error w i with Some v => v | None => None end.
Definition free (w : world) (i : nat) : bool :=
  match nth_error w i with Some None => true | _ => false end.
Definition upd (w : world) (i : nat) (v : option (option A)) : world :=
  firstn i w ++ v :: skipn (S i) w.
(** The value of an argument; a reference needs an optional that holds a value. *)
Definition arg_value (w : world) (a : arg) : option A :=
  match a with
  | RVal x | LVal x => Some x
  | Ref j => match see w j with Some v => v | None => None end
  end.
Definition obind {X Y} (x : option X) (f : X -> option Y) : option Y :=
  match x with Some v => f v | None => None end.
(** What moving from an optional leaves behind: it keeps a moved-from value. *)
Definition moved (v : option A) : option A := option_map mv v.

(** The new world; [None] when a precondition is violated: a variable that does not (or
    does) hold an object, dereferencing an empty optional, a constructor that refers to its
    own object, or emplace with a reference into the optional itself. *)
Definition meaning (w : world) (op : oop A) : option world :=
  match op with
  | New i => if free w i then Some (upd w i (Some None)) else None
  | NewValue i a =>
      if free w i then obind (arg_value w a) (fun x => Some (upd w i (Some (Some x)))) else None
  | NewCopy i j => if free w i then obind (see w j) (fun v => Some (upd w i (Some v))) else None
  | NewMove i j =>
      if free w i
      then obind (see w j) (fun v => Some (upd (upd w j (Some (moved v))) i (Some v)))
      else None
  | Delete i => obind (see w i) (fun _ => Some (upd w i None))
  | AssignNull i | Reset i => obind (see w i) (fun _ => Some (upd w i (Some None)))
  | AssignCopy i j =>
      obind (see w i) (fun _ => obind (see w j) (fun v => Some (upd w i (Some v))))
  | AssignMove i j =>
      obind (see w i) (fun _ => obind (see w j) (fun v =>
        Some (upd (upd w j (Some (moved v))) i (Some v))))
  | AssignValue i a =>
      obind (see w i) (fun _ => obind (arg_value w a) (fun x => Some (upd w i (Some (Some x)))))
  | Emplace i a =>
      obind (see w i) (fun _ =>
        match a with
        | Ref j => if Nat.eqb i j then None
                   else obind (arg_value w a) (fun x => Some (upd w i (Some (Some x))))
        | _ => obind (arg_value w a) (fun x => Some (upd w i (Some (Some x))))
        end)
  | Write i a =>
      obind (see w i) (fun v => obind v (fun _ =>
        obind (arg_value w a) (fun x => Some (upd w i (Some (Some x))))))
  | Swap i j =>
      obind (see w i) (fun v => obind (see w j) (fun u => Some (upd (upd w i (Some u)) j (Some v))))
  | TakeOr i a =>
      obind (see w i) (fun v => obind (arg_value w a) (fun _ => Some (upd w i (Some (moved v)))))
  end.
Fixpoint meanings (w : world) (ops : list (oop A)) : option world :=
  match ops with
  | [] => Some w
  | op :: r => obind (meaning w op) (fun w' => meanings w' r)
  end.

(** n unused variables *)
Definition none (n : nat) : world := repeat None n.
Definition start (n : nat) (g : option nat) : @state A := State (repeat None n) 0 0 g.

(** The same calls on the model *)
Variable nothrow_move : bool.
Definition call (op : oop A) : comp unit :=
  match op with
  | New i => ctor_empty i
  | NewValue i a => ctor_value nothrow_move i a
  | NewCopy i j => ctor_copy nothrow_move i j
  | NewMove i j => ctor_move mv nothrow_move i j
  | Delete i => dtor i
  | AssignNull i => assign_null i
  | Reset i => reset i
  | AssignCopy i j => assign_copy nothrow_move i j
  | AssignMove i j => assign_move mv nothrow_move i j
  | AssignValue i a => assign_value nothrow_move i a
  | Emplace i a => emplace nothrow_move i a
  | Write i a => write nothrow_move i a
  | Swap i j => swap mv nothrow_move i j
  | TakeOr i a => fun s => match value_or_move mv nothrow_move i a s with
                           | Done s' _ => Done s' tt
                           | Thrown e s' => Thrown e s'
                           | Undef => Undef
                           end
  end.
Fixpoint calls (ops : list (oop A)) (s : state) : res unit :=
  match ops with
  | [] => Done s tt
  | op :: r => match call op s with Done s' _ => calls r s' | other => other end
  end.

(** What a user can observe of an optional: has_value() and the value. *)
Definition observe (o : @opt A) : option A :=
  if init_ o then match storage_ o with Live x => Some x | Raw => None end else None.
Definition view (s : @state A) : world := map (option_map observe) (vars s).

(** States a program can get into when calls may throw and the program carries on after
    catching the exception.  Before each call it may be decided anew when the next
    throwing element operation throws. *)
Definition with_budget (g : option nat) (s : @state A) : state := State (vars s) (made s) (gone s) g.
Inductive reach (n : nat) : state -> Prop :=
| reach_start g : reach n (start n g)
| reach_call s g op s' :
    reach n s -> meaning (view s) op <> None ->
    (call op (with_budget g s) = Done s' tt \/
     exists e, call op (with_budget g s) = Thrown e s') ->
    reach n s'.

(** The number of T objects alive inside optionals. *)
Definition holds (v : option (option A)) : nat :=
  match v with Some (Some _) => 1 | _ => 0 end.
Definition alive (w : world) : nat := list_sum (map holds w).

(** The order on optionals: nullopt is below every value. *)
Definition below (lt : A -> A -> bool) (x y : option A) : bool :=
  match x, y with
  | _, None => false
  | None, Some _ => true
  | Some a, Some b => lt a b
  end.
(** An optional as the operations above leave it. *)
Definition sound (o : @opt A) : Prop := init_ o = true <-> exists x, storage_ o = Live x.
End Spec.

(** What a call that throws may do: nothing, except that emplace leaves the optional empty
    and that swapping two values (std::swap) may leave other values in both. *)
Definition after_throw {A : Type} (w : @world A) (op : oop A) (w' : @world A) : Prop :=
  match op with
  | Emplace i _ => w' = upd w i (Some None)
  | Swap i j =>
      w' = w \/
      exists a b, (exists x, see w i = Some (Some x)) /\ (exists y, see w j = Some (Some y)) /\
        w' = upd (upd w i (Some (Some a))) j (Some (Some b))
  | _ => w' = w
  end.

(** Calls that cannot throw: those that need no T operation, and those that only move when
    T moves without throwing. *)
Definition never_throws {A : Type} (nothrow_move : bool) (op : oop A) : bool :=
  match op with
  | New _ | Delete _ | AssignNull _ | Reset _ => true
  | NewMove _ _ | AssignMove _ _ | Swap _ _ => nothrow_move
  | NewValue _ (RVal _) | AssignValue _ (RVal _) | Emplace _ (RVal _) | Write _ (RVal _)
  | TakeOr _ (RVal _) => nothrow_move
  | _ => false
  end.

(** Equality of optionals *)
Definition same {A : Type} (eq : A -> A -> bool) (x y : option A) : bool :=
  match x, y with
  | None, None => true
  | Some a, Some b => eq a b
  | _, _ => false
  end.
