(** Specification of variant: each variable is unused, valueless, or holds a value of one of
    the alternatives.  Nothing here refers to stored indices, unions or lifetimes. *)
From Coq Require Import PeanoNat.
From Verif Require Import Base VtModel.

(** The calls on variables number i and j. *)
Inductive vop (A : Type) :=
| NewDefault (i : nat) (nt : bool)
| New (i k : nat) (a : @arg A)               (* from a value, or in place *)
| NewCopy (i j : nat) | NewMove (i j : nat)
| Delete (i : nat)                           (* end of lifetime *)
| AssignCopy (i j : nat) | AssignMove (i j : nat)
| Assign (i k : nat) (a : @arg A)            (* from a value *)
| Emplace (i k : nat) (a : @arg A)
| Write (i k : nat) (a : @arg A)             (* get<k>(i) = a *)
| Swap (i j : nat).
Arguments NewDefault {A}. Arguments New {A}. Arguments NewCopy {A}. Arguments NewMove {A}.
Arguments Delete {A}. Arguments AssignCopy {A}. Arguments AssignMove {A}. Arguments Assign {A}.
Arguments Emplace {A}. Arguments Write {A}. Arguments Swap {A}.

(** The properties of element types that C++ guarantees: trivial operations do not throw, a
    trivially constructible type is trivially destructible, a trivial move changes nothing.
    All alternatives can be destroyed.  No variant has 2^32 - 1 alternatives. *)
Definition coherent_alt {A} (mv : A -> A) (t : alt_ty) : Prop :=
  (copy_c t = Trivially -> nt_copy t = true /\ destr t = Trivially) /\
  (move_c t = Trivially -> nt_move t = true /\ destr t = Trivially /\ forall x, mv x = x) /\
  (copy_a t = Trivially -> nt_copy_assign t = true) /\
  (move_a t = Trivially -> nt_move_assign t = true /\ forall x, mv x = x) /\
  destr t <> Unavailable.
Definition coherent {A} (mv : nat -> A -> A) (ts : list alt_ty) : Prop :=
  (0 < Z.of_nat (length ts) < 2 ^ 32 - 1)%Z /\
  forall k t, nth_error ts k = Some t -> coherent_alt (mv k) t.

Section Spec.
Context {A : Type} (mv : nat -> A -> A) (dflt : A) (ts : list alt_ty).

(** [None]: valueless; [Some (k, x)]: alternative k with value x *)
Definition content : Type := option (nat * A).
(** [None]: no object *)
Definition world : Type := list (option content).
Definition see (w : world) (i : nat) : option content :=
  match nth_error w i with Some v => v | None => None end.
Definition free (w : world) (i : nat) : bool :=
  match nth_error w i with Some None => true | _ => false end.
Definition upd (w : world) (i : nat) (v : option content) : world :=
  firstn i w ++ v :: skipn (S i) w.
Definition obind {X Y} (x : option X) (f : X -> option Y) : option Y :=
  match x with Some v => f v | None => None end.

(** Evaluation of an argument for alternative k: its value, and the world in which a variant
    may have been moved from *)
Definition eval (w : world) (k : nat) (a : arg) : option (A * world) :=
  match a with
  | Val _ _ x => Some (x, w)
  | Copy (Var j) =>
      match see w j with Some (Some (k', x)) => if Nat.eqb k k' then Some (x, w) else None | _ => None end
  | Move (Var j) =>
      match see w j with
      | Some (Some (k', x)) => if Nat.eqb k k' then Some (x, upd w j (Some (Some (k, mv k x)))) else None
      | _ => None
      end
  | Ref _ _ j => match see w j with Some (Some (_, x)) => Some (x, w) | _ => None end
  | Copy Tmp | Move Tmp => None
  end.
(** The argument refers to the value of variable i. *)
Definition refers (a : @arg A) (i : nat) : bool :=
  match a with Copy (Var j) | Move (Var j) | Ref _ _ j => Nat.eqb i j | _ => false end.
Definition moved (v : content) : content := match v with Some (k, x) => Some (k, mv k x) | None => None end.
Definition holds_alt (v : content) (k : nat) : bool :=
  match v with Some (k', _) => Nat.eqb k k' | None => false end.

(** Calls that the declarations admit: every alternative must have the operations needed. *)
Definition has_op (f : alt_ty -> trait) : bool :=
  forallb (fun t => match f t with Unavailable => false | _ => true end) ts.
Definition viable (op : vop A) : bool :=
  match op with
  | NewCopy _ _ => has_op copy_c
  | NewMove _ _ => has_op move_c
  | AssignCopy _ _ => has_op copy_c && has_op copy_a
  | AssignMove _ _ => has_op move_c && has_op move_a
  | Swap _ _ => has_op move_c
  | _ => true
  end.

(** The new world; [None] when a precondition is violated: a variable that does not (or
    does) hold an object, a number that is no alternative, access to a value that is not
    there, or replacing a value by one made from a reference to the old one. *)
Definition meaning (w : world) (op : vop A) : option world :=
  if negb (viable op) then None else
  match op with
  | NewDefault i nt => if free w i then Some (upd w i (Some (Some (0, dflt)))) else None
  | New i k a =>
      if free w i && (k <? length ts)%nat
      then obind (eval w k a) (fun r => Some (upd (snd r) i (Some (Some (k, fst r))))) else None
  | NewCopy i j => if free w i then obind (see w j) (fun v => Some (upd w i (Some v))) else None
  | NewMove i j =>
      if free w i
      then obind (see w j) (fun v => Some (upd (upd w j (Some (moved v))) i (Some v)))
      else None
  | Delete i => obind (see w i) (fun _ => Some (upd w i None))
  | AssignCopy i j =>
      obind (see w i) (fun _ => obind (see w j) (fun v => Some (upd w i (Some v))))
  | AssignMove i j =>
      obind (see w i) (fun _ => obind (see w j) (fun v =>
        Some (upd (upd w j (Some (moved v))) i (Some v))))
  | Assign i k a =>
      obind (see w i) (fun v =>
        if (k <? length ts)%nat && (holds_alt v k || negb (refers a i))
        then obind (eval w k a) (fun r => Some (upd (snd r) i (Some (Some (k, fst r))))) else None)
  | Emplace i k a =>
      obind (see w i) (fun _ =>
        if (k <? length ts)%nat && negb (refers a i)
        then obind (eval w k a) (fun r => Some (upd (snd r) i (Some (Some (k, fst r))))) else None)
  | Write i k a =>
      obind (see w i) (fun v =>
        if holds_alt v k
        then obind (eval w k a) (fun r => Some (upd (snd r) i (Some (Some (k, fst r))))) else None)
  | Swap i j =>
      obind (see w i) (fun v => obind (see w j) (fun u => Some (upd (upd w i (Some u)) j (Some v))))
  end.
Fixpoint meanings (w : world) (ops : list (vop A)) : option world :=
  match ops with
  | [] => Some w
  | op :: r => obind (meaning w op) (fun w' => meanings w' r)
  end.

(** m unused variables *)
Definition none (m : nat) : world := repeat None m.
Definition start (m : nat) (g : option nat) : @state A := State (repeat None m) None 0 0 g.

(** The same calls on the model *)
Definition call (op : vop A) (s : state) : res unit :=
  match op with
  | NewDefault i nt => ctor_default mv dflt ts i nt s
  | New i k a => ctor_in_place mv ts i k a s
  | NewCopy i j => ctor_copy mv ts (Var i) (Var j) s
  | NewMove i j => ctor_move mv ts (Var i) (Var j) s
  | Delete i => dtor ts (Var i) s
  | AssignCopy i j => assign_copy mv ts (Var i) (Var j) s
  | AssignMove i j => assign_move mv ts (Var i) (Var j) s
  | Assign i k a => assign mv ts i k a s
  | Emplace i k a => emplace mv ts (Var i) k a s
  | Write i k a => write mv ts i k a s
  | Swap i j => swap mv ts i j s
  end.
Fixpoint calls (ops : list (vop A)) (s : state) : res unit :=
  match ops with
  | [] => Done s tt
  | op :: r => match call op s with Done s' _ => calls r s' | other => other end
  end.

(** What a user can observe of a variant: index() and the value; [None] if index() is no
    alternative, or not the one in the storage *)
Definition observe (o : @vobj A) : option content :=
  if (index ts o =? npos)%Z then Some None
  else match get_ ts o (Z.to_nat (index ts o)) with Ok x => Some (Some (Z.to_nat (index ts o), x)) | _ => None end.
Definition view (s : @state A) : world :=
  map (fun v => match v with Some o => observe o | None => None end) (vars s).

(** The number of values alive inside the variables *)
Definition holds (v : option content) : nat := match v with Some (Some _) => 1 | _ => 0 end.
Definition alive (w : world) : nat := list_sum (map holds w).

Definition with_budget (g : option nat) (s : @state A) : state := State (vars s) (tmp s) (made s) (gone s) g.
(** States a program can get into when calls may throw and the program carries on after
    catching the exception *)
Inductive reach (m : nat) : state -> Prop :=
| reach_start g : reach m (start m g)
| reach_call s g op s' :
    reach m s -> meaning (view s) op <> None ->
    (call op (with_budget g s) = Done s' tt \/ call op (with_budget g s) = Thrown s') ->
    reach m s'.

(** What a call that throws leaves behind. *)
Definition nothrow_move (v : content) : bool :=
  match v with Some (k, _) => nt_move (ty ts k) | None => true end.
Definition same_alt (v u : content) : bool :=
  match v, u with Some (k, _), Some (k', _) => Nat.eqb k k' | None, None => true | _, _ => false end.
(** Replacing a value by one of another alternative k leaves the variant valueless, unless
    moving values of alternative k cannot throw. *)
Definition replace_failed (w : world) (i k : nat) : world :=
  match see w i with
  | Some v => if holds_alt v k || nt_move (ty ts k) then w else upd w i (Some None)
  | None => w
  end.
Definition after_throw (w : world) (op : vop A) (w' : world) : Prop :=
  match op with
  | Emplace i _ _ => w' = upd w i (Some None)
  | AssignCopy i j | AssignMove i j =>
      match see w j with Some (Some (k, _)) => w' = replace_failed w i k | _ => False end
  | Assign i k _ => w' = replace_failed w i k
  | Swap i j =>
      match see w i, see w j with
      | Some v, Some u =>
          w' = w \/
          (if same_alt v u
           then w' = upd w i (Some (moved v)) \/ w' = upd (upd w i (Some u)) j (Some (moved u))
           else nothrow_move v = false /\ nothrow_move u = false /\
                (w' = upd w j (Some None) \/ w' = upd (upd w i (Some None)) j (Some v)))
      | _, _ => False
      end
  | _ => w' = w
  end.

(** The element types and the arguments throw nothing. *)
Definition quiet (op : vop A) : bool :=
  match op with
  | NewDefault _ nt => nt
  | New _ k a | Emplace _ k a => ntc ts k a
  | Assign _ k a => ntc ts k a && nta ts k a
  | Write _ k a => nta ts k a
  | _ => true
  end.
Definition all_noexcept : bool :=
  forallb (fun t => nt_copy t && nt_move t && nt_copy_assign t && nt_move_assign t) ts.

(** Comparison: the valueless state is less than everything, then the alternatives in
    order, then their values. *)
Definition content_eq (eq : nat -> A -> A -> bool) (u v : content) : bool :=
  match u, v with
  | None, None => true
  | Some (k, x), Some (k', y) => Nat.eqb k k' && eq k x y
  | _, _ => false
  end.
Definition content_lt (lt : nat -> A -> A -> bool) (u v : content) : bool :=
  match u, v with
  | _, None => false
  | None, Some _ => true
  | Some (k, x), Some (k', y) => (k <? k')%nat || Nat.eqb k k' && lt k x y
  end.

(** The object of a variant of type [ts] with a content; index_ is an unsigned number. *)
Definition is_variant (o : @vobj A) (v : content) : Prop :=
  (0 <= idx o < 2 ^ index_bits ts)%Z /\ observe o = Some v /\
  match v with Some (k, _) => k < length ts | None => True end.
End Spec.

(** Variants of any types with their contents *)
Definition variants {A} (vs : list (list alt_ty * @vobj A)) (cs : list (@content A)) : Prop :=
  Forall2 (fun p v => (exists mv : nat -> A -> A, coherent mv (fst p)) /\ is_variant (fst p) (snd p) v) vs cs.
Fixpoint all_some {X} (l : list (option X)) : option (list X) :=
  match l with
  | [] => Some []
  | None :: _ => None
  | Some x :: r => obind (all_some r) (fun l' => Some (x :: l'))
  end.
(** No variable is valueless. *)
Definition no_valueless {A} (w : @world A) : Prop := forall i, see w i <> Some None.

(** Exactly one type matches, at place i. *)
Definition unique_at (m : list bool) (i : nat) : Prop :=
  nth_error m i = Some true /\ forall j, nth_error m j = Some true -> j = i.
