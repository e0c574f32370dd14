(** Model of include/gul14/finalizer.h.

    A program fragment is a list of operations on named FinalAction objects.  An action is
    identified by a number.  Simplifications: the action's call itself is atomic, returns
    normally (the destructor is noexcept, so an exception would end the program) and does
    not operate on FinalAction objects. *)
From Verif Require Import Base.

(** finalizer.h:104-108: the members.  [action = None] is a closure that was moved
    from. *)
Record final_action : Type := FA { action : option nat; invoke : bool }.

(** finalizer.h:122-124 FinalAction(F f). *)
Definition fa_ctor (f : option nat) : final_action := FA f true.

(** finalizer.h:126-132 move constructor: the new object and the new state of the
    source. *)
Definition fa_move_ctor (other : final_action) : final_action * final_action :=
  (FA (action other) (invoke other), FA None false).

(** finalizer.h:136-139 the body of move assignment for this != &other: the new states of
    target and source. *)
Definition fa_move_assign (this other : final_action) : final_action * final_action :=
  (FA (action other) (invoke other), FA None false).

(** finalizer.h:150-153 the destructor: the action it runs, if any.  Calling a closure
    that was moved from is undefined here (for std::function it throws out of a noexcept
    function). *)
Definition fa_dtor (x : final_action) : outcome (list nat) :=
  if invoke x then match action x with Some f => Ok [f] | None => UB end else Ok [].

(** finalizer.h:167-170 finally(f): the parameter is moved into the FinalAction whether
    the argument was an lvalue or an rvalue (std::forward is given the decayed type).
    The result and the new state of the caller's closure. *)
Definition finally_ (f : option nat) : final_action * option nat := (fa_ctor f, None).

(** Operations of a program on its FinalAction variables. *)
Inductive op : Type :=
| OCtor (x f : nat)        (* FinalAction x{f}, or auto x = finally(f) *)
| OMoveCtor (x y : nat)    (* FinalAction x{std::move(y)} *)
| OMoveAssign (x y : nat)  (* x = std::move(y) *)
| ODestroy (x : nat).      (* end of x's lifetime *)

(** The live objects by name and the actions executed so far, oldest first. *)
Record state : Type := State { objs : list (nat * final_action); log : list nat }.

Definition init : state := State [] [].

Fixpoint lookup (x : nat) (l : list (nat * final_action)) : option final_action :=
  match l with
  | [] => None
  | (y, o) :: r => if Nat.eqb x y then Some o else lookup x r
  end.
Fixpoint update (x : nat) (o : final_action) (l : list (nat * final_action))
  : list (nat * final_action) :=
  match l with
  | [] => []
  | (y, p) :: r => if Nat.eqb x y then (y, o) :: r else (y, p) :: update x o r
  end.
Fixpoint remove (x : nat) (l : list (nat * final_action)) : list (nat * final_action) :=
  match l with
  | [] => []
  | (y, p) :: r => if Nat.eqb x y then r else (y, p) :: remove x r
  end.

(** One operation.  [None]: not a program (a dead or duplicate name). *)
Definition step (s : state) (o : op) : option (outcome state) :=
  match o with
  | OCtor x f =>
      match lookup x (objs s) with
      | Some _ => None
      | None => Some (Ok (State ((x, fa_ctor (Some f)) :: objs s) (log s)))
      end
  | OMoveCtor x y =>
      match lookup x (objs s), lookup y (objs s) with
      | None, Some other =>
          let '(this, other') := fa_move_ctor other in
          Some (Ok (State ((x, this) :: update y other' (objs s)) (log s)))
      | _, _ => None
      end
  | OMoveAssign x y =>
      match lookup x (objs s), lookup y (objs s) with
      | Some this, Some other =>
          if Nat.eqb x y then Some (Ok s)
          else
            let '(this', other') := fa_move_assign this other in
            Some (Ok (State (update y other' (update x this' (objs s))) (log s)))
      | _, _ => None
      end
  | ODestroy x =>
      match lookup x (objs s) with
      | Some this =>
          match fa_dtor this with
          | Ok r => Some (Ok (State (remove x (objs s)) (log s ++ r)))
          | Throw e => Some (Throw e)
          | UB => Some UB
          | Diverge => Some Diverge
          end
      | None => None
      end
  end.

(** A whole program. *)
Fixpoint exec (s : state) (ops : list op) : option (outcome state) :=
  match ops with
  | [] => Some (Ok s)
  | o :: r =>
      match step s o with
      | Some (Ok s') => exec s' r
      | other => other
      end
  end.
