(** Vocabulary of the FinalAction properties. *)
From Verif Require Import Base FinModel.

(** The actions handed to a FinalAction constructor, in program order. *)
Fixpoint registered (ops : list op) : list nat :=
  match ops with
  | [] => []
  | OCtor _ f :: r => f :: registered r
  | _ :: r => registered r
  end.

(** Ownership, independently of the implementation: which variable owns which action.
    Construction makes the new variable the owner, moving passes the ownership on, and
    assigning to a variable that owns an action drops that action. *)
Definition owners := nat -> option nat.
Definition none : owners := fun _ => None.
Definition put (w : owners) (x : nat) (a : option nat) : owners :=
  fun z => if Nat.eqb z x then a else w z.

Definition transfer (w : owners) (o : op) : owners :=
  match o with
  | OCtor x f => put w x (Some f)
  | OMoveCtor x y => put (put w y None) x (w y)
  | OMoveAssign x y => if Nat.eqb x y then w else put (put w y None) x (w y)
  | ODestroy x => put w x None
  end.
(** The owners after a program. *)
Fixpoint owners_after (w : owners) (ops : list op) : owners :=
  match ops with
  | [] => w
  | o :: r => owners_after (transfer w o) r
  end.

Definition given (a : option nat) : list nat :=
  match a with Some f => [f] | None => [] end.

(** The actions owned by a variable that is destroyed, in the order of destruction. *)
Fixpoint due (w : owners) (ops : list op) : list nat :=
  match ops with
  | [] => []
  | o :: r =>
      (match o with ODestroy x => given (w x) | _ => [] end) ++ due (transfer w o) r
  end.

(** The actions owned by a variable that is overwritten by a move assignment. *)
Fixpoint dropped (w : owners) (ops : list op) : list nat :=
  match ops with
  | [] => []
  | o :: r =>
      (match o with
       | OMoveAssign x y => if Nat.eqb x y then [] else given (w x)
       | _ => []
       end) ++ dropped (transfer w o) r
  end.

(** No variable that owns an action is ever the target of a move assignment from another
    variable. *)
Definition never_overwritten (ops : list op) : Prop := dropped none ops = [].
