(** Specification of Trigger: what the events of an execution (newest first) say about the state
    of the trigger, the clocks, and the calls in progress. *)
From Coq Require Import ZArith List Bool.
From Verif Require Import TrigModel.
Import ListNotations.
Local Open Scope Z_scope.

(** the state of the trigger: the value that was set last *)
Fixpoint value (b0 : bool) (tr : list label) : bool :=
  match tr with [] => b0 | LSet _ b :: _ => b | _ :: tr' => value b0 tr' end.
Definition same_clk (c c' : clk) : bool := match c, c' with Steady, Steady | System, System => true | _, _ => false end.
Fixpoint clock_of (c : clk) (tr : list label) : Z :=
  match tr with [] => 0 | LTick c' x :: tr' => if same_clk c c' then x else clock_of c tr' | _ :: tr' => clock_of c tr' end.
(** the call that thread t is executing *)
Fixpoint in_call (t : nat) (tr : list label) : option op :=
  match tr with
  | [] => None
  | LCall t' o :: tr' => if Nat.eqb t' t then Some o else in_call t tr'
  | LRet t' _ _ :: tr' => if Nat.eqb t' t then None else in_call t tr'
  | _ :: tr' => in_call t tr'
  end.
(** thread t is blocked on the condition variable *)
Fixpoint blocked (t : nat) (tr : list label) : bool :=
  match tr with
  | [] => false
  | LBlock t' :: tr' => Nat.eqb t' t || blocked t tr'
  | LWake t' :: tr' => negb (Nat.eqb t' t) && blocked t tr'
  | LNotify _ :: _ => false
  | _ :: tr' => blocked t tr'
  end.
(** histories of a trigger that is constructed with the state b0 *)
Definition history (b0 : bool) (tr : list label) : Prop := exists s, exec (initial b0) tr s.
(** The moment after the events [h] lies within the call of [o] that is the last one made by thread t in [tr]. *)
Definition during (t : nat) (o : op) (tr h : list label) : Prop :=
  exists a b d, tr = a ++ h /\ h = b ++ LCall t o :: d /\ (forall o', ~ In (LCall t o') (a ++ b)).
(** at some moment during the call the clock had reached the deadline *)
Definition expired (t : nat) (o : op) (tr : list label) (c : clk) (d : Z) : Prop := exists h, during t o tr h /\ d <= clock_of c h.
(** during the call at least [dur] has passed *)
Definition elapsed (t : nat) (o : op) (tr : list label) (dur : Z) : Prop :=
  exists h1 h2 g, during t o tr h1 /\ during t o tr h2 /\ h2 = g ++ h1 /\ clock_of Steady h1 + dur <= clock_of Steady h2.
(** neither the beginning of a call, nor a reset, nor a spurious wake-up or a time-out *)
Definition calm (l : label) : bool := match l with LCall _ _ | LSet _ false | LWake _ | LTick _ _ => false | _ => true end.
(** number of statements that a thread in a waiting call has to execute when the trigger is set *)
Definition wrank (p : point) : nat :=
  match p with
  | WLock _ => 9 | WClock _ => 8 | WBlock _ _ => 8 | WBlocked _ _ => 7 | WWake _ _ => 6 | WCheck _ _ => 5
  | WTest _ _ => 4 | WLast _ => 4 | WRel _ _ => 3 | WRet _ _ => 2 | _ => 0
  end.
Definition waiting (p : point) : bool := match p with PIdle | SLock _ _ | SWrite _ _ | SRel _ _ | SNote _ | SRet _ | GLock | GRead | GRel _ | GRet _ => false | _ => true end.
(** program points of a reset that has not taken effect yet *)
Definition resetting (p : point) : bool := match p with SLock _ false | SWrite _ false => true | _ => false end.
(** program points between locking and unlocking the mutex *)
Definition hold (p : point) : bool :=
  match p with SWrite _ _ | SRel _ _ | GRead | GRel _ | WClock _ | WTest _ _ | WBlock _ _ | WCheck _ _ | WLast _ | WRel _ _ => true | _ => false end.
