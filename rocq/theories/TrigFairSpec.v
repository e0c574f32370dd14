(** Trigger: infinite executions in which no thread is neglected for ever. *)
From Coq Require Import ZArith List Bool.
From Verif Require Import TrigModel TrigSpec.
Import ListNotations.
Local Open Scope nat_scope.

(** An infinite execution of the calls of a trigger that is constructed with the state b0 *)
Definition runs (b0 : bool) (r : nat -> st) (ev : nat -> label) : Prop :=
  r 0 = initial b0 /\ forall i, step (r i) (ev i) (r (S i)).
(** the first n events, newest first *)
Fixpoint upto (ev : nat -> label) (n : nat) : list label := match n with 0 => [] | S n' => ev n' :: upto ev n' end.
(** Thread t is in a call and not blocked: it waits neither for the mutex, nor for a notification,
    nor for a time in the future, and it does not have to access the destroyed object. *)
Definition able (s : st) (t : nat) : Prop :=
  (accessing (pc s t) = true -> dead s = false) /\
  match pc s t with
  | PIdle => False
  | SLock _ _ | GLock | WLock _ | WWake _ _ => mtx s = None
  | WBlocked _ (Some (c, d)) => (d <= now c s)%Z
  | WBlocked _ None => False
  | _ => True
  end.
(** Fair scheduling: a thread that is able to go on again and again does go on.  (For the mutex:
    a thread that waits for it gets it at some time, if it becomes free again and again.) *)
Definition fair (r : nat -> st) : Prop :=
  forall t i, exists j, i <= j /\ (pc (r (S j)) t <> pc (r j) t \/ forall k, j <= k -> ~ able (r k) t).
(** The object is not accessed after its destruction *)
Definition lasting (r : nat -> st) : Prop := forall j t, accessing (pc (r j) t) = true -> dead (r j) = false.
(** std::condition_variable::wait_until reports the time-out when the time is over.  (The model
    allows no_timeout in any case.) *)
Definition timely (r : nat -> st) : Prop :=
  forall i t o c d, pc (r i) t = WCheck o (Some (c, d)) -> (d <= now c (r i))%Z -> pc (r (S i)) t <> WTest o (Some (c, d)).
(** The time given to the call passes: a time point is reached and its clock is not set back before
    it; for a time span, the steady clock advances without end. *)
Definition time_passes (ev : nat -> label) (o : op) : Prop :=
  match o with
  | OUntil c d => exists n, forall j, n <= j -> (d <= clock_of c (upto ev j))%Z
  | OFor _ | OSleep _ => forall x, exists n, (x <= clock_of Steady (upto ev n))%Z
  | _ => False
  end.
(** the calls that wait for the trigger *)
Definition is_wait (o : op) : bool := match o with OWait | OFor _ | OUntil _ _ | OSleep _ => true | _ => false end.
