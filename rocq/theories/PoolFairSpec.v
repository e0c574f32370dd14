(** ThreadPool: infinite executions in which no thread is neglected for ever. *)
From Coq Require Import ZArith List Bool.
From Verif Require Import Base PoolModel.
Import ListNotations.
Local Open Scope nat_scope.

(** An infinite execution of a pool with n workers and capacity c: the states and the events.
    (Nothing happens in a step that sets the clock to the time it already shows.) *)
Definition runs (n c : nat) (r : nat -> st) (ev : nat -> label) : Prop :=
  construct n c = Ok (r 0) /\ forall i, step (r i) (ev i) (r (S i)).
(** Thread t is inside of the thread pool and not blocked: it waits neither for the mutex, nor for a
    notification or a time in the future, nor for the end of another thread, and it does not
    execute code of the user. *)
Definition able (s : st) (t : nat) : Prop :=
  match stk s t with
  | CLock _ :: _ | DLock :: _ => mtx s = None
  | DJoin k :: _ => nw s <= k \/ k = t \/ wk s k = WExit
  | DTerm :: _ => False
  | _ :: _ => True
  | [] => t < nw s /\
      match wk s t with
      | WInit | WWake | WDone _ => mtx s = None
      | WWait (Some d) => (d <= clock s)%Z
      | WWait None | WRun _ | WExit => False
      | _ => True
      end
  end.
(** the thread goes on to the next statement *)
Definition advances (s s' : st) (t : nat) : Prop := stk s' t <> stk s t \/ wk s' t <> wk s t.
(** Fair scheduling: a thread that is able to go on again and again does go on.  (For the mutex:
    a thread that waits for it gets it at some time, if it becomes free again and again.) *)
Definition fair (r : nat -> st) : Prop :=
  forall t i, exists j, i <= j /\ (advances (r j) (r (S j)) t \/ forall k, j <= k -> ~ able (r k) t).
(** the functions executed by the tasks return *)
Definition tasks_return (n : nat) (r : nat -> st) : Prop :=
  forall w id i, w < n -> wk (r i) w = WRun id -> exists j, i <= j /\ wk (r j) w <> WRun id.
(** cancel_pending_task or cancel_pending_tasks removes the task from the queue *)
Definition cancels (l : label) (id : Z) : Prop := exists t, l = LCancel t id true \/ exists m, l = LClear t m.
