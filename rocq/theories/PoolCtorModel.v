(** src/ThreadPool.cc:51-66: the constructor of ThreadPool when the system may refuse to start a
    thread (std::thread's constructor throws std::system_error). *)
From Coq Require Import ZArith List Bool.
From Verif Require Import Base PoolModel.
Import ListNotations.
Local Open Scope Z_scope.

(** What the call of make_shared ends with *)
Inductive made :=
| Made (s : st)                (* the pool *)
| Refused (e : exn)            (* an exception left the constructor *)
| NoThread                     (* std::system_error left the constructor *)
| Terminated.                  (* std::terminate was called *)

(** Destruction of the vector threads_, which holds [started] threads, because an exception leaves
    the constructor (the destructor of ThreadPool does not run, as there is no complete object):
    the destructor of a std::thread that has neither been joined nor detached calls
    std::terminate.  No thread of the pool has been joined. *)
Definition unwind (started : nat) : made := match started with O => NoThread | S _ => Terminated end.
(** ThreadPool.cc:63-65: while (threads_.size() < num_threads) threads_.emplace_back(...), with
    [todo] threads still to be started; [granted k] says if the system starts the k-th thread *)
Fixpoint start_threads (granted : nat -> bool) (started todo : nat) (done : made) : made :=
  match todo with
  | O => done
  | S todo' => if granted started then start_threads granted (S started) todo' done else unwind started
  end.
(** ThreadPool.cc:51-66, 179-184 (make_shared) *)
Definition make_shared (granted : nat -> bool) (num_threads capacity : nat) : made :=
  match construct num_threads capacity with
  | Ok s => start_threads granted 0 num_threads (Made s)
  | Throw e => Refused e
  | _ => Terminated
  end.
