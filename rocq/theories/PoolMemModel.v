(** src/ThreadPool.cc:239-240: memory runs out in a worker thread.  (Memory that runs out in a call
    of add_task, get_pending_task_names or get_running_task_names is part of PoolModel.) *)
From Coq Require Import List.
From Verif Require Import Base PoolModel.

(** ThreadPool.cc:239-240: running_task_ids_.push_back(id) or running_task_names_.push_back(name)
    throws std::bad_alloc.  No handler is active (the try block begins at 244), so the exception leaves
    perform_work() and with it the function of the thread: std::terminate is called and the
    process ends.  [aborts s w k]: this may happen in state s, to worker w, with task k. *)
Inductive aborts (s : st) (w : nat) (k : task) : Prop :=
| w_abort : w < nw s -> wk s w = WReg k -> aborts s w k.
