(** C85: limits of a thread pool, and what a new one looks like. *)
From Coq Require Import ZArith List.
From Verif Require Import Base PoolModel.
Import ListNotations.
Local Open Scope Z_scope.

(** The documented limits *)
Definition legal (num_threads capacity : nat) : Prop :=
  (1 <= num_threads)%nat /\ Z.of_nat num_threads <= 10000 /\ (1 <= capacity)%nat /\ Z.of_nat capacity <= 10000000.
(** A pool that has just been created: no tasks, one owner, the given number of threads *)
Definition new_pool (num_threads capacity : nat) (s : st) : Prop :=
  nw s = num_threads /\ cap s = capacity /\ pending s = [] /\ rids s = [] /\ shut s = false /\ freed s = false /\ owners s = 1%nat /\
  (forall k, (k < num_threads)%nat -> wk s k = WInit).
