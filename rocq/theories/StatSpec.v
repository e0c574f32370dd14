(** Specification of the statistics functions in terms of counting and real numbers. *)
From Coq Require Import List Bool Reals.
Import ListNotations.

Section Order.
Context {D : Type} (lt : D -> D -> bool).
Definition count (p : D -> bool) (l : list D) : nat := length (filter p l).
(** x is an element with k places below it: at most k elements are less than x, and more than k
    are not greater than x.  (x is the element at index k of the sorted container.) *)
Definition ranked (l : list D) (k : nat) (x : D) : Prop :=
  In x l /\ (count (fun y => lt y x) l <= k)%nat /\ (k < count (fun y => negb (lt x y)) l)%nat.
End Order.

(** [deletes ok n l l']: l' results from l by deleting n elements, one after the other; each
    deleted element x satisfies [ok c x], where c is the content just before the deletion.  The
    other elements stay where they are. *)
Inductive deletes {E} (ok : list E -> E -> Prop) : nat -> list E -> list E -> Prop :=
| deletes_none l : deletes ok 0 l l
| deletes_one n l1 x l2 l' : ok (l1 ++ x :: l2) x -> deletes ok n (l1 ++ l2) l' -> deletes ok (S n) (l1 ++ x :: l2) l'.

(** Sums of real numbers *)
Fixpoint Rsum (l : list R) : R := match l with [] => 0%R | x :: l' => (x + Rsum l')%R end.
Definition Rmean (l : list R) : R := (Rsum l / INR (length l))%R.
Definition Rsquares (l : list R) : list R := map (fun x => (x * x)%R) l.
(** Corrected sample variance *)
Definition Rvariance (l : list R) : R := (Rsum (map (fun x => (x - Rmean l) * (x - Rmean l)) l) / INR (length l - 1))%R.
