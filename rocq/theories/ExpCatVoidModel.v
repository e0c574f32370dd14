(** Model of the value categories in include/gul14/expected.h for T = void (and the error type of
    ExpCatModel.v): an object has an error or nothing.  Callables for the value take no argument.
    operator*, value() and value_or do not exist. *)
From Verif Require Import Base ExpModel ExpCatModel.

Section Void.
Context {W X B : Type} (E : ctors W X B).
Notation comp := (comp (W:=W) (X:=X) (A:=unit) (B:=B)).
(** expected.h:798-852, 866-873 and 895-903: copy or move construction from the object;
    construct_with does nothing but to set the flag, construct_error is noexcept. *)
Definition void_whole (c : cat) : comp (@ex unit B) :=
  if_value (ret (of_val tt))
           (bind (noexcept_ (with_error c (make E c))) (fun e => ret (of_err e))).
(** expected.h:1951-1959 and_then *)
Definition void_and_then {C} (c : cat) (f : W -> W * (@ex C B + X)) : comp (@ex C B) :=
  if_value (outside f) (pass_error E c).
(** expected.h:1988-1996 map, transform; [conv] constructs the new value from the result. *)
Definition void_map {R C} (c : cat) (f : W -> W * (R + X)) (conv : R -> W -> W * (C + X)) : comp (@ex C B) :=
  if_value (bind (outside f) (fun r => bind (outside (conv r)) (fun y => ret (of_val y))))
           (pass_error E c).
(** expected.h:1998-2010 map of a callable that returns void *)
Definition void_map_void (c : cat) (f : W -> W * (unit + X)) : comp (@ex unit B) :=
  if_value (bind (outside f) (fun _ => ret (of_val tt))) (pass_error E c).
(** expected.h:2039-2050 map_error, transform_error *)
Definition void_map_error {R D} (c : cat) (f : callable B R) (conv : R -> W -> W * (D + X)) : comp (@ex unit D) :=
  if_value (ret (of_val tt))
           (bind (with_error c (f c)) (fun r => bind (outside (conv r)) (fun y => ret (of_err y)))).
(** expected.h:2051-2064 map_error of a callable that returns void *)
Definition void_map_error_void (c : cat) (f : callable B unit) : comp (@ex unit unit) :=
  if_value (ret (of_val tt)) (bind (with_error c (f c)) (fun _ => ret (of_err tt))).
(** expected.h:2126-2144 or_else, also of a callable that returns void *)
Definition void_or_else (c : cat) (f : callable B (@ex unit B)) : comp (@ex unit B) :=
  if_value (void_whole c) (with_error c (f c)).
Definition void_or_else_void (c : cat) (f : callable B unit) : comp (@ex unit B) :=
  if_value (void_whole c) (bind (with_error c (f c)) (fun _ => void_whole c)).
(** E e(x.error()), expected.h:1903-1918 *)
Definition void_init_from_error (c : cat) : comp B := with_error c (make E c).
End Void.
