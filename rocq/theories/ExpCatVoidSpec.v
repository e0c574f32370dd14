(** Specification for the value categories of expected<void, E>: the list of calls and their meaning. *)
From Verif Require Import Base ExpModel ExpCatModel ExpCatVoidModel.

Section Spec.
Context {W X B C D R R' : Type}.
Inductive vcall :=
| VAndThen (f : W -> W * (@ex C B + X))
| VMap (f : W -> W * (R + X)) (conv : R -> W -> W * (C + X))
| VMapVoid (f : W -> W * (unit + X))
| VMapError (f : callable (W:=W) (X:=X) B R') (conv : R' -> W -> W * (D + X))
| VMapErrorVoid (f : callable (W:=W) (X:=X) B unit)
| VOrElse (f : callable (W:=W) (X:=X) B (@ex unit B))
| VOrElseVoid (f : callable (W:=W) (X:=X) B unit)
| VInitError.
Definition vanswer (m : vcall) : Type :=
  match m with
  | VAndThen _ | VMap _ _ => @ex C B
  | VMapVoid _ | VOrElse _ | VOrElseVoid _ => @ex unit B
  | VMapError _ _ => @ex unit D
  | VMapErrorVoid _ => @ex unit unit
  | VInitError => B
  end.
Definition vrun (E : ctors W X B) (c : cat) (m : vcall) :
  @ex unit B -> W -> @ex unit B * W * res X B (vanswer m) :=
  match m with
  | VAndThen f => void_and_then E c f
  | VMap f conv => void_map E c f conv
  | VMapVoid f => void_map_void E c f
  | VMapError f conv => void_map_error c f conv
  | VMapErrorVoid f => void_map_error_void c f
  | VOrElse f => void_or_else E c f
  | VOrElseVoid f => void_or_else_void E c f
  | VInitError => void_init_from_error E c
  end.

(** The object with this error, or without *)
Definition vholding (v : option B) : @ex unit B := match v with Some e => of_err e | None => of_val tt end.
(** The callable does not change what it is given a reference to. *)
Definition vreads_only (c : cat) (m : vcall) : Prop :=
  let untouched {Y} (f : callable (W:=W) (X:=X) B Y) := forall t w, fst (fst (f c t w)) = t in
  match m with
  | VMapError f _ => untouched f | VMapErrorVoid f => untouched f
  | VOrElse f => untouched f | VOrElseVoid f => untouched f
  | _ => True
  end.
(** For an error type whose copies and moves succeed (a move leaves [left e] behind): the error of the
    object after the call, the world and the answer. *)
Definition vmeaning (left : B -> B) (c : cat) (m : vcall) (v : option B) (w : W) :
  option B * W * res X B (vanswer m) :=
  let passed e := match c with Rvalue => Some (left e) | _ => Some e end in
  let seen e e' := if constant c then e else e' in
  let either {Y Z} (r : W * (Y + X)) (k : Y -> Z) : option B * W * res X B Z :=
    match r with (w', inl y) => (v, w', Value (k y)) | (w', inr x) => (v, w', Throws (User x)) end in
  match m, v with
  | VAndThen f, None => either (f w) (fun y => y)
  | VMap f conv, None =>
      match f w with (w', inl r) => either (conv r w') of_val | (w', inr x) => (v, w', Throws (User x)) end
  | VMapVoid f, None => either (f w) (fun _ => of_val tt)
  | VAndThen _, Some e => (passed e, w, Value (of_err e))
  | VMap _ _, Some e => (passed e, w, Value (of_err e))
  | VMapVoid _, Some e => (passed e, w, Value (of_err e))
  | VMapError _ _, None => (v, w, Value (of_val tt))
  | VMapErrorVoid _, None => (v, w, Value (of_val tt))
  | VOrElse _, None => (v, w, Value (of_val tt))
  | VOrElseVoid _, None => (v, w, Value (of_val tt))
  | VMapError f conv, Some e =>
      match f c e w with
      | (e', w', inl r) =>
          match conv r w' with
          | (w'', inl y) => (Some (seen e e'), w'', Value (of_err y))
          | (w'', inr x) => (Some (seen e e'), w'', Throws (User x))
          end
      | (e', w', inr x) => (Some (seen e e'), w', Throws (User x))
      end
  | VMapErrorVoid f, Some e =>
      match f c e w with
      | (e', w', inl _) => (Some (seen e e'), w', Value (of_err tt))
      | (e', w', inr x) => (Some (seen e e'), w', Throws (User x))
      end
  | VOrElse f, Some e =>
      match f c e w with
      | (e', w', inl y) => (Some (seen e e'), w', Value y)
      | (e', w', inr x) => (Some (seen e e'), w', Throws (User x))
      end
  | VOrElseVoid f, Some e =>
      (* the error is returned as the callable leaves it *)
      match f c e w with
      | (e', w', inl _) => (passed (seen e e'), w', Value (of_err (seen e e')))
      | (e', w', inr x) => (Some (seen e e'), w', Throws (User x))
      end
  | VInitError, Some e => (passed e, w, Value e)
  | VInitError, None => (v, w, Undefined)
  end.
End Spec.
Arguments vcall : clear implicits.
