(** C87 for expected<void, E> *)
From Verif Require Import Base ExpModel ExpCatModel ExpCatSpec ExpCatVoidModel ExpCatVoidSpec.

Section Props.
Context {W X B C D R R' : Type}.
Notation vcall := (vcall W X B C D R R').
Implicit Types (E : ctors W X B) (c : cat) (m : vcall) (v : option B) (w : W).

Ltac open_ :=
  cbv beta iota zeta delta [vrun vholding vanswer void_and_then void_map void_map_void void_map_error
    void_map_error_void void_or_else void_or_else_void void_init_from_error void_whole pass_error
    if_value bind ret outside noexcept_ with_value with_error make of_val of_err has constant].
Ltac split_match :=
  match goal with
  | |- context [match ?e with _ => _ end] =>
      lazymatch e with context [match _ with _ => _ end] => fail | _ => destruct e eqn:? end
  end.

(** The full meaning, for error types whose copies and moves succeed *)
Theorem C87_void_meaning E left c m v w :
  regular E left ->
  vrun E c m (vholding v) w =
  match vmeaning left c m v w with (v', w', r) => (vholding v', w', r) end.
Proof.
  intros [Ec Em].
  destruct m; destruct v; destruct c; open_; cbn [vmeaning constant];
    repeat (first [rewrite Ec | rewrite Em]; cbn [fst snd]);
    repeat (split_match; cbn [has]; try rewrite Ec; try rewrite Em); reflexivity.
Qed.
(** Const objects do not change; an lvalue changes only through the callable. *)
Theorem C87_void_const E c m v w :
  constant c = true -> fst (fst (vrun E c m (vholding v) w)) = vholding v.
Proof.
  intros H. destruct c; try discriminate H;
    destruct m; destruct v; open_; repeat (split_match; subst; try reflexivity). all: reflexivity.
Qed.
Theorem C87_void_lvalue E m v w :
  vreads_only Lvalue m -> fst (fst (vrun E Lvalue m (vholding v) w)) = vholding v.
Proof.
  intros H. destruct m; destruct v; cbn [vreads_only] in H; open_;
    repeat (match goal with
            | H : forall t w, fst (fst (?f Lvalue t w)) = t |- context [?f Lvalue ?t ?w] =>
                let Q := fresh in pose proof (H t w) as Q; clear H
            | |- _ => split_match
            end; cbn [fst snd] in *; subst; try reflexivity).
  all: reflexivity.
Qed.
(** Lvalues and const objects are copied from, rvalues moved from. *)
Theorem C87_void_copied cp mv mv' c m v w :
  c <> Rvalue -> vrun (Ctors cp mv) c m (vholding v) w = vrun (Ctors cp mv') c m (vholding v) w.
Proof. intros H. destruct c; try (now destruct H); destruct m; destruct v; reflexivity. Qed.
Theorem C87_void_moved cp cp' mv m v w :
  vrun (Ctors cp mv) Rvalue m (vholding v) w = vrun (Ctors cp' mv) Rvalue m (vholding v) w.
Proof. destruct m; destruct v; reflexivity. Qed.
(** An object without an error stays so, and one with an error keeps one; if anything ends the program
    it is or_else. *)
Theorem C87_void_alternative E c m v w :
  (m = VInitError -> v <> None) ->
  exists v', fst (fst (vrun E c m (vholding v) w)) = vholding v' /\ (v' = None <-> v = None) /\
    snd (vrun E c m (vholding v) w) <> Undefined.
Proof.
  intros H. destruct v as [e|].
  - destruct m; destruct c; open_; repeat (split_match; subst; try discriminate);
      (eexists (Some _); split; [reflexivity|]; split; [split; discriminate|discriminate]).
  - exists None. destruct m; try (now destruct (H eq_refl)); destruct c; open_;
      repeat (split_match; subst; try discriminate); repeat split; discriminate.
Qed.
Theorem C87_void_terminates_only_or_else E c m v w :
  snd (vrun E c m (vholding v) w) = Terminates ->
  (exists f, m = VOrElse f) \/ (exists f, m = VOrElseVoid f).
Proof.
  destruct m; try (now eauto); intros H; exfalso; revert H;
    destruct v; destruct c; open_; repeat (split_match; subst; try discriminate); discriminate.
Qed.
(** The callable for the value is not called when there is an error and the other way round. *)
Theorem C87_void_never E c w (e : B) :
  (forall f f' : W -> W * (@ex C B + X),
     vrun E c (VAndThen f : vcall) (vholding (Some e)) w = vrun E c (VAndThen f' : vcall) (vholding (Some e)) w) /\
  (forall (f f' : W -> W * (R + X)) k,
     vrun E c (VMap f k : vcall) (vholding (Some e)) w = vrun E c (VMap f' k : vcall) (vholding (Some e)) w) /\
  (forall f f' : W -> W * (unit + X),
     vrun E c (VMapVoid f : vcall) (vholding (Some e)) w = vrun E c (VMapVoid f' : vcall) (vholding (Some e)) w) /\
  (forall (f f' : callable B R') k,
     vrun E c (VMapError f k : vcall) (vholding None) w = vrun E c (VMapError f' k : vcall) (vholding None) w) /\
  (forall f f' : callable B unit,
     vrun E c (VMapErrorVoid f : vcall) (vholding None) w = vrun E c (VMapErrorVoid f' : vcall) (vholding None) w) /\
  (forall f f' : callable B (@ex unit B),
     vrun E c (VOrElse f : vcall) (vholding None) w = vrun E c (VOrElse f' : vcall) (vholding None) w) /\
  (forall f f' : callable B unit,
     vrun E c (VOrElseVoid f : vcall) (vholding None) w = vrun E c (VOrElseVoid f' : vcall) (vholding None) w).
Proof. repeat apply conj; intros; reflexivity. Qed.
(** Finding: if copying (for an rvalue: moving) the error throws, or_else with a callable that returns
    nothing ends the program, although it is not noexcept; and_then lets the exception through. *)
Theorem C87_void_or_else_terminates_finding E c (f : callable B unit) (g : W -> W * (@ex C B + X)) e e' e2 w w' w2 x :
  f c e w = (e', w', inl tt) -> make E c (if constant c then e else e') w' = (e2, w2, inr x) ->
  snd (vrun E c (VOrElseVoid f : vcall) (vholding (Some e)) w) = Terminates /\
  snd (vrun E c (VAndThen g : vcall) (vholding (Some (if constant c then e else e'))) w') = Throws (User x).
Proof.
  intros F H. open_. destruct c; cbn [constant make] in *; rewrite F;
    try (destruct (copy E _ w') as [w3 r]; injection H as ? ? ->); try rewrite H; now split.
Qed.
End Props.

Definition vplain : ctors unit nat str := Ctors (fun t w => (w, inl t)) (fun t w => ([], w, inl t)).
Definition vtext : ctors nat nat str := Ctors (fun t w => (S w, inl t)) (fun t w => ([], w, inl t)).
Definition vones : nat -> nat * (@ex nat str + nat) := fun w => (w + 10, inl (of_val 1)).
Definition vtakes : callable (W:=nat) (X:=nat) str unit := fun c e w =>
  match make vtext c e w with (e', w', inl _) => (e', w', inl tt) | (e', w', inr x) => (e', w', inr x) end.
Example C87_void_example :
  regular vplain (fun _ => []) /\
  vrun vtext Lvalue (VAndThen vones : vcall nat nat str nat nat nat nat) (vholding None) 0
  = (vholding None, 10, Value (of_val 1)) /\
  vrun vtext Lvalue (VAndThen vones : vcall nat nat str nat nat nat nat) (vholding (Some !"no file")) 0
  = (vholding (Some !"no file"), 1, Value (of_err !"no file")) /\
  vrun vtext Rvalue (VAndThen vones : vcall nat nat str nat nat nat nat) (vholding (Some !"no file")) 0
  = (vholding (Some []), 0, Value (of_err !"no file")) /\
  (* as for other types: the error is lost when or_else gives it to a callable that takes it by value *)
  vrun vtext Rvalue (VOrElseVoid vtakes : vcall nat nat str nat nat nat nat) (vholding (Some !"no file")) 0
  = (vholding (Some []), 0, Value (of_err [])).
Proof. repeat apply conj; try reflexivity. now split. Qed.

Print Assumptions C87_void_meaning.
