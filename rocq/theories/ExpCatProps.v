(** C87: what expected's operations do with lvalues and rvalues. *)
From Verif Require Import Base ExpModel ExpCatModel ExpCatSpec.

Section Props.
Context {W X A B C D R R' : Type}.
Notation mcall := (mcall W X A B C D R R').
Implicit Types (T : ctors W X A) (E : ctors W X B) (c : cat) (m : mcall) (v : A + B) (w : W).

Ltac open_ :=
  cbv beta iota zeta delta [run holding answer and_then map_ map_void map_error map_error_void or_else
    or_else_void init_from_value init_from_star init_from_error value_or whole pass_error temporary
    if_value bind ret outside noexcept_ with_value with_error make of_val of_err has constant].
Ltac split_match :=
  match goal with
  | |- context [match ?e with _ => _ end] =>
      lazymatch e with context [match _ with _ => _ end] => fail | _ => destruct e eqn:? end
  end.

(** The full meaning, for element types whose copies and moves succeed: a callable gets the value
    or the error with the category of the object, at most once; what is passed on unchanged is
    copied from lvalues and from const objects, which keep it, and moved from rvalues. *)
Theorem C87_meaning T E leftv lefte c m v w :
  regular T leftv -> regular E lefte ->
  run T E c m (holding v) w =
  match meaning leftv lefte c m v w with (v', w', r) => (holding v', w', r) end.
Proof.
  intros [Tc Tm] [Ec Em].
  destruct m; destruct v; destruct c; open_; cbn [meaning constant];
    repeat (first [rewrite Tc | rewrite Tm | rewrite Ec | rewrite Em]; cbn [fst snd]);
    repeat (split_match; cbn [has]; try rewrite Tc; try rewrite Tm; try rewrite Ec; try rewrite Em); reflexivity.
Qed.

(** No call changes a const object, whatever the element types and the callable do. *)
Theorem C87_const T E c m v w :
  constant c = true -> fst (fst (run T E c m (holding v) w)) = holding v.
Proof.
  intros H. destruct c; try discriminate H;
    destruct m; destruct v; open_; repeat (split_match; subst; try reflexivity). all: reflexivity.
Qed.

(** No call moves from a non-const lvalue: only its callable can change it. *)
Theorem C87_lvalue T E m v w :
  reads_only Lvalue m -> fst (fst (run T E Lvalue m (holding v) w)) = holding v.
Proof.
  intros H. destruct m; destruct v; cbn [reads_only] in H; open_;
    repeat (match goal with
            | H : forall t w, fst (fst (?f Lvalue t w)) = t |- context [?f Lvalue ?t ?w] =>
                let Q := fresh in pose proof (H t w) as Q; clear H
            | |- _ => split_match
            end; cbn [fst snd] in *; subst; try reflexivity).
  all: reflexivity.
Qed.

(** The move constructors are not used for lvalues and const objects (other than to put the error
    of value() into its exception)... *)
Theorem C87_copied cpT mvT mvT' cpE mvE mvE' c m v w :
  c <> Rvalue -> (m = InitValue -> exists a, v = inl a) ->
  run (Ctors cpT mvT) (Ctors cpE mvE) c m (holding v) w = run (Ctors cpT mvT') (Ctors cpE mvE') c m (holding v) w.
Proof.
  intros H N. destruct c; try (now destruct H); destruct m; destruct v as [a|e]; try reflexivity;
    destruct (N eq_refl) as [? Q]; discriminate Q.
Qed.
(** ... and the copy constructors are not used for rvalues, so that types that can only be moved
    will do. *)
Theorem C87_moved cpT cpT' mvT cpE cpE' mvE m v w :
  run (Ctors cpT mvT) (Ctors cpE mvE) Rvalue m (holding v) w =
  run (Ctors cpT' mvT) (Ctors cpE' mvE) Rvalue m (holding v) w.
Proof. destruct m; destruct v; reflexivity. Qed.

(** A value stays a value and an error an error; nothing is undefined, and if anything ends the
    program it is or_else. *)
Theorem C87_alternative T E c m v w :
  allowed m v ->
  exists v', fst (fst (run T E c m (holding v) w)) = holding v' /\
    match v, v' with inl _, inl _ | inr _, inr _ => True | _, _ => False end /\
    snd (run T E c m (holding v) w) <> Undefined.
Proof.
  intros H.
  destruct m; destruct v as [a|e]; try (now destruct H); destruct c; open_;
    repeat (split_match; subst; try discriminate);
    first [ now (exists (inl a); repeat split) | now (exists (inr e); repeat split)
          | eexists (inl _); repeat split; discriminate | eexists (inr _); repeat split; discriminate ].
Qed.
Theorem C87_terminates_only_or_else T E c m v w :
  snd (run T E c m (holding v) w) = Terminates ->
  (exists f, m = OrElse f) \/ (exists f, m = OrElseVoid f).
Proof.
  destruct m; try (now eauto); intros H; exfalso; revert H;
    destruct v; destruct c; open_; repeat (split_match; subst; try discriminate); discriminate.
Qed.

(** The callable is invoked exactly once, with a reference of the category of the object to its value
    (its error), and not at all for an object with an error (a value). *)
Theorem C87_once T E c w (a : A) (e : B) :
  (forall f f' : callable A (@ex C B), f c a w = f' c a w ->
     run T E c (AndThen f : mcall) (holding (inl a)) w = run T E c (AndThen f' : mcall) (holding (inl a)) w) /\
  (forall (f f' : callable A R) k, f c a w = f' c a w ->
     run T E c (Map f k : mcall) (holding (inl a)) w = run T E c (Map f' k : mcall) (holding (inl a)) w) /\
  (forall f f' : callable A unit, f c a w = f' c a w ->
     run T E c (MapVoid f : mcall) (holding (inl a)) w = run T E c (MapVoid f' : mcall) (holding (inl a)) w) /\
  (forall (f f' : callable B R') k, f c e w = f' c e w ->
     run T E c (MapError f k : mcall) (holding (inr e)) w = run T E c (MapError f' k : mcall) (holding (inr e)) w) /\
  (forall f f' : callable B unit, f c e w = f' c e w ->
     run T E c (MapErrorVoid f : mcall) (holding (inr e)) w =
     run T E c (MapErrorVoid f' : mcall) (holding (inr e)) w) /\
  (forall f f' : callable B (@ex A B), f c e w = f' c e w ->
     run T E c (OrElse f : mcall) (holding (inr e)) w = run T E c (OrElse f' : mcall) (holding (inr e)) w) /\
  (forall f f' : callable B unit, f c e w = f' c e w ->
     run T E c (OrElseVoid f : mcall) (holding (inr e)) w = run T E c (OrElseVoid f' : mcall) (holding (inr e)) w).
Proof.
  repeat apply conj; intros f f'; intros; open_;
    match goal with H : f c _ w = _ |- _ => rewrite H end; reflexivity.
Qed.
Theorem C87_never T E c w (a : A) (e : B) :
  (forall f f' : callable A (@ex C B),
     run T E c (AndThen f : mcall) (holding (inr e)) w = run T E c (AndThen f' : mcall) (holding (inr e)) w) /\
  (forall (f f' : callable A R) k,
     run T E c (Map f k : mcall) (holding (inr e)) w = run T E c (Map f' k : mcall) (holding (inr e)) w) /\
  (forall f f' : callable A unit,
     run T E c (MapVoid f : mcall) (holding (inr e)) w = run T E c (MapVoid f' : mcall) (holding (inr e)) w) /\
  (forall (f f' : callable B R') k,
     run T E c (MapError f k : mcall) (holding (inl a)) w = run T E c (MapError f' k : mcall) (holding (inl a)) w) /\
  (forall f f' : callable B unit,
     run T E c (MapErrorVoid f : mcall) (holding (inl a)) w =
     run T E c (MapErrorVoid f' : mcall) (holding (inl a)) w) /\
  (forall f f' : callable B (@ex A B),
     run T E c (OrElse f : mcall) (holding (inl a)) w = run T E c (OrElse f' : mcall) (holding (inl a)) w) /\
  (forall f f' : callable B unit,
     run T E c (OrElseVoid f : mcall) (holding (inl a)) w = run T E c (OrElseVoid f' : mcall) (holding (inl a)) w) /\
  (forall d d' : W -> W * (A + X),
     run T E c (ValueOr d : mcall) (holding (inl a)) w = run T E c (ValueOr d' : mcall) (holding (inl a)) w).
Proof. repeat apply conj; intros; reflexivity. Qed.

(** An exception of the callable reaches the caller as it is. *)
Theorem C87_exception T E c m v w x :
  user_exception c v w m = Some x -> snd (run T E c m (holding v) w) = Throws (User x).
Proof.
  destruct m; destruct v; cbn [user_exception]; open_; try discriminate;
    repeat (split_match; subst; try discriminate); intros Q; now injection Q as ->.
Qed.

(** or_else with a callable that returns nothing gives the error back, provided that the callable
    does not change it. *)
Theorem C87_or_else_void_partial T E leftv lefte c (f : callable B unit) (e : B) w w' u :
  regular T leftv -> regular E lefte ->
  f c e w = (u, w', inl tt) -> constant c = true \/ u = e ->
  snd (run T E c (OrElseVoid f : mcall) (holding (inr e)) w) = Value (of_err e).
Proof.
  intros HT HE F Hc. rewrite (C87_meaning T E leftv lefte c _ _ _ HT HE). cbn [meaning]. rewrite F.
  destruct Hc as [->| ->]; [|destruct (constant c)]; reflexivity.
Qed.
(** On an rvalue the callable is given the error as an rvalue.  If it takes it by value (and so moves
    it out), what or_else returns is the moved-from error: the error is lost. *)
Theorem C87_or_else_void_refuted T E leftv lefte (g : B -> W -> W) (e : B) w :
  regular T leftv -> regular E lefte ->
  let by_value : callable B unit := fun c e w =>
    match make E c e w with
    | (e', w', inl param) => (e', g param w', inl tt)
    | (e', w', inr x) => (e', w', inr x)
    end in
  run T E Rvalue (OrElseVoid by_value : mcall) (holding (inr e)) w =
    (holding (inr (lefte (lefte e))), g e w, Value (of_err (lefte e))) /\
  run T E Lvalue (OrElseVoid by_value : mcall) (holding (inr e)) w = (holding (inr e), g e w, Value (of_err e)).
Proof.
  intros HT HE by_value. pose proof (copies _ _ HE) as Ec. pose proof (moves _ _ HE) as Em.
  split; rewrite (C87_meaning T E leftv lefte _ _ _ _ HT HE); cbn [meaning]; subst by_value; cbn [make];
    [rewrite Em | rewrite Ec]; reflexivity.
Qed.
(** If copying the value of an lvalue (moving that of an rvalue) throws, or_else ends the program
    although it is not noexcept, whereas map_error lets the exception through. *)
Theorem C87_or_else_terminates_finding T E c (a a' : A) w w' x (f : callable B (@ex A B)) (f' : callable B R') k :
  make T c a w = (a', w', inr x) ->
  snd (run T E c (OrElse f : mcall) (holding (inl a)) w) = Terminates /\
  snd (run T E c (MapError f' k : mcall) (holding (inl a)) w) = Throws (User x).
Proof. intros H. open_. cbn [make] in *. destruct c; cbn in H |- *; try rewrite H; try (destruct (copy T a w) as [w0 r]; injection H as ? ? ->); now split. Qed.
End Props.

(** A file name or an error text; strings that are moved from are empty.  The world counts copies. *)
Definition text : ctors nat nat str :=
  Ctors (fun t w => (S w, inl t)) (fun t w => ([], w, inl t)).
(** A callable with a parameter of type str, taken by value, that logs nothing *)
Definition takes : callable (W:=nat) (X:=nat) str unit := fun c e w =>
  match make text c e w with (e', w', inl _) => (e', w', inl tt) | (e', w', inr x) => (e', w', inr x) end.
(** One that throws 7 for an empty value and otherwise returns its length, as the new value *)
Definition measure : callable (W:=nat) (X:=nat) str (@ex nat str) := fun _ a w =>
  match a with [] => (a, w, inr 7) | _ => (a, w, inl (of_val (length a))) end.
(** The same without the counting: copies and moves always succeed *)
Definition plain : ctors unit nat str := Ctors (fun t w => (w, inl t)) (fun t w => ([], w, inl t)).
Example C87_example :
  regular plain (fun _ => []) /\
  (* an error passes and_then: one copy from an lvalue, none from an rvalue, which is left empty *)
  run text text Lvalue (AndThen measure : mcall nat nat str str nat nat nat nat) (holding (inr !"no file")) 0
  = (holding (inr !"no file"), 1, Value (of_err !"no file")) /\
  run text text Rvalue (AndThen measure : mcall nat nat str str nat nat nat nat) (holding (inr !"no file")) 0
  = (holding (inr []), 0, Value (of_err !"no file")) /\
  (* the callable is called, or throws *)
  run text text ConstLvalue (AndThen measure : mcall nat nat str str nat nat nat nat) (holding (inl !"a.txt")) 0
  = (holding (inl !"a.txt"), 0, Value (of_val 5)) /\
  snd (run text text Rvalue (AndThen measure : mcall nat nat str str nat nat nat nat) (holding (inl [])) 0)
  = Throws (User 7) /\
  (* or_else with a callable that takes the error by value *)
  run text text Lvalue (OrElseVoid takes : mcall nat nat str str nat nat nat nat) (holding (inr !"no file")) 0
  = (holding (inr !"no file"), 2, Value (of_err !"no file")) /\
  run text text Rvalue (OrElseVoid takes : mcall nat nat str str nat nat nat nat) (holding (inr !"no file")) 0
  = (holding (inr []), 0, Value (of_err [])) /\
  (* value() of an rvalue moves the error into the exception *)
  run text text Rvalue (InitValue : mcall nat nat str str nat nat nat nat) (holding (inr !"no file")) 0
  = (holding (inr []), 0, Throws (Bad !"no file")).
Proof. repeat apply conj; try reflexivity. now split. Qed.

Print Assumptions C87_meaning.
Print Assumptions C87_or_else_void_refuted.
