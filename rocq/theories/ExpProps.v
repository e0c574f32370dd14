(** C67 to C70: expected. *)
From Coq Require Import PeanoNat.
From Verif Require Import Base ExpModel ExpSpec ExpProofs.

Local Ltac case_ b := match goal with |- context [b] => destruct b end.
Section Props.
Context {A B : Type} (mv : A -> A) (mve : B -> B) (dflt : A) (T E : traits).

(** * C67: an expected holds exactly one of a value and an error, and each call changes the
    variables as the sum type says. *)
Theorem C67_refines n (ops : list (eop A B)) w :
  meanings mv mve dflt T E (none n) ops = Some w ->
  exists s, calls mv mve dflt T E ops (start n None) = Done s tt /\ view s = w.
Proof.
  intros H. destruct (calls_canon mv mve dflt T E ops (start n None) w) as (s & D & _ & V & _).
  - rewrite start_st. apply st_canon.
  - reflexivity.
  - rewrite start_st, view_st. exact H.
  - exists s. auto.
Qed.

Ltac obs R H :=
  apply reach_canon in R; destruct R as [R _]; pose proof H as Q; apply see_conc in Q;
  rewrite (canon_st' _ R) at 1; unfold st.

Theorem C67_has_value n s i v :
  reach mv mve dflt T E n s -> see (view s) i = Some v -> has_value i s = Done s (is_val v).
Proof.
  intros R H. obs R H. destruct v; red_; rewrite Q; red_; rewrite <- R; now destruct s.
Qed.

(** value() returns the value or throws bad_expected_access with the stored error. *)
Theorem C67_value n s i v :
  reach mv mve dflt T E n s -> bud s = None -> see (view s) i = Some v ->
  value E i s = match v with inl x => Done s x | inr e => Thrown (Bad e) s end.
Proof.
  intros R N H. obs R H. rewrite N. destruct v; red_; rewrite Q; red_; rewrite ?Q; red_;
    try destruct (nt_copy E); red_; rewrite <- R; destruct s; cbn in *; now rewrite N.
Qed.

(** operator* and error() are defined exactly for values and errors. *)
Theorem C67_deref n s i v :
  reach mv mve dflt T E n s -> see (view s) i = Some v ->
  deref i s = match v with inl x => Done s x | inr _ => Undef end.
Proof.
  intros R H. obs R H. destruct v; red_; rewrite Q; red_; rewrite ?Q; red_; [|reflexivity].
  rewrite <- R; now destruct s.
Qed.
Theorem C67_error n s i v :
  reach mv mve dflt T E n s -> see (view s) i = Some v ->
  error i s = match v with inl _ => Undef | inr e => Done s e end.
Proof.
  intros R H. obs R H. destruct v; red_; rewrite Q; red_; rewrite ?Q; red_; [reflexivity|].
  rewrite <- R; now destruct s.
Qed.

(** value_or returns the value if there is one, otherwise the argument. *)
Theorem C67_value_or n s i v a x :
  reach mv mve dflt T E n s -> bud s = None -> see (view s) i = Some v -> arg_value (view s) a = Some x ->
  value_or T i a s = Done s (match v with inl y => y | inr _ => x end) /\
  exists s', value_or_move mv T i a s = Done s' (match v with inl y => y | inr _ => x end).
Proof.
  intros R N H U. pose proof (fun j => ref_some (view s) j x) as RS.
  apply reach_canon in R; destruct R as [R _]; pose proof H as Q; apply see_conc in Q.
  pose proof (canon_st' _ R) as Z. rewrite N in Z. clear N R.
  remember (view s) as w eqn:W. clear W. revert Z. generalize (made s) (gone s). intros m g Z. subst s. unfold st. pose proof (see_lt _ _ _ H) as L.
  assert (L' : i < length (conc w)) by now rewrite conc_length.
  destruct v as [y|e].
  - red_; rewrite ?Q; red_; destruct (nt_copy T), (nt_move T); red_; rewrite ?Q; red_;
      rewrite ?Q; red_; (split; [reflexivity|eauto]).
  - destruct a as [z|z|nt z|j]; [injection U as <-..|apply RS, see_conc in U].
    + red_; rewrite ?Q; red_; destruct (nt_copy T), (nt_move T); red_; split; eauto.
    + red_; rewrite ?Q; red_; destruct (nt_copy T), (nt_move T); red_; split; eauto.
    + red_; rewrite ?Q; red_; destruct nt; red_; split; eauto.
    + red_; rewrite ?Q; red_; destruct (nt_copy T); red_; rewrite ?U; red_; split; eauto.
Qed.

(** * C68: lifetimes and exceptions *)

(** Without exceptions every T and E is destroyed exactly once, except that each conversion
    from another expected type leaks one object. *)
Theorem C68_balance_partial n (ops : list (eop A B)) w :
  meanings mv mve dflt T E (none n) ops = Some w ->
  exists s, calls mv mve dflt T E ops (start n None) = Done s tt /\
            made s = gone s + alive w + converts ops.
Proof.
  intros H. destruct (calls_canon mv mve dflt T E ops (start n None) w) as (s & D & _ & V & M).
  - rewrite start_st. apply st_canon.
  - reflexivity.
  - rewrite start_st, view_st. exact H.
  - exists s. split; [exact D|]. rewrite start_st, view_st, alive_none in M. cbn in M. rewrite V in M. lia.
Qed.

(** With exceptions: a call does what the sum type says, or throws and leaves every variable
    as it was (std::swap of two values or errors aside), or terminates the program in the
    listed cases.  What is missing: the calls listed in [hazard]. *)
Theorem C68_step_partial n s g (op : eop A B) w :
  reach mv mve dflt T E n s -> meaning mv mve dflt T E (view s) op = Some w ->
  match call mv mve dflt T E op (with_budget g s) with
  | Done s' _ => view s' = w
  | Thrown _ s' => g <> None /\ (hazard T E (view s) op = true \/ after_throw (view s) op (view s'))
  | Terminated => g <> None /\ can_terminate T E (view s) op = true
  | Undef => g <> None /\ hazard T E (view s) op = true
  end.
Proof.
  intros R H. apply reach_canon in R. destruct R as [R _].
  destruct (call_canon mv mve dflt T E s g op w R H)
    as [(t & C & Q & V & _)|[(e & t & C & Q & N & Z & F & _)|[(C & N & Z)|(Z & N & [C|(e & t & C)])]]]; rewrite C; auto.
Qed.

(** The flag always tells what the object holds, and no object is leaked or destroyed
    twice, also after exceptions.  What is missing: conversions and the hazards. *)
Theorem C68_lifetimes_partial n s :
  reach mv mve dflt T E n s ->
  (forall i o, nth_error (vars s) i = Some (Some o) -> sound o) /\
  made s = gone s + alive (view s).
Proof.
  intros R. apply reach_canon in R. destruct R as [C K]. split; [|exact K].
  intros i o. now apply canon_sound.
Qed.
Theorem C68_all_destroyed_partial n s :
  reach mv mve dflt T E n s -> (forall i, see (view s) i = None) -> made s = gone s.
Proof. intros R H. destruct (C68_lifetimes_partial n s R) as [_ M]. rewrite (all_gone _ H) in M. lia. Qed.

(** If all operations of T and E are noexcept then no call throws or terminates. *)
Theorem C68_nothrow n s g (op : eop A B) w :
  all_noexcept T = true -> all_noexcept E = true -> quiet op = true ->
  reach mv mve dflt T E n s -> meaning mv mve dflt T E (view s) op = Some w ->
  exists s', call mv mve dflt T E op (with_budget g s) = Done s' tt /\ view s' = w.
Proof.
  intros HT HE HQ R H. pose proof (C68_step_partial n s g op w R H) as P.
  pose proof (quiet_calm mv mve dflt T E op (with_budget g s) HT HE HQ) as C.
  destruct (call mv mve dflt T E op (with_budget g s)) as [t []| | |] eqn:Z; cbn [calm] in C; try contradiction.
  - eauto.
  - exfalso. destruct P as [_ P]. clear - P HT HE HQ. unfold all_noexcept in *.
    repeat (apply Bool.andb_true_iff in HT; destruct HT as [HT ?]).
    repeat (apply Bool.andb_true_iff in HE; destruct HE as [HE ?]).
    assert (NA : forall a : @arg A, quiet_arg a = true -> nt_arg T a = true)
      by (intros []; cbn; congruence).
    destruct op; cbn [hazard] in P; try discriminate.
    + destruct (see (view s) i) as [[?|?]|]; try discriminate.
      rewrite NA in P; [discriminate|]. now destruct a.
    + now rewrite NA in P.
    + destruct (see (view s) i) as [[?|?]|]; try discriminate. now rewrite NA in P.
    + destruct (see (view s) i) as [?|]; try discriminate. destruct (see (view s) j) as [?|]; try discriminate.
      replace (nt_move T) with true in P. replace (nt_move E) with true in P. now rewrite Bool.andb_false_r in P.
Qed.

(** The full property fails.  Conversion: the default constructed value is never destroyed. *)
Theorem C68_convert_refuted n s i src :
  reach mv mve dflt T E n s -> free (view s) i = true ->
  exists s', call mv mve dflt T E (NewConvert i src) (with_budget None s) = Done s' tt /\
             made s' = gone s' + alive (view s') + 1.
Proof.
  intros R F. apply reach_canon in R. destruct R as [R K].
  assert (W : meaning mv mve dflt T E (view s) (NewConvert i src) = Some (upd (view s) i (Some src)))
    by (unfold meaning; cbn [viable negb]; now rewrite F).
  destruct (call_canon mv mve dflt T E s None _ _ R W)
    as [(t & C & _ & V & _ & M)|[(e & t & _ & _ & N & _)|[(_ & N & _)|(_ & N & _)]]]; [|now elim N..].
  exists t. split; [exact C|]. unfold counts in K. cbn [is_convert] in M. lia.
Qed.

(** Assigning a value to an expected that holds an error: when constructing the value throws,
    the handler assigns to the error that has already been destroyed. *)
Theorem C68_assign_value_refuted n s i e a x :
  reach mv mve dflt T E n s -> see (view s) i = Some (inr e) -> arg_value (view s) a = Some x ->
  nt_move E = true -> nt_arg T a = false ->
  call mv mve dflt T E (AssignValue i a) (with_budget (Some 0) s) = Undef /\
  call mv mve dflt T E (Emplace i a) (with_budget (Some 0) s) = Undef /\
  call mv mve dflt T E (EmplaceList i a) (with_budget (Some 0) s) = Undef.
Proof.
  intros R H U NE NA. apply reach_canon in R. destruct R as [R _]. rewrite (canon_st _ _ R).
  pose proof (see_conc _ _ _ H) as Q. pose proof (see_lt _ _ _ H) as L. set (w := view s) in *. clearbody w.
  unfold st. cbn [obj of_err] in Q.
  destruct a as [z|z|nt z|j]; cbn [nt_arg] in NA; try subst nt;
    cbn [call]; red_;
    repeat (first [nth_|rewrite NE|rewrite NA|case_ (nt_move_assign E)]; red_);
    repeat split; reflexivity.
Qed.

(** emplace over a value: when constructing the new value throws, the old one is gone but the
    object still claims to hold it, and its destructor is undefined. *)
Theorem C68_emplace_refuted n s i y a x :
  reach mv mve dflt T E n s -> see (view s) i = Some (inl y) -> arg_value (view s) a = Some x ->
  a <> Ref i -> nt_arg T a = false ->
  exists e s', call mv mve dflt T E (Emplace i a) (with_budget (Some 0) s) = Thrown e s' /\
    has_value i s' = Done s' true /\ deref i s' = Undef /\ dtor i s' = Undef.
Proof.
  intros R H U NR NA. apply reach_canon in R. destruct R as [R _]. rewrite (canon_st _ _ R).
  pose proof (see_conc _ _ _ H) as Q. pose proof (see_lt _ _ _ H) as L. set (w := view s) in *. clearbody w.
  unfold st. cbn [obj of_val] in Q.
  exists User, (State (set_nth (conc w) i (Some (Ex true Raw))) (made s) (S (gone s)) None).
  split; [|repeat split; red_; repeat (nth_; red_); reflexivity].
  destruct a as [z|z|nt z|j]; cbn [nt_arg] in NA; try subst nt;
    cbn [call]; red_; repeat (first [nth_|rewrite NA]; red_); reflexivity.
Qed.

(** Swapping a value with an error: when moving the error throws, the handler assigns to the
    value that has already been destroyed. *)
Theorem C68_swap_refuted n s i j x e :
  reach mv mve dflt T E n s -> see (view s) i = Some (inl x) -> see (view s) j = Some (inr e) ->
  (nt_move T = true /\ nt_move E = false \/ nt_move T = false /\ nt_move E = true) ->
  call mv mve dflt T E (Swap i j) (with_budget (Some 0) s) = Undef /\
  call mv mve dflt T E (Swap j i) (with_budget (Some 0) s) = Undef.
Proof.
  intros R H H' V. apply reach_canon in R. destruct R as [R _]. rewrite (canon_st _ _ R).
  pose proof (see_conc _ _ _ H) as Q. pose proof (see_lt _ _ _ H) as L.
  pose proof (see_conc _ _ _ H') as Q'. pose proof (see_lt _ _ _ H') as L'.
  assert (D : i <> j) by congruence.
  set (w := view s) in *. clearbody w. unfold st. cbn [obj of_val of_err] in *.
  destruct V as [[V1 V2]|[V1 V2]]; cbn [call]; red_;
    repeat (first [nth_|rewrite V1|rewrite V2|case_ (nt_move_assign E)|case_ (nt_move_assign T)]; red_);
    split; reflexivity.
Qed.

(** Finding: an exception in a copy constructor of T or E terminates the program. *)
Theorem C68_copy_terminates_finding n s i j v :
  reach mv mve dflt T E n s -> free (view s) i = true -> see (view s) j = Some v ->
  (if is_val v then nt_copy T else nt_copy E) = false ->
  call mv mve dflt T E (NewCopy i j) (with_budget (Some 0) s) = Terminated.
Proof.
  intros R F H V. apply reach_canon in R. destruct R as [R _]. rewrite (canon_st _ _ R).
  pose proof (see_conc _ _ _ H) as Q. pose proof (see_lt _ _ _ H) as L.
  pose proof (free_conc _ _ F) as Q'. pose proof (free_lt _ _ F) as L'.
  pose proof (free_see _ _ _ _ F H) as D.
  set (w := view s) in *. clearbody w. unfold st.
  destruct v; cbn [obj of_val of_err is_val] in *; cbn [call]; red_;
    repeat (first [nth_|rewrite V]; red_); reflexivity.
Qed.
End Props.

(** * C69: the monadic operations call the callable once, with the value or the error, or not
    at all, and pass the other alternative on. *)
Section Monadic.
Context {A B S : Type}.
Local Open Scope outcome_scope.
(** A callable that returns an expected *)
Definition lift {X Y Z : Type} (f : X -> S -> S * (Y + Z)) (x : X) (s : S) : S * @ex Y Z :=
  let (s', r) := f x s in (s', obj r).

Theorem C69_and_then {C} (v : A + B) (f : A -> S -> S * (C + B)) s :
  and_then (obj v) (lift f) s =
  Ok match v with inl a => (fst (f a s), obj (snd (f a s))) | inr e => (s, of_err e) end.
Proof. destruct v; cbn; unfold lift; [|reflexivity]. now destruct (f a s). Qed.
Theorem C69_map {C} (v : A + B) (f : A -> S -> S * C) s :
  map_ (obj v) f s =
  Ok match v with inl a => (fst (f a s), of_val (snd (f a s))) | inr e => (s, of_err e) end.
Proof. destruct v; cbn; [|reflexivity]. now destruct (f a s). Qed.
Theorem C69_map_void (v : A + B) (f : A -> S -> S) s :
  map_void (obj v) f s = Ok match v with inl a => (f a s, of_val tt) | inr e => (s, of_err e) end.
Proof. now destruct v. Qed.
Theorem C69_map_error {D} (v : A + B) (f : B -> S -> S * D) s :
  map_error (obj v) f s =
  Ok match v with inl a => (s, of_val a) | inr e => (fst (f e s), of_err (snd (f e s))) end.
Proof. destruct v; cbn; [reflexivity|]. now destruct (f b s). Qed.
Theorem C69_map_error_void (v : A + B) (f : B -> S -> S) s :
  map_error_void (obj v) f s = Ok match v with inl a => (s, of_val a) | inr e => (f e s, of_err tt) end.
Proof. now destruct v. Qed.
Theorem C69_or_else (v : A + B) (f : B -> S -> S * (A + B)) s :
  or_else (obj v) (lift f) s =
  Ok match v with inl a => (s, of_val a) | inr e => (fst (f e s), obj (snd (f e s))) end.
Proof. destruct v; cbn; unfold lift; [reflexivity|]. now destruct (f b s). Qed.
Theorem C69_or_else_void (v : A + B) (f : B -> S -> S) s :
  or_else_void (obj v) f s = Ok match v with inl a => (s, of_val a) | inr e => (f e s, of_err e) end.
Proof. now destruct v. Qed.

(** The laws that make chains of calls predictable. *)
Theorem C69_and_then_assoc {C D} (v : A + B) (f : A -> S -> S * (C + B)) (h : C -> S -> S * (D + B)) s :
  (r <- and_then (obj v) (lift f) s ;; and_then (snd r) (lift h) (fst r)) =
  and_then (obj v) (lift (fun a s => match f a s with (s', inl c) => h c s' | (s', inr e) => (s', inr e) end)) s.
Proof.
  rewrite !C69_and_then. destruct v as [a|e]; cbn; [|reflexivity].
  destruct (f a s) as [s' [c|e]]; cbn; [|reflexivity]. unfold lift. now destruct (h c s').
Qed.
Theorem C69_map_compose {C D} (v : A + B) (f : A -> S -> S * C) (h : C -> S -> S * D) s :
  (r <- map_ (obj v) f s ;; map_ (snd r) h (fst r)) =
  map_ (obj v) (fun a s => let (s', c) := f a s in h c s') s.
Proof. destruct v as [a|e]; cbn; [|reflexivity]. now destruct (f a s). Qed.
Theorem C69_map_identity (v : A + B) (s : S) : map_ (obj v) (fun a s => (s, a)) s = Ok (s, obj v).
Proof. now destruct v. Qed.
Theorem C69_map_is_and_then {C} (v : A + B) (f : A -> S -> S * C) s :
  map_ (obj v) f s = and_then (obj v) (lift (fun a s => let (s', c) := f a s in (s', inl c))) s.
Proof. destruct v as [a|e]; cbn; [|reflexivity]. unfold lift. now destruct (f a s). Qed.
Theorem C69_or_else_assoc (v : A + B) (f h : B -> S -> S * (A + B)) s :
  (r <- or_else (obj v) (lift f) s ;; or_else (snd r) (lift h) (fst r)) =
  or_else (obj v) (lift (fun e s => match f e s with (s', inl a) => (s', inl a) | (s', inr e') => h e' s' end)) s.
Proof.
  rewrite !C69_or_else. destruct v as [a|e]; cbn; [reflexivity|].
  destruct (f e s) as [s' [a|e']]; cbn; [reflexivity|]. unfold lift. now destruct (h e' s').
Qed.
Theorem C69_map_error_compose {C D} (v : A + B) (f : B -> S -> S * C) (h : C -> S -> S * D) s :
  (r <- map_error (obj v) f s ;; map_error (snd r) h (fst r)) =
  map_error (obj v) (fun e s => let (s', c) := f e s in h c s') s.
Proof. destruct v as [a|e]; cbn; [reflexivity|]. now destruct (f e s). Qed.
End Monadic.

(** * C70: comparison *)
Section Comparison.
Context {A B : Type} (o : eqs A B).
Local Notation eqv := (t_eq o). Local Notation nev := (t_ne o).
Local Notation eqe := (e_eq o). Local Notation nee := (e_ne o).

Theorem C70_equal (u v : A + B) :
  ex_eq o (obj u) (obj v) = Ok (sum_eq eqv eqe u v).
Proof. destruct u, v; reflexivity. Qed.
(** != is the negation of ==, if it is so for T and E. *)
Theorem C70_not_equal (u v : A + B) :
  (forall a b, nev a b = negb (eqv a b)) -> (forall a b, nee a b = negb (eqe a b)) ->
  ex_ne o (obj u) (obj v) = Ok (negb (sum_eq eqv eqe u v)).
Proof. intros HA HB. destruct u, v; cbn; rewrite ?HA, ?HB; reflexivity. Qed.
(** A comparison with a value or an unexpected is the one with an expected holding it. *)
Theorem C70_value (u : A + B) (a : A) :
  (forall x y, eqv x y = eqv y x) -> (forall x y, nev x y = nev y x) ->
  eq_val o (obj u) a = ex_eq o (obj u) (of_val a) /\
  val_eq o a (obj u) = ex_eq o (of_val a) (obj u) /\
  ne_val o (obj u) a = ex_ne o (obj u) (of_val a) /\
  val_ne o a (obj u) = ex_ne o (of_val a) (obj u).
Proof. intros HE HN. destruct u; cbn; rewrite ?(HE a0 a), ?(HN a0 a); repeat split; reflexivity. Qed.
Theorem C70_unexpected (u : A + B) (e : B) :
  (forall x y, eqe x y = eqe y x) -> (forall x y, nee x y = nee y x) ->
  eq_unexp o (obj u) e = ex_eq o (obj u) (of_err e) /\
  unexp_eq o e (obj u) = ex_eq o (of_err e) (obj u) /\
  ne_unexp o (obj u) e = ex_ne o (obj u) (of_err e) /\
  unexp_ne o e (obj u) = ex_ne o (of_err e) (obj u).
Proof. intros HE HN. destruct u; cbn; rewrite ?(HE b e), ?(HN b e); repeat split; reflexivity. Qed.
Theorem C70_equivalence :
  (forall x y, eqv x y = true <-> x = y) -> (forall x y, eqe x y = true <-> x = y) ->
  forall u v : A + B, ex_eq o (obj u) (obj v) = Ok true <-> u = v.
Proof.
  intros HE HF u v. rewrite C70_equal.
  destruct u as [a|e], v as [b|f]; cbn; split; intros H; try discriminate H.
  - injection H as H. apply HE in H. congruence.
  - injection H as ->. f_equal. now apply HE.
  - injection H as H. apply HF in H. congruence.
  - injection H as ->. f_equal. now apply HF.
Qed.
Theorem C70_void_equal (u v : unit + B) :
  void_eq o (obj u) (obj v) = Ok (sum_eq (fun _ _ => true) eqe u v).
Proof. destruct u, v; reflexivity. Qed.
(** operator!= of expected<void, E> is right unless both hold errors ... *)
Theorem C70_void_not_equal_partial (u v : unit + B) :
  (is_val u || is_val v)%bool = true ->
  void_ne o (obj u) (obj v) = Ok (negb (sum_eq (fun _ _ => true) eqe u v)).
Proof. destruct u, v; cbn; try discriminate; reflexivity. Qed.
(** ... in which case it returns the opposite: equal errors are reported as different and
    different ones as equal. *)
Theorem C70_void_not_equal_refuted (e f : B) :
  (forall x y, eqe x y = true <-> x = y) ->
  void_ne o (obj (inr e)) (obj (inr f)) = Ok true <-> e = f.
Proof.
  intros HE. cbn. split; intros H.
  - injection H as H. now apply HE.
  - f_equal. now apply HE.
Qed.
End Comparison.

(** Non-triviality *)
Definition tr (b : bool) : traits := Traits b b b b.
Example C67_example :
  let ops := [NewValue 0 (RVal 5); NewError 1 (ELVal 7); NewCopy 2 0; Swap 1 2; AssignMove 0 2; Emplace 2 (Ref 1); Delete 0] in
  meanings (fun _ => 0) (fun _ => 0) 0 (tr false) (tr true) (none 3) ops
    = Some [None; Some (inl 5); Some (inl 5)] /\
  (exists s, calls (fun _ => 0) (fun _ => 0) 0 (tr false) (tr true) ops (start 3 None) = Done s tt /\
     view s = [None; Some (inl 5); Some (inl 5)] /\ made s = gone s + 2 /\ 5 <= made s).
Proof.
  split; [reflexivity|]. eexists. split; [vm_compute; reflexivity|].
  split; [reflexivity|]. cbn. split; repeat constructor.
Qed.
Example C68_example :
  let s := @State nat nat [Some (Ex true (Val 1)); Some (Ex false (Err 2))] 2 0 None in
  reach (fun _ => 0) (fun _ => 0) 0 (tr false) (tr true) 2 s /\
  meaning (fun _ => 0) (fun _ => 0) 0 (tr false) (tr true) (view s) (Write 0 (LVal 3)) = Some [Some (inl 3); Some (inr 2)] /\
  call (fun _ => 0) (fun _ => 0) 0 (tr false) (tr true) (Write 0 (LVal 3)) (with_budget (Some 0) s) = Thrown User s /\
  call (fun _ => 0) (fun _ => 0) 0 (tr false) (tr true) (Emplace 1 (LVal 3)) (with_budget (Some 0) s) = Undef /\
  call (fun _ => 0) (fun _ => 0) 0 (tr false) (tr true) (Swap 0 1) (with_budget (Some 0) s) = Undef.
Proof.
  split; [|repeat split; reflexivity].
  eapply (reach_call _ _ _ _ _ _ (State [Some (Ex true (Val 1)); None] 1 0 None) None (NewError 1 (ERVal 2)));
    [|discriminate|reflexivity|left; reflexivity].
  eapply (reach_call _ _ _ _ _ _ (start 2 None) None (NewValue 0 (RVal 1)));
    [constructor|discriminate|reflexivity|left; reflexivity].
Qed.
Example C69_example :
  and_then (@of_val nat nat 4) (lift (fun a s => (s + 1, if Nat.even a then @inl nat nat (a + 1) else inr a))) 10
    = Ok (11, of_val 5) /\
  or_else (@of_err nat nat 4) (lift (fun e s => (s + e, inl 0))) 10 = Ok (14, of_val 0) /\
  map_ (@of_err nat nat 4) (fun a s => (s + 1, a * 2)) 10 = Ok (10, of_err 4).
Proof. repeat split; reflexivity. Qed.
Example C70_example :
  let o := Eqs Nat.eqb (fun a b => negb (Nat.eqb a b)) Nat.eqb (fun a b => negb (Nat.eqb a b)) in
  ex_eq o (of_val 4) (of_err 4) = Ok false /\ ex_ne o (of_val 4) (of_val 5) = Ok true /\
  ex_eq o (of_err 4) (of_err 4) = Ok true /\
  void_ne o (of_err 4) (of_err 4) = Ok true /\
  void_ne o (of_err 4) (of_err 5) = Ok false.
Proof. repeat split; reflexivity. Qed.

Print Assumptions C67_refines.
Print Assumptions C68_step_partial.
