(** C56: optional behaves like the mathematical option type, never leaks or double-destroys
    an element, and reports access to an absent value. *)
From Coq Require Import PeanoNat.
From Verif Require Import Base OptModel OptSpec OptProofs.

Section Props.
Context {A : Type} (mv : A -> A) (nothrow_move : bool).

(** Any program whose preconditions are met computes what the option type says. *)
Theorem C56_refines n (ops : list (oop A)) w :
  meanings mv (none n) ops = Some w ->
  exists s, calls mv nothrow_move ops (start n None) = Done s tt /\ view s = w /\
            made s = gone s + alive w.
Proof.
  intros H. destruct (calls_canon mv nothrow_move ops (start n None) w) as (s & E & C & V).
  - apply start_canon.
  - reflexivity.
  - rewrite start_st, view_st. exact H.
  - exists s. split; [exact E|]. split; [exact V|]. destruct C as [_ C]. now rewrite <- V.
Qed.

(** Also when element operations throw: one call does what the option type says, or throws
    with the documented effect; it never runs into undefined behavior. *)
Theorem C56_step n s g (op : oop A) w :
  reach mv nothrow_move n s -> meaning mv (view s) op = Some w ->
  match call mv nothrow_move op (with_budget g s) with
  | Done s' _ => view s' = w
  | Thrown _ s' => g <> None /\ after_throw (view s) op (view s')
  | Undef => False
  end.
Proof.
  intros R H. destruct (call_canon mv nothrow_move s g op w (reach_canon _ _ _ _ R) H)
    as [(t & E & _ & V & _)|(e & t & E & _ & N & T)]; rewrite E; auto.
Qed.

(** The flag and the storage always agree, and no element is leaked or destroyed twice. *)
Theorem C56_lifetimes n s :
  reach mv nothrow_move n s ->
  (forall i o, nth_error (vars s) i = Some (Some o) -> sound o) /\
  made s = gone s + alive (view s).
Proof.
  intros R. apply reach_canon in R. split; [|apply R]. intros i o. now apply canon_sound.
Qed.

Theorem C56_all_destroyed n s :
  reach mv nothrow_move n s -> (forall i, see (view s) i = None) -> made s = gone s.
Proof.
  intros R H. apply reach_canon in R. destruct R as [_ R]. rewrite (all_gone _ H) in R. lia.
Qed.

(** Construction, destruction, reset never throw; moves and swap do not when T's do not. *)
Theorem C56_nothrow (op : oop A) s e s' :
  never_throws nothrow_move op = true -> call mv nothrow_move op s <> Thrown e s'.
Proof. intros H. now apply no_throw. Qed.

(** * Observers *)
Theorem C56_has_value n s i v :
  reach mv nothrow_move n s -> see (view s) i = Some v ->
  has_value i s = Done s (match v with Some _ => true | None => false end).
Proof. intros R. apply has_canon. eapply reach_canon; eauto. Qed.

Theorem C56_value n s i v :
  reach mv nothrow_move n s -> see (view s) i = Some v ->
  value i s = match v with Some x => Done s x | None => Thrown BadOptionalAccess s end.
Proof. intros R. apply value_canon. eapply reach_canon; eauto. Qed.

Theorem C56_deref n s i v :
  reach mv nothrow_move n s -> see (view s) i = Some v ->
  deref i s = match v with Some x => Done s x | None => Undef end.
Proof. intros R. apply deref_canon. eapply reach_canon; eauto. Qed.
(** Assigning through operator* needs a value, too; it does not engage the optional. *)
Theorem C56_write_empty n s i a :
  reach mv nothrow_move n s -> see (view s) i = Some None -> write nothrow_move i a s = Undef.
Proof.
  intros R V. pose proof (C56_has_value n s i None R V) as H. revert H.
  unfold has_value, write, bindc, ret. destruct (get i s) as [s' o|e s'|]; try discriminate.
  intros H. injection H as -> ->. reflexivity.
Qed.

Theorem C56_value_or n s i v a x :
  reach mv nothrow_move n s -> bud s = None -> see (view s) i = Some v -> arg_value (view s) a = Some x ->
  value_or nothrow_move i a s = Done s (match v with Some y => y | None => x end).
Proof. intros R. apply value_or_canon. eapply reach_canon; eauto. Qed.

Theorem C56_value_or_move n s i v a x :
  reach mv nothrow_move n s -> bud s = None -> see (view s) i = Some v -> arg_value (view s) a = Some x ->
  exists s', value_or_move mv nothrow_move i a s = Done s' (match v with Some y => y | None => x end).
Proof. intros R. apply value_or_move_canon. eapply reach_canon; eauto. Qed.

(** Finding: o.emplace( *o ) reads the element after destroying it. *)
Theorem C56_emplace_self_finding n s i x :
  reach mv nothrow_move n s -> bud s = None -> see (view s) i = Some (Some x) ->
  emplace nothrow_move i (Ref i) s = Undef.
Proof. intros R. apply emplace_self. eapply reach_canon; eauto. Qed.
End Props.

(** * Relational operators *)
Section Rel.
Context {A : Type} (o : rel A).
Local Notation eq := (r_eq o). Local Notation ne := (r_ne o). Local Notation lt := (r_lt o).
Local Notation gt := (r_gt o). Local Notation le := (r_le o). Local Notation ge := (r_ge o).
Local Ltac cases_ := repeat match goal with H : sound _ |- _ => apply sound_cases in H; destruct H as [(? & ->)| ->] end.

Theorem C56_equal x y : sound x -> sound y ->
  opt_eq o x y = Ok (same eq (observe x) (observe y)) /\
  opt_ne o x y = Ok (negb (same eq (observe x) (observe y))).
Proof. intros X Y. cases_; split; reflexivity. Qed.

Theorem C56_order x y : sound x -> sound y ->
  opt_lt o x y = Ok (below lt (observe x) (observe y)) /\
  opt_gt o x y = Ok (below lt (observe y) (observe x)) /\
  opt_le o x y = Ok (negb (below lt (observe y) (observe x))) /\
  opt_ge o x y = Ok (negb (below lt (observe x) (observe y))).
Proof. intros X Y. cases_; repeat split; reflexivity. Qed.

(** If T is totally ordered, so is optional<T>, with nullopt below every value. *)
Theorem C56_total_order :
  (forall a b, eq a b = true <-> a = b) ->
  (forall a, lt a a = false) ->
  (forall a b c, lt a b = true -> lt b c = true -> lt a c = true) ->
  (forall a b, a <> b -> lt a b = true \/ lt b a = true) ->
  (forall u : option A, below lt u u = false) /\
  (forall u v w, below lt u v = true -> below lt v w = true -> below lt u w = true) /\
  (forall u v, same eq u v = true <-> u = v) /\
  (forall u v, u <> v -> below lt u v = true \/ below lt v u = true).
Proof.
  intros E I T C. split; [|split; [|split]].
  - intros [a|]; cbn; auto.
  - intros [a|] [b|] [c|]; cbn; try discriminate; auto. apply T.
  - intros [a|] [b|]; cbn; split; try discriminate; auto; try congruence.
    + intros H. f_equal. now apply E.
    + intros H. apply E. congruence.
  - intros [a|] [b|] H; cbn; auto; try congruence. apply C. congruence.
Qed.

(** A comparison with nullopt is the comparison with an empty optional. *)
Theorem C56_nullopt (e : opt) x : sound e -> observe e = None -> sound x ->
  Ok (eq_null x) = opt_eq o x e /\ Ok (null_eq x) = opt_eq o e x /\
  Ok (ne_null x) = opt_ne o x e /\ Ok (null_ne x) = opt_ne o e x /\
  Ok (lt_null x) = opt_lt o x e /\ Ok (null_lt x) = opt_lt o e x /\
  Ok (le_null x) = opt_le o x e /\ Ok (null_le x) = opt_le o e x /\
  Ok (gt_null x) = opt_gt o x e /\ Ok (null_gt x) = opt_gt o e x /\
  Ok (ge_null x) = opt_ge o x e /\ Ok (null_ge x) = opt_ge o e x.
Proof.
  intros S E X. cases_; try discriminate; repeat split; reflexivity.
Qed.

(** A comparison with a value is the comparison with an optional holding it, provided the
    operators of T agree with each other in the usual way. *)
Theorem C56_value_compare (p : opt) x v :
  (forall a b, ne a b = negb (eq a b)) -> (forall a b, gt a b = lt b a) ->
  (forall a b, le a b = negb (lt b a)) -> (forall a b, ge a b = negb (lt a b)) ->
  sound p -> observe p = Some v -> sound x ->
  eq_val o x v = opt_eq o x p /\ val_eq o v x = opt_eq o p x /\
  ne_val o x v = opt_ne o x p /\ val_ne o v x = opt_ne o p x /\
  lt_val o x v = opt_lt o x p /\ val_lt o v x = opt_lt o p x /\
  gt_val o x v = opt_gt o x p /\ val_gt o v x = opt_gt o p x /\
  le_val o x v = opt_le o x p /\ val_le o v x = opt_le o p x /\
  ge_val o x v = opt_ge o x p /\ val_ge o v x = opt_ge o p x.
Proof.
  intros HN HG HL HE S E X. cases_; try discriminate; injection E as ->; repeat split;
    unfold eq_val, val_eq, ne_val, val_ne, lt_val, val_lt, gt_val, val_gt, le_val, val_le, ge_val, val_ge,
      with_value, value_with, opt_eq, opt_ne, opt_lt, opt_gt, opt_le, opt_ge; cbn;
    rewrite ?HN, ?HG, ?HL, ?HE; reflexivity.
Qed.
End Rel.

(** * optional<T&> *)
Theorem C56_reference {A : Type} (m : list A) k a v :
  nth_error m k = Some a ->
  ref_value m (ref_to k) = Ok a /\ ref_value_or m (ref_to k) v = Ok a /\
  ref_has_value (ref_to k) = true /\
  ref_value m ref_null = Throw BadOptionalAccess /\ ref_value_or m ref_null v = Ok v /\
  ref_has_value ref_null = false.
Proof. intros H. cbn. rewrite H. repeat split. Qed.
(** Assignment rebinds and swap exchanges the references: afterwards a write to the object that
    the right operand referred to is seen through the left one, and the other object has
    nothing to do with it. *)
Theorem C56_reference_rebinds {A : Type} (m : list A) (r r' : rref) :
  ref_value m (ref_assign r r') = ref_value m r' /\
  ref_has_value (ref_assign r r') = ref_has_value r' /\
  ref_value m (fst (ref_swap r r')) = ref_value m r' /\
  ref_value m (snd (ref_swap r r')) = ref_value m r /\
  ref_has_value (fst (ref_swap r r')) = ref_has_value r' /\
  ref_has_value (snd (ref_swap r r')) = ref_has_value r.
Proof. repeat split. Qed.

(** Non-triviality: copies, moves, a swap with an empty optional and a throwing emplace. *)
Example C56_example :
  let ops := [NewValue 0 (RVal 5); NewCopy 1 0; New 2; Swap 1 2; AssignMove 1 0; Emplace 2 (Ref 1); Delete 0] in
  meanings (fun _ : nat => 0) (none 3) ops = Some [None; Some (Some 5); Some (Some 5)] /\
  (let s := match calls (fun _ : nat => 0) false ops (start 3 None) with Done s _ => s | _ => start 3 None end in
   view s = [None; Some (Some 5); Some (Some 5)] /\ made s = gone s + 2 /\ 4 <= made s) /\
  (exists s', call (fun _ : nat => 0) false (Emplace 0 (LVal 7)) (State [Some (Opt true (Live 1))] 1 0 (Some 0))
     = Thrown UserException s' /\ view s' = [Some None] /\ made s' = gone s') /\
  reach (fun _ : nat => 0) false 1 (State [Some (Opt true (Live 1))] 1 0 None).
Proof.
  split; [reflexivity|]. split.
  { cbv zeta. split; [vm_compute; reflexivity|]. split; [vm_compute; reflexivity|vm_compute; repeat constructor]. }
  split.
  - eexists. split; [reflexivity|]. split; reflexivity.
  - eapply (reach_call _ _ _ (start 1 None) None (NewValue 0 (RVal 1))).
    + constructor.
    + discriminate.
    + left. reflexivity.
Qed.

Print Assumptions C56_refines.
Print Assumptions C56_step.
