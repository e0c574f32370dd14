(** C71 to C74: variant. *)
From Coq Require Import PeanoNat.
From Verif Require Import Base VtModel VtSpec VtProofs VtProofs2.

Section Props.
Context {A : Type} (mv : nat -> A -> A) (dflt : A) (ts : list alt_ty) (Co : coherent mv ts).

(** * C71: a variant holds one value of one alternative or none, and every program of calls
    changes the variables as this says. *)
Theorem C71_refines m (ops : list (vop A)) w :
  meanings mv dflt ts (none m) ops = Some w ->
  exists s, calls mv dflt ts ops (start m None) = Done s tt /\ view ts s = w.
Proof.
  intros H. destruct (calls_canon mv dflt ts Co m ops (start m None) w) as (s & D & _ & V).
  - now apply (start_canon ts).
  - reflexivity.
  - now rewrite view_start.
  - eauto.
Qed.
(** The same for one call in any state, also after exceptions *)
Theorem C71_call m s op w :
  reach mv dflt ts m s -> meaning mv dflt ts (view ts s) op = Some w ->
  exists s', call mv dflt ts op (with_budget None s) = Done s' tt /\ view ts s' = w.
Proof.
  intros R H. apply (reach_canon mv dflt ts Co) in R.
  destruct (call_canon mv dflt ts Co m s None op w R H) as [(s' & D & _ & V & _)|(s' & _ & _ & N & _)]; [eauto|congruence].
Qed.
(** The variables are variants: they have an index and the value of that alternative. *)
Theorem C71_objects m s i o :
  reach mv dflt ts m s -> nth_error (vars s) i = Some (Some o) ->
  exists v, see (view ts s) i = Some v /\ is_variant ts o v.
Proof.
  intros R H.
  assert (E : exists v, see (view ts s) i = Some v).
  { pose proof (reach_canon mv dflt ts Co m s R) as C. apply (canon_view mv ts Co) in C. destruct C as (_ & E & _).
    rewrite E in H. cbn [st vars] in H. rewrite nth_conc in H. unfold see.
    destruct (nth_error (view ts s) i) as [[v|]|]; try discriminate. eauto. }
  destruct E as [v E]. exists v. split; [exact E|].
  destruct (reach_object mv dflt ts Co m s i v R E) as (o' & H' & V). congruence.
Qed.
(** The stored index is the number of the alternative for every number of alternatives, so
    that index() is exact and never confused with variant_npos. *)
Theorem C71_index o (v : @content A) :
  is_variant ts o v ->
  index ts o = match v with Some (k, _) => Z.of_nat k | None => 2 ^ 64 - 1 end%Z /\
  valueless ts o = match v with Some _ => false | None => true end.
Proof.
  intros V. destruct v as [[k x]|].
  - destruct (variant_some mv ts Co o k x V) as [K ->]. split; [now apply (index_alt mv ts Co)|now apply (valueless_alt mv ts Co)].
  - destruct (variant_none ts o V) as (c & ->). split; [apply index_none|apply valueless_none].
Qed.

(** * C72: lifetimes and exceptions.  In every state that a program can reach, also after
    exceptions, a call whose preconditions hold has its meaning, or throws and leaves one of
    the listed states.  There is no undefined behavior and no std::terminate. *)
Theorem C72_step m s g op w :
  reach mv dflt ts m s -> meaning mv dflt ts (view ts s) op = Some w ->
  (exists s', call mv dflt ts op (with_budget g s) = Done s' tt /\ view ts s' = w) \/
  (exists s', call mv dflt ts op (with_budget g s) = Thrown s' /\ g <> None /\
     after_throw mv ts (view ts s) op (view ts s')).
Proof.
  intros R H. apply (reach_canon mv dflt ts Co) in R.
  destruct (call_canon mv dflt ts Co m s g op w R H) as [(s' & D & _ & V & _)|(s' & D & _ & N & AT & _)]; eauto 10.
Qed.
(** Exactly the values in the variables are alive. *)
Theorem C72_lifetimes m s :
  reach mv dflt ts m s -> made s = gone s + alive (view ts s).
Proof. intros R. apply (reach_canon mv dflt ts Co) in R. now apply (canon_view mv ts Co) in R. Qed.
Theorem C72_all_destroyed m s :
  reach mv dflt ts m s -> (forall i, see (view ts s) i = None) -> made s = gone s.
Proof.
  intros R H. rewrite (C72_lifetimes m s R). enough (E : alive (view ts s) = 0) by lia.
  unfold alive. revert H. generalize (view ts s) as w. induction w as [|v w IH]; intros H; [reflexivity|].
  pose proof (H 0) as H0. cbn in H0. subst v. cbn [map]. unfold list_sum in *. cbn [fold_right holds].
  apply IH. intros i. exact (H (S i)).
Qed.
(** Nothing is thrown if the operations of the alternatives are noexcept. *)
Theorem C72_nothrow m s g op w :
  reach mv dflt ts m s -> all_noexcept ts = true -> quiet ts op = true ->
  meaning mv dflt ts (view ts s) op = Some w ->
  exists s', call mv dflt ts op (with_budget g s) = Done s' tt /\ view ts s' = w.
Proof.
  intros R AN Q H. apply (reach_canon mv dflt ts Co) in R.
  destruct (call_canon mv dflt ts Co m s g op w R H) as [(s' & D & _ & V & _)|(s' & D & _ & N & AT & NQ)]; [eauto|].
  now destruct (NQ AN Q).
Qed.
(** If no move constructor throws, then only emplace() can leave a variant valueless. *)
Theorem C72_never_valueless m s g op s' :
  reach mv dflt ts m s -> meaning mv dflt ts (view ts s) op <> None ->
  (forall k t, nth_error ts k = Some t -> nt_move t = true) -> (forall i k a, op <> Emplace i k a) ->
  no_valueless (view ts s) ->
  call mv dflt ts op (with_budget g s) = Done s' tt \/ call mv dflt ts op (with_budget g s) = Thrown s' ->
  no_valueless (view ts s').
Proof.
  intros R M NT NE NV H.
  destruct (meaning mv dflt ts (view ts s) op) as [w|] eqn:E; [clear M|congruence].
  pose proof (reach_canon mv dflt ts Co m s R) as C. pose proof (canon_view mv ts Co m s C) as (F & _).
  assert (NT' : forall k, (k < n ts)%nat -> nt_move (ty ts k) = true).
  { intros k K. apply (NT k). unfold ty. now apply nth_error_nth'. }
  revert F E NV H. generalize (call_canon mv dflt ts Co m s g op w C). set (W := view ts s). intros CC F E NV H.
  specialize (CC E).
  assert (UP : forall (w' : @world A) i v, no_valueless w' -> i < length w' -> v <> Some None -> no_valueless (upd w' i v)).
  { intros w' i v NV' L N i'. rewrite upd_set by exact L. destruct (see_set w' i i' v) as [G|G]; rewrite G; auto. }
  assert (MV : forall i u, see W i = Some u -> Some (moved mv u) <> Some None).
  { intros i u P. specialize (NV i). destruct u as [[k x]|]; [discriminate|congruence]. }
  assert (SM : forall i (u : @content A), see W i = Some u -> Some u <> Some None).
  { intros i u P. specialize (NV i). congruence. }
  assert (EV : forall k a x w', eval mv W k a = Some (x, w') -> no_valueless w' /\ length w' = length W).
  { intros k a x w' EE. apply eval_inv in EE. destruct a as [c t y|[j|]|[j|]|c t j]; cbn [eval_facts] in EE; try contradiction;
    destruct EE as [P ->]; auto. split; [|apply set_nth_length].
    rewrite <- upd_set by (eapply see_lt; eauto). apply UP; [exact NV|eapply see_lt; eauto|discriminate]. }
  assert (RF : forall i k, (k < n ts)%nat -> replace_failed ts W i k = W).
  { intros i k K. unfold replace_failed. destruct (see W i); [|reflexivity]. rewrite (NT' k K). now rewrite Bool.orb_true_r. }
  assert (NM : forall i (u : @content A), see W i = Some u -> nothrow_move ts u = true).
  { intros i u P. destruct u as [[k x]|]; [|reflexivity]. apply NT'. exact (F _ _ _ P). }
  destruct CC as [(s1 & D & _ & V & _)|(s1 & D & _ & _ & AT & _)]; rewrite D in H; destruct H as [H|H]; try discriminate;
    injection H as <-.
  - rewrite V. clear V D. unfold meaning in E. destruct (viable ts op); [|discriminate]. cbn [negb] in E.
    destruct op;
    repeat match type of E with
    | (if free W ?i && _ then _ else _) = _ => let G := fresh "G" in destruct (free W i) eqn:G; [apply free_lt in G; cbn [andb] in E|discriminate]
    | (if free W ?i then _ else _) = _ => let G := fresh "G" in destruct (free W i) eqn:G; [apply free_lt in G|discriminate]
    | (if ?c then _ else _) = _ => destruct c; [|discriminate]
    | obind (see W ?i) _ = _ => let u := fresh "u" in let P := fresh "P" in apply obind_some in E; destruct E as (u & P & E); pose proof (see_lt _ _ _ P)
    | obind (eval _ _ _ _) _ = _ => let x := fresh "x" in let EE := fresh "EE" in apply obind_some in E; destruct E as ([x w'] & EE & E); apply EV in EE; destruct EE; cbn [fst snd] in E
    end; try (injection E as <-); try (now destruct (NE i k a));
    repeat (apply UP; rewrite ?upd_length by assumption; try discriminate; try congruence; eauto).
  - clear D. destruct op; cbn [after_throw] in AT; try (rewrite AT; exact NV).
    + destruct (see W j) as [[[k x]|]|] eqn:P; try contradiction. rewrite AT, RF; [exact NV|]. exact (F _ _ _ P).
    + destruct (see W j) as [[[k x]|]|] eqn:P; try contradiction. rewrite AT, RF; [exact NV|]. exact (F _ _ _ P).
    + rewrite AT, RF; [exact NV|]. unfold meaning in E. cbn [viable negb] in E.
      apply obind_some in E; destruct E as (u & P & E). destruct (Nat.ltb_spec k (length ts)); [assumption|discriminate].
    + now destruct (NE i k a).
    + destruct (see W i) as [v|] eqn:P; [|contradiction]. destruct (see W j) as [u|] eqn:P'; [|contradiction].
      pose proof (see_lt _ _ _ P). pose proof (see_lt _ _ _ P').
      destruct AT as [AT|AT]; [rewrite AT; exact NV|]. destruct (same_alt v u).
      * destruct AT as [AT|AT]; rewrite AT; repeat (apply UP; rewrite ?upd_length by assumption; eauto).
      * rewrite (NM i v P) in AT. destruct AT; discriminate.
Qed.

(** * C73: access *)
Theorem C73_get o (v : @content A) k :
  is_variant ts o v -> k < length ts ->
  get_ ts o k = match v with
                | Some (k', x) => if Nat.eqb k k' then Ok x else Throw BadVariantAccess
                | None => Throw BadVariantAccess
                end.
Proof.
  intros V K. unfold get_, holds_alternative. destruct v as [[k' x]|].
  - destruct (variant_some mv ts Co o k' x V) as [K' ->]. rewrite (index_alt mv ts Co), nat_eqb by exact K'.
    unfold alt_value. cbn [data]. rewrite (Nat.eqb_sym k' k). now destruct (Nat.eqb k k').
  - destruct (variant_none ts o V) as (c & ->). now rewrite index_none, (npos_eqb mv ts Co) by exact K.
Qed.
(** ... also in an assignment to get<k>(v): it throws and changes nothing. *)
Theorem C73_get_assign m s i v k (a : @arg A) :
  reach mv dflt ts m s -> see (view ts s) i = Some v -> k < length ts -> holds_alt v k = false ->
  call mv dflt ts (Write i k a) s = Thrown s.
Proof.
  intros R H K N. destruct (reach_object mv dflt ts Co m s i v R H) as (o & E & V).
  cbn [call]. unfold write, get, bindc. rewrite E.
  destruct v as [[k' x]|].
  - destruct (variant_some mv ts Co o k' x V) as [K' ->]. rewrite (index_alt mv ts Co), nat_eqb by exact K'.
    cbn [holds_alt] in N. now rewrite Nat.eqb_sym, N.
  - destruct (variant_none ts o V) as (c & ->). now rewrite index_none, (npos_eqb mv ts Co) by exact K.
Qed.
Theorem C73_holds_alternative o (v : @content A) k :
  is_variant ts o v -> k < length ts -> holds_alternative ts o k = holds_alt v k.
Proof.
  intros V K. unfold holds_alternative, holds_alt. destruct v as [[k' x]|].
  - destruct (variant_some mv ts Co o k' x V) as [K' ->]. rewrite (index_alt mv ts Co), nat_eqb by exact K'.
    apply Nat.eqb_sym.
  - destruct (variant_none ts o V) as (c & ->). now rewrite index_none, (npos_eqb mv ts Co) by exact K.
Qed.
Theorem C73_get_if o (v : @content A) k :
  is_variant ts o v -> k < length ts ->
  get_if ts (Some o) k = Ok (match v with Some (k', x) => if Nat.eqb k k' then Some x else None | None => None end) /\
  get_if ts (@None (@vobj A)) k = Ok None.
Proof.
  intros V K. split; [|reflexivity]. unfold get_if. rewrite (C73_holds_alternative o v k V K). unfold holds_alt.
  destruct v as [[k' x]|]; [|reflexivity]. destruct (variant_some mv ts Co o k' x V) as [K' ->].
  unfold alt_value. cbn [data]. now destruct (Nat.eqb k k').
Qed.
End Props.

(** visit() calls the visitor exactly once, with the values of all variants in order; it
    throws if one of them is valueless. *)
Theorem C73_visit {A S R} (f : list (nat * A) -> S -> outcome (S * R)) vs cs s :
  variants vs cs ->
  visit f vs s = match all_some cs with Some l => f l s | None => Throw BadVariantAccess end.
Proof.
  intros V. unfold visit. rewrite (valueless_exists vs cs V). destruct (all_some cs) as [l|] eqn:E; [|reflexivity].
  apply all_some_map in E. subst cs. now apply (visit_alt_spec f s vs l [] []).
Qed.
(** The alternative that get<T>, holds_alternative<T> and in_place_type<T> select: the only
    one that matches *)
Theorem C73_find_index m :
  (forall i, find_index m = Index i <-> unique_at m i) /\
  (find_index m = NotFound <-> forall i, nth_error m i <> Some true).
Proof.
  pose proof (find_loop_spec m 0 NotFound) as H. unfold find_index.
  destruct (find_loop m 0 NotFound) as [| |k].
  - destruct H as [_ N]. split; [|tauto]. intros i. split; [discriminate|]. intros [U _]. now apply N in U.
  - destruct H as [H|[(k & j & H & _)|(j & j' & D & H & H')]]; try discriminate.
    split; [|split; [discriminate|intros N; now apply N in H]].
    intros i. split; [discriminate|]. intros [_ U]. apply U in H. apply U in H'. congruence.
  - destruct H as [(H & _)|(_ & j & -> & U1 & U2)]; [discriminate|]. cbn [Nat.add].
    split; [|split; [discriminate|intros N; now apply N in U1]].
    intros i. split; [intros E; injection E as <-; split; auto|]. intros [U _]. apply U2 in U. now subst.
Qed.

(** * C74: comparison and hash *)
Section Compare.
Context {A : Type} (mv : nat -> A -> A) (ts : list alt_ty) (Co : coherent mv ts) (o : rel A).
Local Notation eq := (r_eq o). Local Notation ne := (r_ne o). Local Notation lt := (r_lt o).
Local Notation gt := (r_gt o). Local Notation le := (r_le o). Local Notation ge := (r_ge o).
Ltac both U V u v :=
  destruct u as [[k a]|], v as [[k' b]|];
  first [destruct (variant_some mv ts Co _ k a U) as [K ->] | destruct (variant_none ts _ U) as (c & ->)];
  first [destruct (variant_some mv ts Co _ k' b V) as [K' ->] | destruct (variant_none ts _ V) as (c' & ->)];
  unfold v_eq, v_ne, v_lt, v_gt, v_le, v_ge, value_at, content_eq, content_lt;
  rewrite ?valueless_none, ?(valueless_alt mv ts Co), ?index_none, ?(index_alt mv ts Co) by assumption;
  rewrite ?(npos_eqb mv ts Co), ?(eqb_npos mv ts Co), ?Z.eqb_refl by assumption; cbn [negb]; try reflexivity.
Ltac value_ :=
  change (length ts) with (n ts); rewrite ?dispatch_at by assumption;
  unfold alt_value; cbn [data]; rewrite ?Nat.eqb_refl; cbn [bind].
Theorem C74_equal x y u v :
  is_variant ts x u -> is_variant ts y v ->
  v_eq ts o x y = Ok (content_eq eq u v).
Proof.
  intros U V. both U V u v. rewrite nat_eqb. destruct (Nat.eqb_spec k k') as [<-|]; [|reflexivity].
  cbn [negb]. now value_.
Qed.
Theorem C74_not_equal x y u v :
  (forall k a b, ne k a b = negb (eq k a b)) -> is_variant ts x u -> is_variant ts y v ->
  v_ne ts o x y = Ok (negb (content_eq eq u v)).
Proof.
  intros N U V. both U V u v. rewrite nat_eqb. destruct (Nat.eqb_spec k k') as [<-|]; [|reflexivity].
  cbn [negb]. value_. now rewrite N.
Qed.
Lemma ltb_nat k k' : (Z.of_nat k <? Z.of_nat k')%Z = (k <? k')%nat.
Proof. destruct (Nat.ltb_spec k k'); [apply Z.ltb_lt|apply Z.ltb_ge]; lia. Qed.
Ltac order_ k k' :=
  rewrite !ltb_nat; destruct (Nat.ltb_spec k k') as [LT|GE]; destruct (Nat.ltb_spec k' k) as [LT'|GE']; try lia;
  [ rewrite ?(proj2 (Nat.eqb_neq k k')), ?(proj2 (Nat.eqb_neq k' k)) by lia; reflexivity
  | rewrite ?(proj2 (Nat.eqb_neq k k')), ?(proj2 (Nat.eqb_neq k' k)) by lia; reflexivity
  | assert (k' = k) by lia; subst k'; value_ ].
Theorem C74_less x y u v :
  is_variant ts x u -> is_variant ts y v -> v_lt ts o x y = Ok (content_lt lt u v).
Proof. intros U V. both U V u v. order_ k k'. reflexivity. Qed.
Theorem C74_greater x y u v :
  (forall k a b, gt k a b = lt k b a) -> is_variant ts x u -> is_variant ts y v ->
  v_gt ts o x y = Ok (content_lt lt v u).
Proof. intros G U V. both U V u v. order_ k k'. now rewrite G. Qed.
Theorem C74_less_equal x y u v :
  (forall k a b, le k a b = negb (lt k b a)) -> is_variant ts x u -> is_variant ts y v ->
  v_le ts o x y = Ok (negb (content_lt lt v u)).
Proof. intros G U V. both U V u v. order_ k k'. now rewrite G. Qed.
Theorem C74_greater_equal x y u v :
  (forall k a b, ge k a b = negb (lt k a b)) -> is_variant ts x u -> is_variant ts y v ->
  v_ge ts o x y = Ok (negb (content_lt lt u v)).
Proof. intros G U V. both U V u v. order_ k k'. now rewrite G. Qed.

(** The order of the values carries over. *)
Theorem C74_strict_order x y z u v t :
  (forall k a, lt k a a = false) -> (forall k a b c, lt k a b = true -> lt k b c = true -> lt k a c = true) ->
  is_variant ts x u -> is_variant ts y v -> is_variant ts z t ->
  v_lt ts o x x = Ok false /\
  (v_lt ts o x y = Ok true -> v_lt ts o y z = Ok true -> v_lt ts o x z = Ok true).
Proof.
  intros IR TR U V T. rewrite (C74_less x x u u), (C74_less x y u v), (C74_less y z v t), (C74_less x z u t) by assumption. split.
  - destruct u as [[k a]|]; cbn [content_lt]; [|reflexivity]. now rewrite Nat.ltb_irrefl, Nat.eqb_refl, IR.
  - destruct u as [[k a]|], v as [[k' b]|], t as [[k'' c]|]; cbn [content_lt]; try discriminate; auto.
    intros H H'. injection H as H. injection H' as H'. f_equal.
    apply Bool.orb_true_iff in H, H'. rewrite Bool.andb_true_iff, Nat.ltb_lt, Nat.eqb_eq in H, H'.
    apply Bool.orb_true_iff. rewrite Bool.andb_true_iff, Nat.ltb_lt, Nat.eqb_eq.
    destruct H as [H|[-> H]], H' as [H'|[-> H']]; try (left; lia). right. eauto.
Qed.
Theorem C74_total_order x y u v :
  (forall k a b, lt k a b = false -> lt k b a = false -> eq k a b = true) ->
  is_variant ts x u -> is_variant ts y v ->
  v_lt ts o x y = Ok false -> v_lt ts o y x = Ok false -> v_eq ts o x y = Ok true.
Proof.
  intros TO U V. rewrite (C74_less x y u v), (C74_less y x v u), (C74_equal x y u v) by assumption.
  destruct u as [[k a]|], v as [[k' b]|]; cbn [content_lt content_eq]; try discriminate; auto.
  intros H H'. injection H as H. injection H' as H'. f_equal.
  apply Bool.orb_false_iff in H, H'. destruct H as [H1 H2], H' as [H1' H2']. apply Nat.ltb_ge in H1, H1'.
  assert (k' = k) by lia. subst k'. rewrite Nat.eqb_refl in *. cbn [andb] in *. auto.
Qed.

(** Equal variants have equal hashes. *)
Lemma hash_of (h : nat -> A -> Z) x u : is_variant ts x u ->
  hash ts h x = Ok (hash_combine (match u with Some (k, a) => h k a | None => 299792458 end)
                                 (match u with Some (k, _) => Z.of_nat k | None => npos end))%Z.
Proof.
  intros U. unfold hash. destruct u as [[k a]|].
  - destruct (variant_some mv ts Co x k a U) as [K ->]. rewrite (valueless_alt mv ts Co), !(index_alt mv ts Co) by exact K.
    value_. reflexivity.
  - destruct (variant_none ts x U) as (c & ->). now rewrite valueless_none, index_none.
Qed.
Theorem C74_hash_equal (h : nat -> A -> Z) x y u v :
  (forall k a b, eq k a b = true -> h k a = h k b) -> is_variant ts x u -> is_variant ts y v ->
  v_eq ts o x y = Ok true -> hash ts h x = hash ts h y /\ exists z, hash ts h x = Ok z.
Proof.
  intros H U V. rewrite (C74_equal x y u v U V), (hash_of h x u U), (hash_of h y v V). intros E. injection E as E.
  split; [|eauto]. destruct u as [[k a]|], v as [[k' b]|]; cbn [content_eq] in E; try discriminate; [|reflexivity].
  apply Bool.andb_true_iff in E. destruct E as [E1 E2]. apply Nat.eqb_eq in E1. subst k'. now rewrite (H k a b E2).
Qed.
(** Variants that hold values with the same hash in different alternatives have different
    hashes. *)
Theorem C74_hash_alternative (h : nat -> A -> Z) x y k k' a b :
  is_variant ts x (Some (k, a)) -> is_variant ts y (Some (k', b)) -> k <> k' -> h k a = h k' b ->
  hash ts h x <> hash ts h y.
Proof.
  intros U V D H. rewrite (hash_of h x _ U), (hash_of h y _ V), H. intros E. injection E as E.
  destruct U as (_ & _ & K), V as (_ & _ & K'). destruct Co as [[_ B] _].
  unfold hash_combine in E. apply lxor_inj in E. rewrite <- !Z.add_assoc in E.
  apply mod_inj in E; lia.
Qed.
End Compare.
(** monostate has one value. *)
Theorem C74_monostate (x y : unit) :
  mono_eq x y = true /\ mono_ne x y = false /\ mono_lt x y = false /\ mono_gt x y = false /\
  mono_le x y = true /\ mono_ge x y = true.
Proof. repeat split. Qed.

(** * Examples: variant<int, std::string, Odd>, where the moves of Odd may throw *)
Definition ex_int : alt_ty := AltTy Trivially Trivially Trivially Trivially Trivially true true true true.
Definition ex_str : alt_ty := AltTy Available Available Available Available Available false true false true.
Definition ex_odd : alt_ty := AltTy Available Available Available Available Available false false false false.
Definition ex_ts : list alt_ty := [ex_int; ex_str; ex_odd].
Definition ex_mv (k : nat) (x : Z) : Z := match k with O => x | _ => 0%Z end.
Example ex_coherent : coherent ex_mv ex_ts.
Proof.
  split; [cbn; lia|]. intros [|[|[|[|k]]]] t H; try discriminate H; injection H as <-; cbn; repeat split; try discriminate; auto.
Qed.
Definition ex_ops : list (vop Z) :=
  [NewDefault 0 true; New 1 1 (Val false false 7%Z); NewCopy 2 1; AssignMove 0 1; Emplace 1 2 (Val true true 5%Z); Swap 0 1].
Example C71_example :
  meanings ex_mv 0%Z ex_ts (none 3) ex_ops =
    Some [Some (Some (2, 5%Z)); Some (Some (1, 7%Z)); Some (Some (1, 7%Z))] /\
  (exists s, calls ex_mv 0%Z ex_ts ex_ops (start 3 None) = Done s tt /\ made s = 8 /\ gone s = 5).
Proof. split; [reflexivity|]. eexists. split; [vm_compute; reflexivity|]. auto. Qed.
(** The copy that is to replace an Odd throws: valueless; an assignment of a string keeps the
    old value. *)
Example C72_example :
  let s := match calls ex_mv 0%Z ex_ts ex_ops (start 3 None) with Done s _ => s | _ => start 3 None end in
  (exists s', call ex_mv 0%Z ex_ts (AssignCopy 1 0) (with_budget (Some 0) s) = Thrown s' /\
     view ex_ts s' = [Some (Some (2, 5%Z)); Some None; Some (Some (1, 7%Z))]) /\
  (exists s', call ex_mv 0%Z ex_ts (AssignCopy 0 1) (with_budget (Some 0) s) = Thrown s' /\ view ex_ts s' = view ex_ts s).
Proof. cbv zeta. split; eexists; (split; [vm_compute; reflexivity|vm_compute; reflexivity]). Qed.
Example C73_example :
  let o := V 1 (Alt 1 7%Z) in
  is_variant ex_ts o (Some (1, 7%Z)) /\ get_ ex_ts o 1 = Ok 7%Z /\ get_ ex_ts o 2 = Throw BadVariantAccess /\
  visit (fun l s => Ok (s ++ l, length l)) [(ex_ts, o); (ex_ts, V 0 (Alt 0 3%Z))] [] = Ok ([(1, 7%Z); (0, 3%Z)], 2) /\
  visit (fun l s => Ok (s ++ l, length l)) [(ex_ts, o); (ex_ts, V 255 Raw)] [] = Throw BadVariantAccess /\
  find_index [false; true; false] = Index 1 /\ find_index [true; true] = Ambiguous.
Proof. cbv zeta. split; [repeat split; vm_compute; auto; discriminate|]. vm_compute. auto 10. Qed.
Example C74_example :
  let lt := Rel (fun _ => Z.eqb) (fun _ x y => negb (x =? y)%Z) (fun _ => Z.ltb) (fun _ => Z.gtb) (fun _ => Z.leb) (fun _ => Z.geb) in
  v_lt ex_ts lt (V 255 Raw) (V 0 (Alt 0 3%Z)) = Ok true /\ v_lt ex_ts lt (V 1 (Alt 1 1%Z)) (V 0 (Alt 0 3%Z)) = Ok false /\
  v_lt ex_ts lt (V 1 (Alt 1 1%Z)) (V 1 (Alt 1 3%Z)) = Ok true /\ v_ge ex_ts lt (V 1 (Alt 1 1%Z)) (V 1 (Alt 1 1%Z)) = Ok true /\
  (exists z z', hash ex_ts (fun _ x => x) (V 1 (Alt 1 3%Z)) = Ok z /\ hash ex_ts (fun _ x => x) (V 0 (Alt 0 3%Z)) = Ok z' /\ z <> z').
Proof.
  repeat (split; [reflexivity|]). do 2 eexists. split; [vm_compute; reflexivity|]. split; [vm_compute; reflexivity|discriminate].
Qed.

Print Assumptions C71_refines.
Print Assumptions C72_step.
Print Assumptions C72_never_valueless.
Print Assumptions C73_visit.
Print Assumptions C74_hash_alternative.
