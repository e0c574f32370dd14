(** Proofs about expected. *)
From Coq Require Import PeanoNat.
From Verif Require Import Base ExpModel ExpSpec.

(** Lists *)
Section Lists.
Context {Y : Type}.
Implicit Types (l : list Y).
Lemma set_nth_length l i x : length (set_nth l i x) = length l.
Proof. revert i. induction l; intros [|i]; simpl; auto. Qed.
Lemma nth_set_same l i x : i < length l -> nth_error (set_nth l i x) i = Some x.
Proof. revert i. induction l; intros [|i] H; simpl in *; try lia; auto. apply IHl. lia. Qed.
Lemma nth_set_other l i j x : i <> j -> nth_error (set_nth l i x) j = nth_error l j.
Proof. revert i j. induction l; intros [|i] [|j] H; simpl in *; try lia; auto. Qed.
Lemma set_set l i x y : set_nth (set_nth l i x) i y = set_nth l i y.
Proof. revert i. induction l; intros [|i]; simpl; auto. now rewrite IHl. Qed.
Lemma set_comm l i j x y : i <> j ->
  set_nth (set_nth l i x) j y = set_nth (set_nth l j y) i x.
Proof. revert i j. induction l; intros [|i] [|j] H; simpl in *; try lia; auto. f_equal. apply IHl. lia. Qed.
Lemma set_same l i x : nth_error l i = Some x -> set_nth l i x = l.
Proof.
  revert i. induction l; intros [|i] H; simpl in *; try discriminate.
  - now injection H as ->.
  - now rewrite IHl.
Qed.
End Lists.

Section P.
Context {A B : Type} (mv : A -> A) (mve : B -> B) (dflt : A) (T E : traits).
Implicit Types (w : @world A B) (s : @state A B).

Definition conc w : list (option ex) := map (option_map obj) w.
Definition st w m g b : @state A B := State (conc w) m g b.

Lemma observe_obj (v : A + B) : observe (obj v) = Some v.
Proof. now destruct v. Qed.
Lemma view_st w m g b : view (st w m g b) = w.
Proof.
  unfold view, st, conc. cbn [vars]. rewrite map_map. rewrite <- (map_id w) at 2.
  apply map_ext. intros [v|]; [|reflexivity]. cbn. now rewrite observe_obj.
Qed.
Lemma conc_set w i v : conc (set_nth w i v) = set_nth (conc w) i (option_map obj v).
Proof. unfold conc. revert i. induction w; intros [|i]; simpl; auto. now rewrite IHw. Qed.
Lemma nth_conc w i : nth_error (conc w) i = option_map (option_map obj) (nth_error w i).
Proof. unfold conc. apply nth_error_map. Qed.
Lemma upd_set w i v : i < length w -> upd w i v = set_nth w i v.
Proof.
  unfold upd. revert i. induction w as [|a w IH]; intros [|i] H; simpl in *; try lia; auto.
  f_equal. apply IH. lia.
Qed.
Lemma conc_length w : length (conc w) = length w.
Proof. apply map_length. Qed.

Lemma see_nth w i v : see w i = Some v <-> nth_error w i = Some (Some v).
Proof. unfold see. destruct (nth_error w i) as [[u|]|]; split; congruence. Qed.
Lemma see_lt w i v : see w i = Some v -> i < length w.
Proof. intros H. apply see_nth in H. apply nth_error_Some. congruence. Qed.
Lemma free_nth w i : free w i = true <-> nth_error w i = Some None.
Proof. unfold free. destruct (nth_error w i) as [[u|]|]; split; congruence. Qed.
Lemma free_lt w i : free w i = true -> i < length w.
Proof. intros H. apply free_nth in H. apply nth_error_Some. congruence. Qed.
Lemma free_see w i j v : free w i = true -> see w j = Some v -> i <> j.
Proof. intros F S ->. apply free_nth in F. apply see_nth in S. congruence. Qed.
Lemma see_conc w i v : see w i = Some v -> nth_error (conc w) i = Some (Some (obj v)).
Proof. intros H. apply see_nth in H. now rewrite nth_conc, H. Qed.
Lemma free_conc w i : free w i = true -> nth_error (conc w) i = Some None.
Proof. intros H. apply free_nth in H. now rewrite nth_conc, H. Qed.

(** Counting *)
Lemma alive_set w i v u : nth_error w i = Some u ->
  alive (set_nth w i v) + holds u = alive w + holds v.
Proof.
  unfold alive. revert i. induction w as [|a w IH]; intros [|i] H; try discriminate.
  - injection H as ->. cbn [set_nth map]. unfold list_sum. cbn [fold_right]. lia.
  - specialize (IH i H). cbn [set_nth map]. unfold list_sum in *. cbn [fold_right]. lia.
Qed.
Lemma alive_upd w i v v' : see w i = Some v -> alive (set_nth w i (Some v')) = alive w.
Proof. intros H. apply see_nth in H. pose proof (alive_set w i (Some v') _ H). cbn [holds] in *. lia. Qed.
Lemma alive_new w i v : free w i = true -> alive (set_nth w i (Some v)) = S (alive w).
Proof. intros H. apply free_nth in H. pose proof (alive_set w i (Some v) _ H). cbn [holds] in *. lia. Qed.
Lemma alive_del w i v : see w i = Some v -> S (alive (set_nth w i None)) = alive w.
Proof. intros H. apply see_nth in H. pose proof (alive_set w i None _ H). cbn [holds] in *. lia. Qed.
Lemma see_set w i j v u : see w i = Some u -> see w j <> None -> see (set_nth w j (Some v)) i <> None.
Proof.
  intros H N. destruct (Nat.eq_dec j i) as [->|D].
  - unfold see. rewrite nth_set_same by (eapply see_lt; eauto). discriminate.
  - unfold see in *. rewrite nth_set_other by auto. destruct (nth_error w i) as [[?|]|]; congruence.
Qed.
Lemma alive_upd2 w i j v u v' u' : see w i = Some v -> see w j = Some u ->
  alive (set_nth (set_nth w i (Some v')) j (Some u')) = alive w.
Proof.
  intros H G. destruct (see (set_nth w i (Some v')) j) as [z|] eqn:Z.
  - rewrite (alive_upd _ _ _ _ Z). eapply alive_upd; eauto.
  - exfalso. eapply see_set; [exact G| |exact Z]. congruence.
Qed.
Lemma alive_new_upd w i j v u' v' : free w i = true -> see w j = Some v ->
  alive (set_nth (set_nth w j (Some v')) i (Some u')) = S (alive w).
Proof.
  intros F S. rewrite alive_new.
  - f_equal. eapply alive_upd; eauto.
  - apply free_nth. rewrite nth_set_other by (intros <-; eapply free_see; eauto). now apply free_nth.
Qed.

(** Result of a call: done with the specified world, or thrown, or terminated, or one of the
    hazards. *)
Definition good (op : eop A B) (w : world) (m g : nat) (b : option nat) (w1 : world) (r : res unit) : Prop :=
  (exists m' g' b', r = Done (st w1 m' g' b') tt /\ (b = None -> b' = None) /\
     m' + g + alive w = m + g' + alive w1 + is_convert op) \/
  (exists e w' m' g', r = Thrown e (st w' m' g' None) /\ b <> None /\ hazard T E w op = false /\
     after_throw w op w' /\ m' + g + alive w = m + g' + alive w') \/
  (r = Terminated /\ b <> None /\ can_terminate T E w op = true) \/
  (hazard T E w op = true /\ b <> None /\ (r = Undef \/ exists e s', r = Thrown e s')).
End P.

Ltac lens := rewrite ?set_nth_length, ?conc_length in *; assumption.
(** One step of symbolic execution *)
Ltac nth_ :=
  match goal with
  | |- context [nth_error (set_nth ?l ?i ?x) ?i] => rewrite (nth_set_same l i x) by lens
  | D : ?i <> ?j |- context [nth_error (set_nth ?l ?i ?x) ?j] => rewrite (nth_set_other l i j x D)
  | D : ?j <> ?i |- context [nth_error (set_nth ?l ?i ?x) ?j] => rewrite (nth_set_other l i j x) by (intros ?; apply D; congruence)
  | H : nth_error ?l ?i = Some _ |- context [nth_error ?l ?i] => rewrite H
  end.
Ltac red_ :=
  cbv beta iota zeta delta
    [bindc ret throw_ undef noexcept_ try_ get put count_made count_gone tick scoped
     rd_val rd_err poke_val poke_err new_val new_err del_val del_err take_val take_err set_has swap_has
     nt_arg use use_assign euse unused ctor_default ctor_value ctor_error ctor_no_init
     construct_copy construct_move construct_error_copy construct_error_move ctor_copy ctor_move
     ctor_convert dtor assign_common_copy assign_common_move assign_copy1 assign_copy2 assign_copy3
     assign_copy assign_move1 assign_move2 assign_move assign_value assign_unexpected_copy
     assign_unexpected_move emplace emplace_list swap_vals swap_errs swap_one1 swap_one2 swap_one3
     swap_one swap has_value deref write value error write_error value_or value_or_move drop
     vars made gone bud has slot obj of_val of_err negb andb orb option_map].
Lemma obind_some {X Y} (o : option X) (f : X -> option Y) y :
  obind o f = Some y -> exists x, o = Some x /\ f x = Some y.
Proof. destruct o; [eauto|discriminate]. Qed.


Ltac scrut t := lazymatch t with
  | match ?x with _ => _ end => scrut x
  | match ?x with _ => _ end _ => scrut x
  | _ => t
  end.
Ltac exec1 :=
  match goal with
  | |- good _ _ _ _ _ _ _ _ ?r =>
      let x := scrut r in
      lazymatch x with
      | nth_error _ _ => nth_
      | Done _ _ => fail
      | Thrown _ _ => fail
      | Terminated => fail
      | Undef => fail
      | _ => first [is_var x; destruct x | match goal with H : x = _ |- _ => rewrite H end | destruct x eqn:?]
      end
  end; red_.
Ltac exec := red_; repeat exec1.
Ltac norm_ :=
  repeat match goal with
  | |- context [set_nth (set_nth ?l ?i ?x) ?i ?y] => rewrite (set_set l i x y)
  | D : ?i <> ?j |- context [set_nth (set_nth (set_nth ?l ?i ?x) ?j ?y) ?i ?z] => rewrite (set_comm (set_nth l i x) j i y z) by congruence
  | D : ?j <> ?i |- context [set_nth (set_nth (set_nth ?l ?i ?x) ?j ?y) ?i ?z] => rewrite (set_comm (set_nth l i x) j i y z) by congruence
  end.


Ltac same_ :=
  unfold st; rewrite ?conc_set; norm_;
  first [ reflexivity
        | match goal with D : ?i <> ?j |- context [set_nth (set_nth (conc ?w) ?a ?x) ?b ?y] =>
            rewrite (set_comm (conc w) a b x y) by congruence; norm_; reflexivity end ].
Ltac bools :=
  cbn [hazard can_terminate];
  repeat match goal with H : see _ _ = Some _ |- _ => rewrite H; clear H end;
  cbn [is_val];
  repeat match goal with H : ?x = true |- _ => rewrite H; clear H | H : ?x = false |- _ => rewrite H; clear H end;
  cbn [nt_arg negb andb orb Bool.eqb];
  repeat match goal with H : ?x = true |- _ => rewrite H; clear H | H : ?x = false |- _ => rewrite H; clear H end;
  reflexivity.
Ltac count_ :=
  cbn [is_convert];
  repeat first
  [ erewrite alive_upd2 by eassumption | erewrite alive_new_upd by eassumption
  | erewrite alive_upd by eassumption | rewrite alive_new by assumption ];
  try match goal with H : see ?w ?i = Some _ |- context [alive (set_nth ?w ?i None)] => pose proof (alive_del w i _ H) end;
  lia.
Ltac fin_ :=
  lazymatch goal with
  | |- good _ _ _ _ _ _ _ _ (Done _ _) =>
      left; do 3 eexists; split; [same_|];
      split; [first [discriminate|auto; fail|intros _; reflexivity]|count_]
  | |- good _ _ _ ?w _ _ _ _ Terminated => right; right; left; split; [reflexivity|]; split; [congruence|bools]
  | |- good _ _ _ _ _ _ _ _ Undef => right; right; right; split; [bools|]; split; [congruence|left; reflexivity]
  | |- good _ _ _ ?w _ _ _ _ (Thrown ?e _) =>
      first [ right; left; exists e, w; do 2 eexists; split; [same_|];
              split; [congruence|]; split; [bools|]; split; [left; reflexivity|count_]
            | right; right; right; split; [bools|]; split; [congruence|right; do 2 eexists; reflexivity] ]
  end.
Ltac open2 H v u S S' L L' N N' :=
  apply obind_some in H; destruct H as (v & S & H);
  apply obind_some in H; destruct H as (u & S' & H); injection H as <-;
  pose proof (see_lt _ _ _ S) as L; pose proof (see_lt _ _ _ S') as L';
  pose proof (see_conc _ _ _ S) as N; pose proof (see_conc _ _ _ S') as N';
  rewrite ?upd_set by (rewrite ?upd_set, ?set_nth_length by assumption; assumption).

Section Q.
Context {A B : Type} (mv : A -> A) (mve : B -> B) (dflt : A) (T E : traits).
Implicit Types (w : @world A B) (s : @state A B).

Lemma assign_copy_good w m g b i j w1 : meaning mv mve dflt T E w (AssignCopy i j) = Some w1 ->
  good T E (AssignCopy i j) w m g b w1 (assign_copy mve T E i j (st w m g b)).
Proof.
  unfold meaning. cbn [viable negb]. intros H. open2 H v u P P' L L' Q Q'. unfold st.
  destruct (Nat.eq_dec i j) as [<-|D].
  - rewrite P in P'. injection P' as <-.
    destruct v as [x|e]; cbn [obj of_val of_err] in Q; exec; fin_.
  - destruct v as [x|e], u as [y|f]; cbn [obj of_val of_err] in Q, Q'; exec; fin_.
Qed.

Lemma assign_move_good w m g b i j w1 : meaning mv mve dflt T E w (AssignMove i j) = Some w1 ->
  good T E (AssignMove i j) w m g b w1 (assign_move mv mve T E i j (st w m g b)).
Proof.
  unfold meaning. cbn [viable negb]. intros H. open2 H v u P P' L L' Q Q'. unfold st.
  destruct (Nat.eq_dec i j) as [<-|D].
  - rewrite P in P'. injection P' as <-.
    destruct v as [x|e]; cbn [obj of_val of_err moved] in *; exec; fin_.
  - destruct v as [x|e], u as [y|f]; cbn [obj of_val of_err moved] in *; exec; fin_.
Qed.

Lemma ctor_copy_good w m g b i j w1 : meaning mv mve dflt T E w (NewCopy i j) = Some w1 ->
  good T E (NewCopy i j) w m g b w1 (ctor_copy T E i j (st w m g b)).
Proof.
  unfold meaning. cbn [viable negb]. destruct (free w i) eqn:F; [|discriminate]. intros H.
  apply obind_some in H. destruct H as (v & P & H). injection H as <-.
  pose proof (see_lt _ _ _ P) as L. pose proof (free_lt _ _ F) as L'.
  pose proof (see_conc _ _ _ P) as Q. pose proof (free_conc _ _ F) as Q'.
  pose proof (free_see _ _ _ _ F P) as D.
  rewrite ?upd_set by assumption. unfold st.
  destruct v as [x|e]; cbn [obj of_val of_err moved] in *; exec; fin_.
Qed.

Lemma ctor_move_good w m g b i j w1 : meaning mv mve dflt T E w (NewMove i j) = Some w1 ->
  good T E (NewMove i j) w m g b w1 (ctor_move mv mve T E i j (st w m g b)).
Proof.
  unfold meaning. cbn [viable negb]. destruct (free w i) eqn:F; [|discriminate]. intros H.
  apply obind_some in H. destruct H as (v & P & H). injection H as <-.
  pose proof (see_lt _ _ _ P) as L. pose proof (free_lt _ _ F) as L'.
  pose proof (see_conc _ _ _ P) as Q. pose proof (free_conc _ _ F) as Q'.
  pose proof (free_see _ _ _ _ F P) as D.
  rewrite ?upd_set by (rewrite ?upd_set, ?set_nth_length by assumption; assumption). unfold st.
  destruct v as [x|e]; cbn [obj of_val of_err moved] in *; exec; fin_.
Qed.

Lemma ctor_convert_good w m g b i src w1 : meaning mv mve dflt T E w (NewConvert i src) = Some w1 ->
  good T E (NewConvert i src) w m g b w1 (ctor_convert dflt i src (st w m g b)).
Proof.
  unfold meaning. cbn [viable negb]. destruct (free w i) eqn:F; [|discriminate]. intros H.
  injection H as <-. pose proof (free_lt _ _ F) as L'. pose proof (free_conc _ _ F) as Q'.
  rewrite ?upd_set by assumption. unfold st.
  destruct src as [x|e]; exec; fin_.
Qed.

Lemma ctor_default_good w m g b i w1 : meaning mv mve dflt T E w (NewDefault i) = Some w1 ->
  good T E (NewDefault i) w m g b w1 (ctor_default dflt i (st w m g b)).
Proof.
  unfold meaning. cbn [viable negb]. destruct (free w i) eqn:F; [|discriminate]. intros H.
  injection H as <-. pose proof (free_lt _ _ F) as L'. pose proof (free_conc _ _ F) as Q'.
  rewrite ?upd_set by assumption. unfold st. exec; fin_.
Qed.

Lemma ctor_error_good w m g b i a w1 : meaning mv mve dflt T E w (NewError i a) = Some w1 ->
  good T E (NewError i a) w m g b w1 (ctor_error E i a (st w m g b)).
Proof.
  unfold meaning. cbn [viable negb]. destruct (free w i) eqn:F; [|discriminate]. intros H.
  injection H as <-. pose proof (free_lt _ _ F) as L'. pose proof (free_conc _ _ F) as Q'.
  rewrite ?upd_set by assumption. unfold st. destruct a; exec; fin_.
Qed.

Lemma ref_some w j x : arg_value w (Ref j) = Some x -> see w j = Some (inl x).
Proof. cbn [arg_value]. destruct (see w j) as [[y|e]|]; congruence. Qed.

Ltac open_arg a y H' :=
  let R := fresh "R" in let RC := fresh "RC" in let RL := fresh "RL" in
  destruct a as [y|y|nt y|j];
  [injection H' as ->..|apply ref_some in H'; pose proof H' as R; clear H';
     pose proof (see_conc _ _ _ R) as RC; pose proof (see_lt _ _ _ R) as RL; cbn [obj of_val of_err] in RC].

Lemma ctor_value_good w m g b i a w1 : meaning mv mve dflt T E w (NewValue i a) = Some w1 ->
  good T E (NewValue i a) w m g b w1 (ctor_value T i a (st w m g b)).
Proof.
  unfold meaning. cbn [viable negb]. destruct (free w i) eqn:F; [|discriminate]. intros H.
  apply obind_some in H. destruct H as (x & H' & H).
  injection H as <-. pose proof (free_lt _ _ F) as L'. pose proof (free_conc _ _ F) as Q'.
  rewrite ?upd_set by assumption. unfold st. open_arg a y H'; exec; fin_.
Qed.

Lemma dtor_good w m g b i w1 : meaning mv mve dflt T E w (Delete i) = Some w1 ->
  good T E (Delete i) w m g b w1 (dtor i (st w m g b)).
Proof.
  unfold meaning. cbn [viable negb]. intros H.
  apply obind_some in H. destruct H as (v & P & H). injection H as <-.
  pose proof (see_lt _ _ _ P) as L. pose proof (see_conc _ _ _ P) as Q.
  rewrite ?upd_set by assumption. unfold st.
  destruct v as [x|e]; cbn [obj of_val of_err] in *; exec; fin_.
Qed.

Lemma assign_value_good w m g b i a w1 : meaning mv mve dflt T E w (AssignValue i a) = Some w1 ->
  good T E (AssignValue i a) w m g b w1 (assign_value mve T E i a (st w m g b)).
Proof.
  unfold meaning. cbn [viable]. destruct (nt_move E) eqn:NE; [|discriminate]. cbn [negb]. intros H.
  apply obind_some in H. destruct H as (v & P & H).
  apply obind_some in H. destruct H as (x & H' & H). injection H as <-.
  pose proof (see_lt _ _ _ P) as L. pose proof (see_conc _ _ _ P) as Q.
  rewrite ?upd_set by assumption. unfold st.
  open_arg a y H'; try (destruct (Nat.eq_dec i j) as [<-|D]; [|]);
    destruct v as [z|e]; cbn [obj of_val of_err] in *; try congruence; exec; fin_.
Qed.

Lemma assign_unexpected_good w m g b i a w1 : meaning mv mve dflt T E w (AssignUnexpected i a) = Some w1 ->
  good T E (AssignUnexpected i a) w m g b w1
    (match a with ELVal e => assign_unexpected_copy E i e | ERVal e => assign_unexpected_move E i e end (st w m g b)).
Proof.
  unfold meaning. destruct a as [f|f]; cbn [viable earg_value];
    [destruct (nt_move E) eqn:NE|destruct (nt_copy E) eqn:NE]; try discriminate; cbn [negb]; intros H;
    apply obind_some in H; destruct H as (v & P & H); injection H as <-;
    pose proof (see_lt _ _ _ P) as L; pose proof (see_conc _ _ _ P) as Q;
    rewrite ?upd_set by assumption; unfold st;
    destruct v as [x|e]; cbn [obj of_val of_err] in *; exec; fin_.
Qed.

Lemma write_error_good w m g b i a w1 : meaning mv mve dflt T E w (WriteError i a) = Some w1 ->
  good T E (WriteError i a) w m g b w1 (write_error E i a (st w m g b)).
Proof.
  unfold meaning. cbn [viable negb]. intros H;
    apply obind_some in H; destruct H as (v & P & H). destruct v as [x|e]; cbn [is_val] in H; [discriminate|].
    injection H as <-;
    pose proof (see_lt _ _ _ P) as L; pose proof (see_conc _ _ _ P) as Q;
    rewrite ?upd_set by assumption; unfold st;
    destruct a; cbn [obj of_val of_err earg_value] in *; exec; fin_.
Qed.

Lemma write_good w m g b i a w1 : meaning mv mve dflt T E w (Write i a) = Some w1 ->
  good T E (Write i a) w m g b w1 (write T i a (st w m g b)).
Proof.
  unfold meaning. cbn [viable negb]. intros H;
    apply obind_some in H; destruct H as (v & P & H). destruct v as [x|e]; cbn [is_val] in H; [|discriminate].
  apply obind_some in H. destruct H as (y & H' & H). injection H as <-.
  pose proof (see_lt _ _ _ P) as L; pose proof (see_conc _ _ _ P) as Q.
  rewrite ?upd_set by assumption; unfold st.
  open_arg a z H'; try (destruct (Nat.eq_dec i j) as [<-|D]; [|]);
    cbn [obj of_val of_err] in *; try congruence; exec; fin_.
Qed.

Lemma emplace_list_good w m g b i a w1 : meaning mv mve dflt T E w (EmplaceList i a) = Some w1 ->
  good T E (EmplaceList i a) w m g b w1 (emplace_list mve T E i a (st w m g b)).
Proof.
  unfold meaning. cbn [viable negb]. intros H.
  apply obind_some in H. destruct H as (v & P & H).
  apply obind_some in H. destruct H as (x & H' & H). injection H as <-.
  pose proof (see_lt _ _ _ P) as L. pose proof (see_conc _ _ _ P) as Q.
  rewrite ?upd_set by assumption. unfold st.
  open_arg a y H'; try (destruct (Nat.eq_dec i j) as [<-|D]; [|]);
    destruct v as [z|e]; cbn [obj of_val of_err] in *; try congruence; exec; fin_.
Qed.

Lemma emplace_good w m g b i a w1 : meaning mv mve dflt T E w (Emplace i a) = Some w1 ->
  good T E (Emplace i a) w m g b w1 (emplace mve T E i a (st w m g b)).
Proof.
  unfold meaning. cbn [viable negb]. intros H. apply obind_some in H. destruct H as (v & P & H).
  assert (H2 : (forall j, a = Ref j -> i <> j) /\
               obind (arg_value w a) (fun x => Some (upd w i (Some (inl x)))) = Some w1).
  { destruct a as [y|y|nt y|j]; [split; [congruence|exact H]..|].
    destruct (Nat.eqb_spec i j) as [->|D]; [discriminate|]. split; [congruence|exact H]. }
  clear H. destruct H2 as [D0 H].
  apply obind_some in H. destruct H as (x & H' & H). injection H as <-.
  pose proof (see_lt _ _ _ P) as L. pose proof (see_conc _ _ _ P) as Q.
  rewrite ?upd_set by assumption. unfold st.
  open_arg a y H'; try (pose proof (D0 _ eq_refl) as D); clear D0;
    destruct v as [z|e]; cbn [obj of_val of_err] in *; try congruence; exec; fin_.
Qed.

Lemma take_or_good w m g b i a w1 : meaning mv mve dflt T E w (TakeOr i a) = Some w1 ->
  good T E (TakeOr i a) w m g b w1 (drop (value_or_move mv T i a (st w m g b))).
Proof.
  unfold meaning. cbn [viable negb]. intros H.
  apply obind_some in H. destruct H as (v & P & H).
  apply obind_some in H. destruct H as (x & H' & H). injection H as <-.
  pose proof (see_lt _ _ _ P) as L. pose proof (see_conc _ _ _ P) as Q.
  rewrite ?upd_set by assumption.
  destruct v as [z|e]; cbn [is_val moved].
  - unfold st. open_arg a y H'; try (destruct (Nat.eq_dec i j) as [<-|D]; [|]);
      cbn [obj of_val of_err] in *; try congruence;
      try match goal with H1 : see w ?k = Some (inl ?a), H2 : see w ?k = Some (inl ?b) |- _ =>
        rewrite H1 in H2; injection H2 as -> end; exec; fin_.
  - rewrite (set_same w i) by now apply see_nth. unfold st.
    open_arg a y H'; try (destruct (Nat.eq_dec i j) as [<-|D]; [|]);
      cbn [obj of_val of_err] in *; try congruence; exec; fin_.
Qed.

(** A state after an exception in the middle of std::swap *)
Lemma swap_mid w i j v u v' u' l m g b m' g' :
  see w i = Some v -> see w j = Some u -> is_val v = is_val u -> is_val v' = is_val v -> is_val u' = is_val u ->
  l = set_nth (set_nth (conc w) i (Some (obj v'))) j (Some (obj u')) ->
  m' + g = m + g' -> b <> None ->
  good T E (Swap i j) w m g b (set_nth (set_nth w i (Some u)) j (Some v)) (Thrown User (State l m' g' None)).
Proof.
  intros P P' V1 V2 V3 -> C N. right. left.
  exists User, (set_nth (set_nth w i (Some v')) j (Some u')), m', g'.
  split; [unfold st; now rewrite !conc_set|]. split; [exact N|]. split.
  { cbn [hazard]. rewrite P, P', V1, Bool.eqb_reflx. reflexivity. }
  split.
  - right. exists i, j, v, u, v', u'. repeat (split; [first [reflexivity|assumption]|]).
    rewrite !upd_set; [reflexivity| |]; rewrite ?upd_set, ?set_nth_length; eapply see_lt; eauto.
  - rewrite (alive_upd2 w i j v u) by assumption. lia.
Qed.

Lemma swap_good w m g b i j w1 : meaning mv mve dflt T E w (Swap i j) = Some w1 ->
  good T E (Swap i j) w m g b w1 (swap mv mve T E i j (st w m g b)).
Proof.
  unfold meaning. cbn [viable]. destruct (nt_move T || nt_move E) eqn:V; [|discriminate]. cbn [negb].
  intros H. open2 H v u P P' L L' Q Q'. unfold st.
  destruct (Nat.eq_dec i j) as [<-|D].
  - rewrite P in P'. injection P' as <-.
    destruct v as [x|e]; cbn [obj of_val of_err] in *; exec; try fin_.
    all: first [ eapply (swap_mid w i i (inl x) (inl x) (inl (mv x)) (inl (mv x)))
               | eapply (swap_mid w i i (inr e) (inr e) (inr (mve e)) (inr (mve e))) ];
      try eassumption; try reflexivity; try discriminate; try lia; norm_; reflexivity.
  - destruct v as [x|e], u as [y|f]; cbn [obj of_val of_err] in *; exec; try fin_.
    all: try (exfalso; discriminate V).
    all: first
      [ eapply (swap_mid w i j (inl x) (inl y) (inl (mv x)) (inl y));
          [eassumption|eassumption|reflexivity|reflexivity|reflexivity| |lia|discriminate];
          rewrite (set_same _ j) by (rewrite nth_set_other by assumption; assumption); reflexivity
      | eapply (swap_mid w i j (inr e) (inr f) (inr (mve e)) (inr f));
          [eassumption|eassumption|reflexivity|reflexivity|reflexivity| |lia|discriminate];
          rewrite (set_same _ j) by (rewrite nth_set_other by assumption; assumption); reflexivity
      | eapply (swap_mid w i j (inl x) (inl y) (inl y) (inl (mv y)));
          [eassumption|eassumption|reflexivity|reflexivity|reflexivity| |lia|discriminate]; norm_; reflexivity
      | eapply (swap_mid w i j (inr e) (inr f) (inr f) (inr (mve f)));
          [eassumption|eassumption|reflexivity|reflexivity|reflexivity| |lia|discriminate]; norm_; reflexivity ].
Qed.

Theorem call_good w m g b op w1 : meaning mv mve dflt T E w op = Some w1 ->
  good T E op w m g b w1 (call mv mve dflt T E op (st w m g b)).
Proof.
  destruct op; cbn [call].
  - apply ctor_default_good.
  - apply ctor_value_good.
  - apply ctor_error_good.
  - apply ctor_copy_good.
  - apply ctor_move_good.
  - apply ctor_convert_good.
  - apply dtor_good.
  - apply assign_copy_good.
  - apply assign_move_good.
  - apply assign_value_good.
  - intros H. pose proof (assign_unexpected_good w m g b i a w1 H). now destruct a.
  - apply emplace_good.
  - apply emplace_list_good.
  - apply write_good.
  - apply write_error_good.
  - apply swap_good.
  - apply take_or_good.
Qed.

(** States *)
Definition canon s : Prop := vars s = conc (view s).
Lemma canon_st s g : canon s -> with_budget g s = st (view s) (made s) (gone s) g.
Proof. intros H. unfold with_budget, st. now rewrite <- H. Qed.
Lemma canon_st' s : canon s -> s = st (view s) (made s) (gone s) (bud s).
Proof. intros H. destruct s as [v m g b]. unfold st. cbn [vars made gone bud]. rewrite <- H. reflexivity. Qed.
Lemma st_canon w m g b : canon (st w m g b).
Proof. unfold canon. now rewrite view_st. Qed.
Lemma alive_none n : @alive A B (none n) = 0.
Proof. unfold alive, none, list_sum. induction n; cbn; auto. Qed.
Lemma start_st n g : @start A B n g = st (none n) 0 0 g.
Proof. unfold start, st, none, conc. f_equal. induction n; cbn; [reflexivity|]. now rewrite <- IHn. Qed.

Definition counts s : Prop := made s = gone s + alive (view s).
Lemma call_canon s g op w1 : canon s -> meaning mv mve dflt T E (view s) op = Some w1 ->
  (exists s', call mv mve dflt T E op (with_budget g s) = Done s' tt /\ canon s' /\ view s' = w1 /\
     (g = None -> bud s' = None) /\
     made s' + gone s + alive (view s) = made s + gone s' + alive (view s') + is_convert op) \/
  (exists e s', call mv mve dflt T E op (with_budget g s) = Thrown e s' /\ canon s' /\ g <> None /\
     hazard T E (view s) op = false /\ after_throw (view s) op (view s') /\
     made s' + gone s + alive (view s) = made s + gone s' + alive (view s')) \/
  (call mv mve dflt T E op (with_budget g s) = Terminated /\ g <> None /\ can_terminate T E (view s) op = true) \/
  (hazard T E (view s) op = true /\ g <> None /\
     (call mv mve dflt T E op (with_budget g s) = Undef \/ exists e s', call mv mve dflt T E op (with_budget g s) = Thrown e s')).
Proof.
  intros C H. rewrite (canon_st _ _ C).
  destruct (call_good (view s) (made s) (gone s) g op w1 H)
    as [(m' & g' & b' & R & N & M)|[(e & w' & m' & g' & R & N & Z & U & M)|[(R & N & Z)|(Z & N & R)]]].
  - left. rewrite R. eexists. split; [reflexivity|]. split; [apply st_canon|]. rewrite view_st.
    split; [reflexivity|]. split; [exact N|]. exact M.
  - right. left. rewrite R. do 2 eexists. split; [reflexivity|]. split; [apply st_canon|]. rewrite view_st. auto.
  - right. right. left. auto.
  - right. right. right. auto.
Qed.

Lemma reach_canon n s : reach mv mve dflt T E n s -> canon s /\ counts s.
Proof.
  induction 1 as [g|s g op s' R [IH CT] M K H].
  { rewrite start_st. split; [apply st_canon|]. unfold counts. rewrite view_st, alive_none. reflexivity. }
  destruct (meaning mv mve dflt T E (view s) op) as [w1|] eqn:EQ; [|congruence].
  destruct (call_canon s g op w1 IH EQ) as [(t & C & Q & _ & _ & M')|[(e & t & C & Q & _ & _ & _ & M')|[(C & _)|(Z & _ & C)]]].
  - destruct H as [H|(_ & e' & H)]; rewrite C in H; [|discriminate]. injection H as <-.
    split; [exact Q|]. unfold counts in *. lia.
  - destruct H as [H|(_ & e' & H)]; rewrite C in H; [discriminate|]. injection H as _ <-.
    split; [exact Q|]. unfold counts in *. lia.
  - destruct H as [H|(_ & e' & H)]; rewrite C in H; discriminate.
  - destruct H as [H|(H & _)]; [|congruence]. destruct C as [C|(e & t & C)]; rewrite C in H; discriminate.
Qed.

Lemma calls_canon ops : forall s w, canon s -> bud s = None -> meanings mv mve dflt T E (view s) ops = Some w ->
  exists s', calls mv mve dflt T E ops s = Done s' tt /\ canon s' /\ view s' = w /\
    made s' + gone s + alive (view s) = made s + gone s' + alive (view s') + converts ops.
Proof.
  induction ops as [|op r IH]; intros s w C Bd H; cbn [meanings calls] in *.
  - injection H as <-. exists s. unfold converts, list_sum. cbn. split; [reflexivity|]. split; [exact C|]. split; [reflexivity|]. lia.
  - destruct (meaning mv mve dflt T E (view s) op) as [w1|] eqn:EQ; [|discriminate]. cbn [obind] in H.
    assert (S' : with_budget None s = s) by (destruct s; cbn in *; now subst).
    destruct (call_canon s None op w1 C EQ) as [(t & D & Q & V & N & M)|[(e & t & _ & _ & N & _)|[(_ & N & _)|(_ & N & _)]]];
      [|congruence..].
    rewrite S' in D. rewrite D. rewrite <- V in H.
    destruct (IH t w Q (N eq_refl) H) as (t' & D' & Q' & V' & M').
    exists t'. split; [exact D'|]. split; [exact Q'|]. split; [exact V'|]. unfold converts, list_sum in *. cbn [map fold_right]. lia.
Qed.

Lemma canon_sound s i o : canon s -> nth_error (vars s) i = Some (Some o) -> sound o.
Proof.
  intros C H. rewrite C, nth_conc in H. destruct (nth_error (view s) i) as [[v|]|]; try discriminate.
  cbn in H. injection H as <-. now destruct v.
Qed.
Lemma all_gone w : (forall i, see w i = None) -> alive w = 0.
Proof.
  unfold alive, list_sum. induction w as [|v w IH]; intros H; [reflexivity|].
  cbn. rewrite IH.
  - specialize (H 0). unfold see in H. cbn in H. now subst v.
  - intros i. exact (H (S i)).
Qed.
Lemma sound_obj (o : @ex A B) v : observe o = Some v <-> o = obj v.
Proof.
  split; [|intros ->; apply observe_obj].
  destruct o as [[] [|x|e]]; cbn; intros H; try discriminate; injection H as <-; reflexivity.
Qed.
End Q.

(** Calls that do not throw *)
Section R.
Context {A B : Type} (mv : A -> A) (mve : B -> B) (dflt : A) (T E : traits).
Implicit Types (w : @world A B) (s : @state A B).
Definition calm {X} (r : @res A B X) : Prop := match r with Thrown _ _ | Terminated => False | _ => True end.
Lemma calm_bind {X Y} (c : comp X) (f : X -> comp Y) s :
  calm (c s) -> (forall x t, calm (f x t)) -> calm (bindc c f s).
Proof. unfold bindc. destruct (c s); cbn; auto. Qed.
Lemma calm_noexcept {X} b (c : comp X) s : calm (c s) -> calm (noexcept_ b c s).
Proof. unfold noexcept_. destruct (c s); cbn; auto. contradiction. Qed.
Lemma calm_try {X} (c : comp X) h s : calm (c s) -> calm (try_ c h s).
Proof. unfold try_. destruct (c s); cbn; auto. contradiction. Qed.
Lemma calm_scoped {X} (c : comp X) s : (forall t, calm (c t)) -> calm (scoped c s).
Proof. intros H. unfold scoped, bindc, count_made. match goal with |- context [c ?t] => specialize (H t); destruct (c t) end; cbn in *; auto. Qed.
Lemma calm_get i s : calm (get i s).
Proof. unfold get. now destruct (nth_error (vars s) i) as [[?|]|]. Qed.
Lemma calm_unused i s : calm (unused i s).
Proof. unfold unused. now destruct (nth_error (vars s) i) as [[?|]|]. Qed.
Lemma calm_tick s : calm (tick true s).
Proof. exact I. Qed.
Lemma calm_drop {X} (r : @res A B X) : calm r -> calm (drop r).
Proof. now destruct r. Qed.
End R.
Ltac calm_ :=
  repeat first
    [ exact I | apply calm_get | apply calm_unused | apply calm_tick | apply calm_noexcept | apply calm_try
    | apply calm_drop | apply calm_scoped; intros
    | apply calm_bind; [|intros]
    | match goal with
      | |- calm ((if ?b then _ else _) _) => destruct b
      | |- calm ((match ?b with Raw => _ | Val _ => _ | Err _ => _ end) _) => destruct b
      end ].

Lemma quiet_calm {A B} (mv : A -> A) (mve : B -> B) dflt T E op s :
  all_noexcept T = true -> all_noexcept E = true -> quiet op = true -> calm (call mv mve dflt T E op s).
Proof.
  destruct T as [t1 t2 t3 t4], E as [e1 e2 e3 e4]. unfold all_noexcept. cbn [nt_copy nt_move nt_copy_assign nt_move_assign].
  intros HT HE. repeat (apply Bool.andb_true_iff in HT; destruct HT as [HT ?]).
  repeat (apply Bool.andb_true_iff in HE; destruct HE as [HE ?]). subst.
  destruct op; cbn [quiet quiet_arg call]; intros Q; try discriminate;
    try (destruct a; cbn [quiet_arg] in Q; try discriminate; try subst nt);
    unfold ctor_default, ctor_value, ctor_error, ctor_copy, ctor_move, ctor_convert, ctor_no_init, dtor,
      assign_copy, assign_copy1, assign_copy2, assign_copy3, assign_move, assign_move1, assign_move2,
      assign_common_copy, assign_common_move, assign_value, assign_unexpected_copy, assign_unexpected_move,
      emplace, emplace_list, write, write_error, swap, swap_one, swap_one1, swap_vals, swap_errs, value_or_move,
      construct_copy, construct_move, construct_error_copy, construct_error_move,
      use, use_assign, euse, nt_arg, swap_has, set_has, take_val, take_err, rd_val, rd_err, poke_val, poke_err,
      new_val, new_err, del_val, del_err;
    cbn [nt_copy nt_move nt_copy_assign nt_move_assign]; calm_.
Qed.
