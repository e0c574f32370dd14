(** Proofs about optional. *)
From Coq Require Import PeanoNat.
From Verif Require Import Base OptModel OptSpec.

Section P.
Context {A : Type} (mv : A -> A) (nm : bool).
Implicit Types (w : @world A) (s : @state A).

Definition enc (v : option A) : opt :=
  match v with None => Opt false Raw | Some x => Opt true (Live x) end.
Definition conc w : list (option opt) := map (option_map enc) w.
Definition st w m g b : @state A := State (conc w) m g b.

Lemma observe_enc v : observe (enc v) = v.
Proof. now destruct v. Qed.
Lemma view_st w m g b : view (st w m g b) = w.
Proof.
  unfold view, st, conc. cbn [vars]. rewrite map_map. rewrite <- (map_id w) at 2.
  apply map_ext. intros [v|]; [|reflexivity]. cbn. now rewrite observe_enc.
Qed.

(** Lists *)
Lemma set_nth_length {T} (l : list T) i x : length (set_nth l i x) = length l.
Proof. revert i. induction l; intros [|i]; simpl; auto. Qed.
Lemma nth_set_same {T} (l : list T) i x : i < length l -> nth_error (set_nth l i x) i = Some x.
Proof. revert i. induction l; intros [|i] H; simpl in *; try lia; auto. apply IHl. lia. Qed.
Lemma nth_set_other {T} (l : list T) i j x : i <> j -> nth_error (set_nth l i x) j = nth_error l j.
Proof. revert i j. induction l; intros [|i] [|j] H; simpl in *; try lia; auto. Qed.
Lemma set_set {T} (l : list T) i x y : set_nth (set_nth l i x) i y = set_nth l i y.
Proof. revert i. induction l; intros [|i]; simpl; auto. now rewrite IHl. Qed.
Lemma set_comm {T} (l : list T) i j x y : i <> j ->
  set_nth (set_nth l i x) j y = set_nth (set_nth l j y) i x.
Proof. revert i j. induction l; intros [|i] [|j] H; simpl in *; try lia; auto. f_equal. apply IHl. lia. Qed.
Lemma set_same {T} (l : list T) i x : nth_error l i = Some x -> set_nth l i x = l.
Proof.
  revert i. induction l; intros [|i] H; simpl in *; try discriminate.
  - now injection H as ->.
  - now rewrite IHl.
Qed.
Lemma conc_set w i v : conc (set_nth w i v) = set_nth (conc w) i (option_map enc v).
Proof. unfold conc. revert i. induction w; intros [|i]; simpl; auto. now rewrite IHw. Qed.
Lemma nth_conc w i : nth_error (conc w) i = option_map (option_map enc) (nth_error w i).
Proof. unfold conc. apply nth_error_map. Qed.
Lemma upd_set w i v : i < length w -> upd w i v = set_nth w i v.
Proof.
  unfold upd. revert i. induction w as [|a w IH]; intros [|i] H; simpl in *; try lia; auto.
  f_equal. apply IH. lia.
Qed.
Lemma conc_length w : length (conc w) = length w.
Proof. apply map_length. Qed.

Lemma see_nth w i v : see w i = Some v <-> nth_error w i = Some (Some v).
Proof. unfold see. destruct (nth_error w i) as [[u|]|]; split; congruence. Qed.
Lemma see_lt w i v : see w i = Some v -> i < length w.
Proof. intros H. apply see_nth in H. apply nth_error_Some. congruence. Qed.
Lemma free_nth w i : free w i = true <-> nth_error w i = Some None.
Proof. unfold free. destruct (nth_error w i) as [[u|]|]; split; congruence. Qed.
Lemma free_lt w i : free w i = true -> i < length w.
Proof. intros H. apply free_nth in H. apply nth_error_Some. congruence. Qed.

Lemma see_set_same w i v : i < length w -> see (set_nth w i v) i = v.
Proof. intros H. unfold see. now rewrite nth_set_same. Qed.
Lemma see_set_other w i j v : i <> j -> see (set_nth w i v) j = see w j.
Proof. intros H. unfold see. now rewrite nth_set_other. Qed.

(** Counting *)
Lemma alive_set w i v u : nth_error w i = Some u ->
  alive (set_nth w i v) + holds u = alive w + holds v.
Proof.
  unfold alive. revert i. induction w as [|a w IH]; intros [|i] H; try discriminate.
  - injection H as ->. cbn [set_nth map]. unfold list_sum. cbn [fold_right]. lia.
  - specialize (IH i H). cbn [set_nth map]. unfold list_sum in *. cbn [fold_right]. lia.
Qed.

(** Primitives on canonical states *)
Lemma get_st w m g b i v : see w i = Some v -> get i (st w m g b) = Done (st w m g b) (enc v).
Proof.
  intros H. apply see_nth in H. unfold get, st. cbn [vars]. rewrite nth_conc, H. reflexivity.
Qed.

Lemma get_raw (l : list (option (@opt A))) m g b i o : nth_error l i = Some (Some o) -> get i (State l m g b) = Done (State l m g b) o.
Proof. intros H. unfold get. cbn [vars]. now rewrite H. Qed.

Lemma rd_st w m g b i x : see w i = Some (Some x) -> rd i (st w m g b) = Done (st w m g b) x.
Proof. intros H. unfold rd, bindc. rewrite (get_st _ _ _ _ _ _ H). reflexivity. Qed.

Lemma poke_st w m g b i x y : see w i = Some (Some x) ->
  poke i y (st w m g b) = Done (st (set_nth w i (Some (Some y))) m g b) tt.
Proof.
  intros H. unfold poke, bindc. rewrite (get_st _ _ _ _ _ _ H). cbn [enc storage_ init_].
  unfold put, st. cbn [vars made gone bud]. now rewrite conc_set.
Qed.

Lemma take_st w m g b i x : see w i = Some (Some x) ->
  take mv i (st w m g b) = Done (st (set_nth w i (Some (Some (mv x)))) m g b) x.
Proof.
  intros H. unfold take, bindc. rewrite (rd_st _ _ _ _ _ _ H), (poke_st _ _ _ _ _ _ _ H). reflexivity.
Qed.

Lemma fill_st w m g b i x : see w i = Some None ->
  bindc (construct i x) (fun _ => set_init i true) (st w m g b)
  = Done (st (set_nth w i (Some (Some x))) (S m) g b) tt.
Proof.
  intros H. pose proof (see_lt _ _ _ H) as L. unfold construct, bindc.
  rewrite (get_st _ _ _ _ _ _ H). cbn [enc storage_ init_]. unfold put, count_made, st.
  cbn [vars made gone bud]. unfold set_init, bindc.
  rewrite (get_raw _ _ _ _ i (Opt false (Live x))) by (apply nth_set_same; now rewrite conc_length).
  unfold put. cbn [vars made gone bud storage_]. rewrite set_set, conc_set. reflexivity.
Qed.

Lemma destroy_st w m g b i x : see w i = Some (Some x) ->
  destroy i (st w m g b) = Done (State (set_nth (conc w) i (Some (Opt true Raw))) m (S g) b) tt.
Proof.
  intros H. unfold destroy, bindc. rewrite (get_st _ _ _ _ _ _ H). reflexivity.
Qed.

Definition h (v : option A) : nat := match v with Some _ => 1 | None => 0 end.

Lemma clear_st w m g b i v : see w i = Some v ->
  clear i (st w m g b) = Done (st (set_nth w i (Some None)) m (h v + g) b) tt.
Proof.
  intros H. pose proof (see_lt _ _ _ H) as L. unfold clear, bindc at 1.
  rewrite (get_st _ _ _ _ _ _ H). destruct v as [x|]; cbn [enc init_ h plus].
  - unfold bindc at 1. rewrite (destroy_st _ _ _ _ _ _ H). unfold set_init, bindc.
    rewrite (get_raw _ _ _ _ i (Opt true Raw)) by (apply nth_set_same; now rewrite conc_length).
    unfold put, st. cbn [vars made gone bud storage_]. rewrite set_set, conc_set. reflexivity.
  - unfold bindc at 1, ret. unfold set_init, bindc. rewrite (get_st _ _ _ _ _ _ H).
    unfold put, st. cbn [vars made gone bud storage_ enc]. now rewrite conc_set.
Qed.

Lemma dtor_st w m g b i v : see w i = Some v ->
  dtor i (st w m g b) = Done (st (set_nth w i None) m (h v + g) b) tt.
Proof.
  intros H. pose proof (see_lt _ _ _ H) as L. unfold dtor, bindc at 1.
  rewrite (get_st _ _ _ _ _ _ H). destruct v as [x|]; cbn [enc init_ h plus].
  - unfold bindc at 1. rewrite (destroy_st _ _ _ _ _ _ H). unfold bindc.
    rewrite (get_raw _ _ _ _ i (Opt true Raw)) by (apply nth_set_same; now rewrite conc_length).
    cbn [storage_]. unfold put, st. cbn [vars made gone bud storage_]. rewrite set_set, conc_set. reflexivity.
  - unfold bindc at 1, ret. unfold bindc. rewrite (get_st _ _ _ _ _ _ H).
    cbn [enc storage_]. unfold put, st. cbn [vars made gone bud]. now rewrite conc_set.
Qed.

(** Throwing *)
Lemma tick_st w m g b :
  (exists b', tick (st w m g b) = Done (st w m g b') tt /\ (b = None -> b' = None)) \/
  (tick (st w m g b) = Thrown UserException (st w m g None) /\ b <> None).
Proof.
  unfold tick, st. cbn [bud vars made gone]. destruct b as [[|k]|].
  - right. split; [reflexivity|discriminate].
  - left. eexists. split; [reflexivity|discriminate].
  - left. eexists. split; [reflexivity|auto].
Qed.

Lemma tick_move_st w m g b :
  (exists b', tick_move nm (st w m g b) = Done (st w m g b') tt /\ (b = None -> b' = None)) \/
  (tick_move nm (st w m g b) = Thrown UserException (st w m g None) /\ b <> None).
Proof.
  unfold tick_move. destruct nm; [|apply tick_st]. left. exists b. split; [reflexivity|auto].
Qed.

Lemma use_st w m g b a x : arg_value w a = Some x ->
  (exists b', use nm a (st w m g b) = Done (st w m g b') x /\ (b = None -> b' = None)) \/
  (use nm a (st w m g b) = Thrown UserException (st w m g None) /\ b <> None).
Proof.
  intros H. destruct a as [y|y|j]; cbn [use arg_value] in *.
  - injection H as ->. unfold bindc. destruct (tick_move_st w m g b) as [(b' & E & N)|(E & N)]; rewrite E.
    + left. exists b'. split; auto.
    + right. split; [reflexivity|assumption].
  - injection H as ->. unfold bindc. destruct (tick_st w m g b) as [(b' & E & N)|(E & N)]; rewrite E.
    + left. exists b'. split; auto.
    + right. split; [reflexivity|assumption].
  - unfold bindc. destruct (tick_st w m g b) as [(b' & E & N)|(E & N)]; rewrite E.
    + left. exists b'. split; auto. destruct (see w j) as [v|] eqn:S; [|discriminate]. subst v.
      now rewrite (rd_st _ _ _ _ _ _ S).
    + right. split; [reflexivity|assumption].
Qed.

(** Result of a call: done with the specified world, or thrown. *)
Definition good (op : oop A) (w : world) (m g : nat) (b : option nat) (w1 : world) (r : res unit) : Prop :=
  (exists m' g' b', r = Done (st w1 m' g' b') tt /\ (b = None -> b' = None) /\
     m + g' + alive w1 = m' + g + alive w) \/
  (exists e w' m' g', r = Thrown e (st w' m' g' None) /\ b <> None /\ length w' = length w /\
     after_throw w op w' /\ m + g' + alive w' = m' + g + alive w).
Lemma unused_st w m g b i : free w i = true -> unused i (st w m g b) = Done (st w m g b) tt.
Proof. intros H. apply free_nth in H. unfold unused, st. cbn [vars]. now rewrite nth_conc, H. Qed.

Lemma put_st w m g b i v : put i (option_map enc v) (st w m g b) = Done (st (set_nth w i v) m g b) tt.
Proof. unfold put, st. cbn [vars made gone bud]. now rewrite conc_set. Qed.

Lemma see_upd_alive w i v u : see w i = Some u ->
  alive (set_nth w i v) + h u = alive w + holds v.
Proof.
  intros H. apply see_nth in H. pose proof (alive_set w i v _ H) as E.
  destruct u; cbn [holds h] in *; lia.
Qed.
Lemma free_upd_alive w i v : free w i = true -> alive (set_nth w i v) = alive w + holds v.
Proof.
  intros H. apply free_nth in H. pose proof (alive_set w i v _ H) as E. cbn [holds] in E. lia.
Qed.

Ltac done_ := left; do 3 eexists; split; [reflexivity|]; split; [auto|].
Ltac thrown_ := right; do 4 eexists; split; [reflexivity|]; split; [auto; congruence|];
  split; [|split].

Lemma ctor_empty_st w m g b i : free w i = true ->
  ctor_empty i (st w m g b) = Done (st (set_nth w i (Some None)) m g b) tt.
Proof.
  intros H. unfold ctor_empty, bindc. rewrite (unused_st _ _ _ _ _ H).
  exact (put_st w m g b i (Some None)).
Qed.

(** initialize: with all outcomes *)
Lemma initialize_st w m g b i a x : see w i = Some None -> arg_value w a = Some x ->
  (exists b', initialize nm i a (st w m g b) = Done (st (set_nth w i (Some (Some x))) (S m) g b') tt
              /\ (b = None -> b' = None)) \/
  (initialize nm i a (st w m g b) = Thrown UserException (st w m g None) /\ b <> None).
Proof.
  intros H E. destruct (use_st w m g b a x E) as [(b' & U & N)|(U & N)].
  - left. exists b'. split; [|auto]. unfold initialize, bindc at 1. rewrite U. now apply fill_st.
  - right. split; [|assumption]. unfold initialize, bindc at 1. now rewrite U.
Qed.

Lemma initialize_move_st w m g b i j x : i <> j -> see w i = Some None -> see w j = Some (Some x) ->
  (exists b', initialize_move mv nm i j (st w m g b)
      = Done (st (set_nth (set_nth w j (Some (Some (mv x)))) i (Some (Some x))) (S m) g b') tt
              /\ (b = None -> b' = None)) \/
  (initialize_move mv nm i j (st w m g b) = Thrown UserException (st w m g None) /\ b <> None).
Proof.
  intros D H E.
  destruct (tick_move_st w m g b) as [(b' & U & N)|(U & N)].
  - left. exists b'. split; [|auto]. unfold initialize_move, bindc at 1. rewrite U. unfold bindc at 1. rewrite (take_st _ _ _ _ _ _ E).
    apply fill_st. rewrite see_set_other by auto. exact H.
  - right. split; [|assumption]. unfold initialize_move, bindc at 1. now rewrite U.
Qed.

Lemma arg_other w i v a x : (forall j, a = Ref j -> i <> j) -> arg_value w a = Some x ->
  arg_value (set_nth w i v) a = Some x.
Proof.
  intros N E. destruct a as [y|y|j]; cbn [arg_value] in *; auto.
  rewrite see_set_other; auto.
Qed.

Lemma obind_some {X Y} (o : option X) (f : X -> option Y) y :
  obind o f = Some y -> exists x, o = Some x /\ f x = Some y.
Proof. destruct o; [eauto|discriminate]. Qed.

Lemma dtor_back w m g b i : free w i = true ->
  dtor i (st (set_nth w i (Some None)) m g b) = Done (st w m g b) tt.
Proof.
  intros H. pose proof (free_lt _ _ H) as L.
  rewrite (dtor_st _ _ _ _ _ None) by now apply see_set_same.
  cbn [h plus]. rewrite set_set, set_same by now apply free_nth. reflexivity.
Qed.

Lemma free_see w i j v : free w i = true -> see w j = Some v -> i <> j.
Proof. intros F S ->. apply free_nth in F. apply see_nth in S. congruence. Qed.

Lemma call_NewCopy w m g b i j w1 : meaning mv w (NewCopy i j) = Some w1 ->
  good (NewCopy i j) w m g b w1 (ctor_copy nm i j (st w m g b)).
Proof.
  cbn [meaning]. destruct (free w i) eqn:F; [|discriminate]. intros H.
  apply obind_some in H. destruct H as (v & S & H). injection H as <-.
  pose proof (free_lt _ _ F) as L. rewrite upd_set by exact L.
  pose proof (free_see _ _ _ _ F S) as D. unfold ctor_copy, bindc at 1.
  rewrite (ctor_empty_st _ _ _ _ _ F). unfold ctor_body, bindc at 1.
  assert (S' : see (set_nth w i (Some None)) j = Some v) by (rewrite see_set_other; auto).
  rewrite (get_st _ _ _ _ _ _ S'). destruct v as [x|]; cbn [enc init_].
  - assert (V : see (set_nth w i (Some None)) i = Some None) by now apply see_set_same.
    change (bindc (use nm (Ref j)) (fun x0 => bindc (construct i x0) (fun _ => set_init i true)))
      with (initialize nm i (@Ref A j)).
    destruct (initialize_st _ m g b i (Ref j) x V) as [(b' & U & N)|(U & N)]; [cbn [arg_value]; now rewrite S'| |].
    + rewrite U, set_set. done_. rewrite (free_upd_alive _ _ _ F). cbn [holds]. lia.
    + rewrite U, (dtor_back _ _ _ _ _ F). thrown_; [reflexivity|reflexivity|lia].
  - unfold ret. done_. rewrite (free_upd_alive _ _ _ F). cbn [holds]. lia.
Qed.

Lemma call_NewMove w m g b i j w1 : meaning mv w (NewMove i j) = Some w1 ->
  good (NewMove i j) w m g b w1 (ctor_move mv nm i j (st w m g b)).
Proof.
  cbn [meaning]. destruct (free w i) eqn:F; [|discriminate]. intros H.
  apply obind_some in H. destruct H as (v & S & H). injection H as <-.
  pose proof (free_lt _ _ F) as L. pose proof (see_lt _ _ _ S) as L'.
  rewrite !upd_set by (rewrite ?set_nth_length, ?upd_set, ?set_nth_length; assumption).
  pose proof (free_see _ _ _ _ F S) as D. unfold ctor_move, bindc at 1.
  rewrite (ctor_empty_st _ _ _ _ _ F). unfold ctor_body, bindc at 1.
  assert (S' : see (set_nth w i (Some None)) j = Some v) by (rewrite see_set_other; auto).
  rewrite (get_st _ _ _ _ _ _ S'). destruct v as [x|]; cbn [enc init_ moved option_map].
  - assert (V : see (set_nth w i (Some None)) i = Some None) by now apply see_set_same.
    change (bindc (tick_move nm) (fun _ => bindc (take mv j) (fun x0 => bindc (construct i x0) (fun _ => set_init i true))))
      with (initialize_move mv nm i j).
    destruct (initialize_move_st _ m g b i j x D V S') as [(b' & U & N)|(U & N)].
    + rewrite U, (set_comm w i j), set_set by auto. done_.
      pose proof (see_upd_alive w j (Some (Some (mv x))) _ S) as E1.
      assert (F' : free (set_nth w j (Some (Some (mv x)))) i = true)
        by (apply free_nth; rewrite nth_set_other by auto; now apply free_nth).
      pose proof (free_upd_alive _ i (Some (Some x)) F') as E2. cbn [holds h] in *.
      rewrite E2. lia.
    + rewrite U, (dtor_back _ _ _ _ _ F). thrown_; [reflexivity|reflexivity|lia].
  - unfold ret. rewrite (set_same w j) by now apply see_nth. done_.
    rewrite (free_upd_alive _ _ _ F). cbn [holds]. lia.
Qed.

Lemma call_clear op w m g b i v : see w i = Some v ->
  good op w m g b (upd w i (Some None)) (clear i (st w m g b)).
Proof.
  intros S. rewrite upd_set by (eapply see_lt; eauto). rewrite (clear_st _ _ _ _ _ _ S). done_.
  pose proof (see_upd_alive w i (Some None) _ S). cbn [holds] in *. lia.
Qed.

Lemma call_use_poke op w m g b i a x y : after_throw w op w ->
  see w i = Some (Some y) -> arg_value w a = Some x ->
  good op w m g b (upd w i (Some (Some x))) (bindc (use nm a) (fun x => poke i x) (st w m g b)).
Proof.
  intros AT S E. rewrite upd_set by (eapply see_lt; eauto). unfold bindc.
  destruct (use_st w m g b a x E) as [(b' & U & N)|(U & N)]; rewrite U.
  - rewrite (poke_st _ _ _ _ _ _ _ S). done_.
    pose proof (see_upd_alive w i (Some (Some x)) _ S). cbn [holds h] in *. lia.
  - thrown_; [reflexivity|assumption|lia].
Qed.

Lemma call_initialize op w m g b i a x : after_throw w op w ->
  see w i = Some None -> arg_value w a = Some x ->
  good op w m g b (upd w i (Some (Some x))) (initialize nm i a (st w m g b)).
Proof.
  intros AT S E. rewrite upd_set by (eapply see_lt; eauto).
  destruct (initialize_st w m g b i a x S E) as [(b' & U & N)|(U & N)]; rewrite U.
  - done_. pose proof (see_upd_alive w i (Some (Some x)) _ S). cbn [holds h] in *. lia.
  - thrown_; [reflexivity|assumption|lia].
Qed.

Lemma call_AssignCopy w m g b i j w1 : meaning mv w (AssignCopy i j) = Some w1 ->
  good (AssignCopy i j) w m g b w1 (assign_copy nm i j (st w m g b)).
Proof.
  cbn [meaning]. intros H. apply obind_some in H. destruct H as (v & S & H).
  apply obind_some in H. destruct H as (u & S' & H). injection H as <-.
  unfold assign_copy, bindc at 1. rewrite (get_st _ _ _ _ _ _ S).
  unfold bindc at 1. rewrite (get_st _ _ _ _ _ _ S').
  destruct v as [x|], u as [y|]; cbn [enc init_ andb negb].
  - apply (call_use_poke (AssignCopy i j) w m g b i (Ref j) y x); auto; cbn; auto. now rewrite S'.
  - eapply call_clear; eauto.
  - apply call_initialize; auto; cbn; auto. now rewrite S'.
  - unfold ret. rewrite upd_set by (eapply see_lt; eauto). rewrite set_same by now apply see_nth.
    done_. lia.
Qed.

Lemma call_AssignMove w m g b i j w1 : meaning mv w (AssignMove i j) = Some w1 ->
  good (AssignMove i j) w m g b w1 (assign_move mv nm i j (st w m g b)).
Proof.
  cbn [meaning]. intros H. apply obind_some in H. destruct H as (v & S & H).
  apply obind_some in H. destruct H as (u & S' & H). injection H as <-.
  pose proof (see_lt _ _ _ S) as L. pose proof (see_lt _ _ _ S') as L'.
  rewrite !upd_set by (rewrite ?set_nth_length, ?upd_set, ?set_nth_length; assumption).
  unfold assign_move, bindc at 1. rewrite (get_st _ _ _ _ _ _ S).
  unfold bindc at 1. rewrite (get_st _ _ _ _ _ _ S').
  destruct v as [x|], u as [y|]; cbn [enc init_ andb negb moved option_map].
  - unfold bindc at 1. destruct (tick_move_st w m g b) as [(b' & U & N)|(U & N)]; rewrite U.
    + unfold bindc. rewrite (take_st _ _ _ _ _ _ S').
      assert (exists z, see (set_nth w j (Some (Some (mv y)))) i = Some (Some z)) as (z & Z).
      { destruct (Nat.eq_dec i j) as [->|D].
        - exists (mv y). now rewrite see_set_same.
        - exists x. now rewrite see_set_other by auto. }
      rewrite (poke_st _ _ _ _ _ _ _ Z). done_.
      pose proof (see_upd_alive w j (Some (Some (mv y))) _ S').
      pose proof (see_upd_alive _ i (Some (Some y)) _ Z). cbn [holds h] in *. lia.
    + thrown_; [reflexivity|reflexivity|lia].
  - rewrite (set_same w j) by now apply see_nth.
    rewrite (clear_st _ _ _ _ _ _ S). done_.
    pose proof (see_upd_alive w i (Some None) _ S). cbn [holds h] in *. lia.
  - assert (D : i <> j) by congruence.
    destruct (initialize_move_st w m g b i j y D S S') as [(b' & U & N)|(U & N)]; rewrite U.
    + done_. pose proof (see_upd_alive w j (Some (Some (mv y))) _ S').
      assert (Z : see (set_nth w j (Some (Some (mv y)))) i = Some None) by (rewrite see_set_other; auto).
      pose proof (see_upd_alive _ i (Some (Some y)) _ Z). cbn [holds h] in *. lia.
    + thrown_; [reflexivity|reflexivity|lia].
  - unfold ret. rewrite (set_same w j) by now apply see_nth. rewrite set_same by now apply see_nth.
    done_. lia.
Qed.

Lemma call_Emplace w m g b i a w1 : meaning mv w (Emplace i a) = Some w1 ->
  good (Emplace i a) w m g b w1 (emplace nm i a (st w m g b)).
Proof.
  cbn [meaning]. intros H. apply obind_some in H. destruct H as (v & S & H).
  assert (H' : (forall j, a = Ref j -> i <> j) /\
               obind (arg_value w a) (fun x => Some (upd w i (Some (Some x)))) = Some w1).
  { destruct a as [y|y|j]; [split; [congruence|exact H]..|].
    destruct (Nat.eqb_spec i j) as [->|D]; [discriminate|]. split; [congruence|exact H]. }
  clear H. destruct H' as [D H]. apply obind_some in H. destruct H as (x & E & H). injection H as <-.
  pose proof (see_lt _ _ _ S) as L. rewrite upd_set by exact L.
  unfold emplace, bindc at 1. rewrite (clear_st _ _ _ _ _ _ S).
  assert (Z : see (set_nth w i (Some None)) i = Some None) by now apply see_set_same.
  pose proof (see_upd_alive w i (Some None) _ S) as E1.
  destruct (initialize_st _ m (h v + g) b i a x Z (arg_other _ _ (Some None) _ _ D E)) as [(b' & U & N)|(U & N)];
    rewrite U.
  - rewrite set_set. done_. pose proof (see_upd_alive w i (Some (Some x)) _ S). cbn [holds h] in *. lia.
  - thrown_; [now rewrite set_nth_length|cbn; now rewrite upd_set|cbn [holds] in *; lia].
Qed.

Lemma call_Swap w m g b i j w1 : meaning mv w (Swap i j) = Some w1 ->
  good (Swap i j) w m g b w1 (swap mv nm i j (st w m g b)).
Proof.
  cbn [meaning]. intros H. apply obind_some in H. destruct H as (v & S & H).
  apply obind_some in H. destruct H as (u & S' & H). injection H as <-.
  pose proof (see_lt _ _ _ S) as L. pose proof (see_lt _ _ _ S') as L'.
  rewrite !upd_set by (rewrite ?set_nth_length, ?upd_set, ?set_nth_length; assumption).
  unfold swap, bindc at 1. rewrite (get_st _ _ _ _ _ _ S).
  unfold bindc at 1. rewrite (get_st _ _ _ _ _ _ S').
  destruct v as [x|], u as [y|]; cbn [enc init_ andb negb].
  - unfold swap_elements, bindc at 1.
    destruct (tick_move_st w m g b) as [(b1 & U & N)|(U & N)]; rewrite U.
    2:{ thrown_; [reflexivity|left; reflexivity|lia]. }
    unfold bindc at 1. rewrite (take_st _ _ _ _ _ _ S).
    set (wa := set_nth w i (Some (Some (mv x)))).
    unfold bindc at 1.
    change (count_made (st wa m g b1)) with (@Done A unit (st wa (Datatypes.S m) g b1) tt).
    cbv iota beta.
    unfold bindc at 1.
    assert (exists y', see wa j = Some (Some y') /\ (i <> j -> y' = y)) as (y' & Sj & Y').
    { unfold wa. destruct (Nat.eq_dec i j) as [->|D].
      - exists (mv x). rewrite see_set_same by auto. split; [auto|congruence].
      - exists y. now rewrite see_set_other by auto. }
    assert (Sia : see wa i = Some (Some (mv x))) by (unfold wa; now rewrite see_set_same).
    pose proof (see_upd_alive w i (Some (Some (mv x))) _ S) as E0.
    destruct (tick_move_st wa (Datatypes.S m) g b1) as [(b2 & U2 & N2)|(U2 & N2)]; rewrite U2.
    2:{ unfold count_gone, st. cbn [vars made gone bud].
        right. exists UserException, wa, (Datatypes.S m), (Datatypes.S g).
        split; [reflexivity|]. split; [intros ->; auto|]. unfold wa in *.
        split; [now rewrite set_nth_length|]. split.
        - right. exists (mv x). exists y'. split; [eauto|]. split; [eauto|].
          rewrite !upd_set by (rewrite ?set_nth_length, ?upd_set, ?set_nth_length; assumption).
          rewrite (set_same _ j); [reflexivity|]. now apply see_nth.
        - cbn [holds h] in *. lia. }
    unfold bindc at 1. rewrite (take_st _ _ _ _ _ _ Sj).
    set (wb := set_nth wa j (Some (Some (mv y')))).
    assert (exists x', see wb i = Some (Some x')) as (x' & Si).
    { unfold wb. destruct (Nat.eq_dec i j) as [->|D].
      - exists (mv y'). rewrite see_set_same; auto. unfold wa. now rewrite set_nth_length.
      - exists (mv x). rewrite see_set_other by auto. exact Sia. }
    unfold bindc at 1. rewrite (poke_st _ _ _ _ _ _ _ Si).
    set (wc := set_nth wb i (Some (Some y'))).
    assert (exists y2, see wc j = Some (Some y2)) as (y2 & Sj2).
    { unfold wc. destruct (Nat.eq_dec i j) as [->|D].
      - exists y'. rewrite see_set_same; auto. unfold wb, wa. now rewrite !set_nth_length.
      - exists (mv y'). rewrite see_set_other by auto. unfold wb. rewrite see_set_same; auto.
        unfold wa. now rewrite set_nth_length. }
    pose proof (see_upd_alive wa j (Some (Some (mv y'))) _ Sj) as E1.
    pose proof (see_upd_alive wb i (Some (Some y')) _ Si) as E2.
    unfold bindc at 1.
    assert (Hwc : wc = set_nth (set_nth w i (Some (Some y'))) j (Some (Some y2))).
    { unfold wc, wb, wa in *. destruct (Nat.eq_dec i j) as [->|D].
      - rewrite !set_set. rewrite see_set_same in Sj2 by now rewrite !set_nth_length.
        now injection Sj2 as <-.
      - rewrite see_set_other in Sj2 by auto. rewrite see_set_same in Sj2 by now rewrite set_nth_length.
        injection Sj2 as <-. rewrite (set_comm _ j i) by auto. now rewrite set_set. }
    destruct (tick_move_st wc (Datatypes.S m) g b2) as [(b3 & U3 & N3)|(U3 & N3)]; rewrite U3.
    2:{ unfold count_gone, st. cbn [vars made gone bud].
        right. exists UserException, wc, (Datatypes.S m), (Datatypes.S g).
        split; [reflexivity|]. split; [intros ->; auto|].
        split; [unfold wc, wb, wa; now rewrite !set_nth_length|]. split.
        - right. exists y', y2. split; [eauto|]. split; [eauto|].
          rewrite !upd_set by (rewrite ?set_nth_length, ?upd_set, ?set_nth_length; assumption).
          exact Hwc.
        - fold wa wb wc in E0, E1, E2. cbn [holds h] in *. lia. }
    rewrite (poke_st _ _ _ _ _ _ _ Sj2). unfold count_gone, st. cbn [vars made gone bud].
    pose proof (see_upd_alive wc j (Some (Some x)) _ Sj2) as E3.
    left. exists (Datatypes.S m), (Datatypes.S g), b3.
    assert (Hf : set_nth wc j (Some (Some x)) = set_nth (set_nth w i (Some (Some y))) j (Some (Some x))).
    { rewrite Hwc, set_set. destruct (Nat.eq_dec i j) as [->|D].
      - now rewrite !set_set.
      - now rewrite Y' by auto. }
    split; [now rewrite Hf|]. split; [auto|].
    rewrite <- Hf. fold wa wb wc in E0, E1, E2. cbn [holds h] in *. lia.
  - assert (D : j <> i) by congruence.
    unfold bindc at 1.
    destruct (initialize_move_st w m g b j i x D S' S) as [(b' & U & N)|(U & N)]; rewrite U.
    2:{ thrown_; [reflexivity|left; reflexivity|lia]. }
    assert (Z : see (set_nth (set_nth w i (Some (Some (mv x)))) j (Some (Some x))) i = Some (Some (mv x)))
      by (rewrite see_set_other by auto; now rewrite see_set_same).
    rewrite (clear_st _ _ _ _ _ _ Z). rewrite (set_comm _ j i), set_set by auto.
    done_.
    pose proof (see_upd_alive w i (Some None) _ S) as E1.
    assert (Z2 : see (set_nth w i (Some None)) j = Some None) by (rewrite see_set_other by auto; auto).
    pose proof (see_upd_alive _ j (Some (Some x)) _ Z2) as E2. cbn [holds h] in *. lia.
  - assert (D : i <> j) by congruence.
    unfold bindc at 1.
    destruct (initialize_move_st w m g b i j y D S S') as [(b' & U & N)|(U & N)]; rewrite U.
    2:{ thrown_; [reflexivity|left; reflexivity|lia]. }
    assert (Z : see (set_nth (set_nth w j (Some (Some (mv y)))) i (Some (Some y))) j = Some (Some (mv y)))
      by (rewrite see_set_other by auto; now rewrite see_set_same).
    rewrite (clear_st _ _ _ _ _ _ Z). rewrite (set_comm w j i), set_set by auto.
    done_.
    pose proof (see_upd_alive w i (Some (Some y)) _ S) as E1.
    assert (Z2 : see (set_nth w i (Some (Some y))) j = Some (Some y)) by (rewrite see_set_other by auto; auto).
    pose proof (see_upd_alive _ j (Some None) _ Z2) as E2. cbn [holds h] in *. lia.
  - unfold ret. rewrite (set_same w i) by now apply see_nth. rewrite set_same by now apply see_nth.
    done_. lia.
Qed.

Theorem call_good w m g b op w1 : meaning mv w op = Some w1 ->
  good op w m g b w1 (call mv nm op (st w m g b)).
Proof.
  destruct op as [i|i a|i j|i j|i|i|i|i j|i j|i a|i a|i a|i j|i a]; cbn [call].
  - cbn [meaning]. destruct (free w i) eqn:F; [|discriminate]. intros H. injection H as <-.
    rewrite upd_set by now apply free_lt. rewrite (ctor_empty_st _ _ _ _ _ F). done_.
    rewrite (free_upd_alive _ _ _ F). cbn [holds]. lia.
  - cbn [meaning]. destruct (free w i) eqn:F; [|discriminate]. intros H.
    apply obind_some in H. destruct H as (x & E & H). injection H as <-.
    rewrite upd_set by now apply free_lt. unfold ctor_value, bindc at 1.
    rewrite (unused_st _ _ _ _ _ F). unfold bindc at 1.
    destruct (use_st w m g b a x E) as [(b' & U & N)|(U & N)]; rewrite U.
    + unfold bindc. change (Some (Opt true (Live x))) with (option_map enc (Some (Some x))).
      rewrite put_st. unfold count_made, st. cbn [vars made gone bud].
      left. exists (S m), g, b'. split; [reflexivity|]. split; [auto|].
      rewrite (free_upd_alive _ _ _ F). cbn [holds]. lia.
    + thrown_; [reflexivity|reflexivity|lia].
  - apply call_NewCopy.
  - apply call_NewMove.
  - cbn [meaning]. intros H. apply obind_some in H. destruct H as (v & S & H). injection H as <-.
    rewrite upd_set by (eapply see_lt; eauto). rewrite (dtor_st _ _ _ _ _ _ S). done_.
    pose proof (see_upd_alive w i None _ S). cbn [holds] in *. lia.
  - cbn [meaning]. intros H. apply obind_some in H. destruct H as (v & S & H). injection H as <-.
    eapply call_clear; eauto.
  - cbn [meaning]. intros H. apply obind_some in H. destruct H as (v & S & H). injection H as <-.
    eapply call_clear; eauto.
  - apply call_AssignCopy.
  - apply call_AssignMove.
  - cbn [meaning]. intros H. apply obind_some in H. destruct H as (v & S & H).
    apply obind_some in H. destruct H as (x & E & H). injection H as <-.
    unfold assign_value, bindc at 1. rewrite (get_st _ _ _ _ _ _ S). destruct v as [y|]; cbn [enc init_].
    + eapply call_use_poke; eauto; reflexivity.
    + apply call_initialize; auto; reflexivity.
  - apply call_Emplace.
  - cbn [meaning]. intros H. apply obind_some in H. destruct H as (v & S & H).
    apply obind_some in H. destruct H as (y & -> & H).
    apply obind_some in H. destruct H as (x & E & H). injection H as <-.
    unfold write, bindc at 1. rewrite (get_st _ _ _ _ _ _ S). cbn [enc init_].
    eapply call_use_poke; eauto; reflexivity.
  - apply call_Swap.
  - cbn [meaning]. intros H. apply obind_some in H. destruct H as (v & S & H).
    apply obind_some in H. destruct H as (x & E & H). injection H as <-.
    rewrite upd_set by (eapply see_lt; eauto).
    unfold value_or_move, bindc at 1. rewrite (get_st _ _ _ _ _ _ S).
    destruct v as [y|]; cbn [enc init_ moved option_map].
    + unfold bindc at 1. destruct (tick_move_st w m g b) as [(b' & U & N)|(U & N)]; rewrite U.
      * rewrite (take_st _ _ _ _ _ _ S). done_.
        pose proof (see_upd_alive w i (Some (Some (mv y))) _ S). cbn [holds h] in *. lia.
      * thrown_; [reflexivity|reflexivity|lia].
    + destruct (use_st w m g b a x E) as [(b' & U & N)|(U & N)]; rewrite U.
      * rewrite set_same by now apply see_nth. done_. lia.
      * thrown_; [reflexivity|reflexivity|lia].
Qed.
End P.

Section Q.
Context {A : Type} (mv : A -> A) (nm : bool).
Implicit Types (w : @world A) (s : @state A).

Definition canon s : Prop := vars s = conc (view s) /\ made s = gone s + alive (view s).

Lemma canon_st s g : canon s -> with_budget g s = st (view s) (made s) (gone s) g.
Proof. intros [H _]. unfold with_budget, st. now rewrite <- H. Qed.
Lemma canon_st' s : canon s -> s = st (view s) (made s) (gone s) (bud s).
Proof. intros [H _]. destruct s as [v m g b]. unfold st. cbn [vars made gone bud] in *. now rewrite <- H. Qed.
Lemma st_canon w m g b : m = g + alive w -> canon (st w m g b).
Proof. intros H. split; rewrite view_st; [reflexivity|exact H]. Qed.

Lemma alive_none n : @alive A (none n) = 0.
Proof. unfold alive, none, list_sum. induction n; cbn; auto. Qed.
Lemma start_st n g : @start A n g = st (none n) 0 0 g.
Proof. unfold start, st, none, conc. f_equal. induction n; cbn; [reflexivity|]. now rewrite <- IHn. Qed.
Lemma start_canon n g : canon (@start A n g).
Proof. rewrite start_st. apply st_canon. now rewrite alive_none. Qed.

Lemma call_canon s g op w1 : canon s -> meaning mv (view s) op = Some w1 ->
  (exists s', call mv nm op (with_budget g s) = Done s' tt /\ canon s' /\ view s' = w1 /\
              (g = None -> bud s' = None)) \/
  (exists e s', call mv nm op (with_budget g s) = Thrown e s' /\ canon s' /\ g <> None /\
              after_throw (view s) op (view s')).
Proof.
  intros C H. rewrite (canon_st _ _ C).
  destruct (call_good mv nm (view s) (made s) (gone s) g op w1 H)
    as [(m' & g' & b' & E & N & M)|(e & w' & m' & g' & E & N & L & T & M)]; rewrite E; destruct C as [_ C].
  - left. eexists. split; [reflexivity|]. split; [apply st_canon; lia|]. split; [apply view_st|exact N].
  - right. do 2 eexists. split; [reflexivity|]. split; [apply st_canon; lia|].
    split; [exact N|]. now rewrite view_st.
Qed.

Lemma reach_canon n s : reach mv nm n s -> canon s.
Proof.
  induction 1 as [g|s g op s' R IH M H]; [apply start_canon|].
  destruct (meaning mv (view s) op) as [w1|] eqn:E; [|congruence].
  destruct (call_canon s g op w1 IH E) as [(t & C & K & _)|(e & t & C & K & _)].
  - destruct H as [H|(e' & H)]; rewrite C in H; [|discriminate]. now injection H as <-.
  - destruct H as [H|(e' & H)]; rewrite C in H; [discriminate|]. now injection H as _ <-.
Qed.

Lemma calls_canon ops : forall s w, canon s -> bud s = None -> meanings mv (view s) ops = Some w ->
  exists s', calls mv nm ops s = Done s' tt /\ canon s' /\ view s' = w.
Proof.
  induction ops as [|op r IH]; intros s w C B H; cbn [meanings calls] in *.
  - injection H as <-. exists s. auto.
  - destruct (meaning mv (view s) op) as [w1|] eqn:E; [|discriminate]. cbn [obind] in H.
    assert (S : with_budget None s = s) by (destruct s; cbn in *; now subst).
    destruct (call_canon s None op w1 C E) as [(t & D & K & V & N)|(e & t & _ & _ & N & _)]; [|congruence].
    rewrite S in D. rewrite D. apply IH; auto. now rewrite V.
Qed.

Lemma canon_sound s i o : canon s -> nth_error (vars s) i = Some (Some o) -> sound o.
Proof.
  intros [C _] H. rewrite C, nth_conc in H. destruct (nth_error (view s) i) as [[v|]|]; try discriminate.
  cbn in H. injection H as <-. unfold sound. destruct v as [x|]; cbn.
  - split; [eauto|reflexivity].
  - split; [discriminate|]. intros (x & X). discriminate.
Qed.

Lemma all_gone w : (forall i, see w i = None) -> alive w = 0.
Proof.
  unfold alive, list_sum. induction w as [|v w IH]; intros H; [reflexivity|].
  cbn. rewrite IH.
  - specialize (H 0). unfold see in H. cbn in H. now subst v.
  - intros i. exact (H (S i)).
Qed.

(** Calls that cannot throw *)
Definition calm {X} (c : comp X) : Prop := forall s e s', c s <> @Thrown A X e s'.
Lemma calm_ret {X} (x : X) : calm (ret x).
Proof. intros s e s'. discriminate. Qed.
Lemma calm_bind {X Y} (c : comp X) (f : X -> comp Y) : calm c -> (forall x, calm (f x)) -> calm (bindc c f).
Proof.
  intros C F s e s'. unfold bindc. destruct (c s) as [t x|e' t|] eqn:E; [apply F| |discriminate].
  now apply C in E.
Qed.
Lemma calm_get i : calm (get i).
Proof. intros s e s'. unfold get. destruct (nth_error (vars s) i) as [[?|]|]; discriminate. Qed.
Lemma calm_put i o : calm (put i o).
Proof. intros s e s'. discriminate. Qed.
Lemma calm_made : calm count_made.
Proof. intros s e s'. discriminate. Qed.
Lemma calm_gone : calm count_gone.
Proof. intros s e s'. discriminate. Qed.
Lemma calm_undef {X} : calm (@undef A X).
Proof. intros s e s'. discriminate. Qed.
Lemma calm_unused i : calm (unused i).
Proof. intros s e s'. unfold unused. destruct (nth_error (vars s) i) as [[?|]|]; discriminate. Qed.
Lemma calm_body i (c : @comp A unit) : calm c -> calm (ctor_body i c).
Proof.
  intros C s e s'. unfold ctor_body. destruct (c s) as [t x|e' t|] eqn:E; try discriminate.
  now apply C in E.
Qed.
Lemma calm_swap (c : @comp A unit) : calm c -> calm (fun s : state =>
     match c s with
     | Done s' _ => count_gone s'
     | Thrown e s' => match count_gone s' with Done s'' _ => Thrown e s'' | _ => Undef end
     | Undef => @Undef A unit
     end).
Proof.
  intros C s e s'. specialize (C s). destruct (c s) as [t x|e' t|]; try discriminate.
  exfalso. eapply C. reflexivity.
Qed.
End Q.

Ltac calm_ :=
  repeat first
    [ apply calm_ret | apply calm_get | apply calm_put | apply calm_made | apply calm_gone
    | apply calm_undef | apply calm_unused | apply calm_body
    | apply calm_bind; [|intros]
    | match goal with
      | |- calm (if ?b then _ else _) => destruct b
      | |- calm (match ?b with Raw => _ | Live _ => _ end) => destruct b
      end ].

Lemma no_throw {A} (mv : A -> A) nm op : never_throws nm op = true -> calm (call mv nm op).
Proof.
  intros H.
  destruct op as [i|i a|i j|i j|i|i|i|i j|i j|i a|i a|i a|i j|i a]; cbn in H;
    try discriminate; try (destruct a; try discriminate); try subst nm; cbn [call];
    unfold ctor_empty, ctor_value, ctor_move, dtor, assign_null, reset, assign_move, assign_value,
      write, emplace, swap, use, tick_move, initialize, initialize_move, clear, take, destroy, construct, poke, rd, set_init;
    try (calm_; fail).
  calm_. unfold swap_elements, tick_move, take, poke, rd. calm_. apply calm_swap. calm_.
Qed.

(** Observers *)
Section R.
Context {A : Type} (mv : A -> A) (nm : bool).
Implicit Types (w : @world A) (s : @state A).

Lemma value_canon s i v : canon s -> see (view s) i = Some v ->
  value i s = match v with Some x => Done s x | None => Thrown BadOptionalAccess s end.
Proof.
  intros C H. rewrite (canon_st' s C). unfold value, bindc at 1.
  rewrite (get_st _ _ _ _ _ _ H). destruct v as [x|]; cbn [enc init_]; [|reflexivity].
  now rewrite (rd_st _ _ _ _ _ _ H).
Qed.
Lemma deref_canon s i v : canon s -> see (view s) i = Some v ->
  deref i s = match v with Some x => Done s x | None => Undef end.
Proof.
  intros C H. rewrite (canon_st' s C). unfold deref, bindc at 1.
  rewrite (get_st _ _ _ _ _ _ H). destruct v as [x|]; cbn [enc init_]; [|reflexivity].
  now rewrite (rd_st _ _ _ _ _ _ H).
Qed.
Lemma has_canon s i v : canon s -> see (view s) i = Some v ->
  has_value i s = Done s (match v with Some _ => true | None => false end).
Proof.
  intros C H. rewrite (canon_st' s C). unfold has_value, bindc at 1.
  rewrite (get_st _ _ _ _ _ _ H). now destruct v.
Qed.
Lemma value_or_canon s i v a x : canon s -> bud s = None -> see (view s) i = Some v ->
  arg_value (view s) a = Some x ->
  value_or nm i a s = Done s (match v with Some y => y | None => x end).
Proof.
  intros C B H E. rewrite (canon_st' s C), B. unfold value_or, bindc at 1.
  rewrite (get_st _ _ _ _ _ _ H). destruct v as [y|]; cbn [enc init_].
  - unfold bindc, tick, st. cbn [bud]. exact (rd_st _ _ _ _ _ _ H).
  - destruct (use_st nm (view s) (made s) (gone s) None a x E) as [(b' & U & N)|(U & N)]; [|congruence].
    rewrite U. now rewrite N.
Qed.
Lemma value_or_move_canon s i v a x : canon s -> bud s = None -> see (view s) i = Some v ->
  arg_value (view s) a = Some x ->
  exists s', value_or_move mv nm i a s = Done s' (match v with Some y => y | None => x end).
Proof.
  intros C B H E. rewrite (canon_st' s C), B. unfold value_or_move, bindc at 1.
  rewrite (get_st _ _ _ _ _ _ H). destruct v as [y|]; cbn [enc init_].
  - unfold bindc. destruct (tick_move_st nm (view s) (made s) (gone s) None) as [(b' & U & N)|(U & N)]; [|congruence].
    rewrite U, (take_st _ _ _ _ _ _ _ H). eauto.
  - destruct (use_st nm (view s) (made s) (gone s) None a x E) as [(b' & U & N)|(U & N)]; [|congruence].
    rewrite U. eauto.
Qed.
Lemma emplace_self s i x : canon s -> bud s = None -> see (view s) i = Some (Some x) ->
  emplace nm i (Ref i) s = Undef.
Proof.
  intros C B H. rewrite (canon_st' s C), B. unfold emplace, bindc at 1.
  rewrite (clear_st _ _ _ _ _ _ H). unfold initialize, bindc at 1. cbn [use].
  unfold bindc at 1, tick, st. cbn [bud].
  unfold rd, bindc at 1.
  change (State (conc (set_nth (view s) i (Some None))) (made s) (h (Some x) + gone s) None)
    with (st (set_nth (view s) i (Some None)) (made s) (h (Some x) + gone s) None).
  rewrite (get_st _ _ _ _ _ None); [reflexivity|]. apply see_set_same. eapply see_lt; eauto.
Qed.

(** Relational operators *)
Lemma sound_cases (o : @opt A) : sound o ->
  (exists x, o = Opt true (Live x)) \/ o = Opt false Raw.
Proof.
  destruct o as [[] [|x]]; unfold sound; cbn; intros H.
  - destruct H as [H _]. destruct (H eq_refl) as (x & X). discriminate.
  - left. eauto.
  - right. reflexivity.
  - destruct H as [_ H]. enough (false = true) by discriminate. apply H. eauto.
Qed.
End R.
