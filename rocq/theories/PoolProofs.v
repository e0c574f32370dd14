(** Thread pool: mutual exclusion, stacks, lifetime of the pool. *)
From Coq Require Import ZArith List Bool Lia PeanoNat.
From Verif Require Import Base PoolModel PoolSpec.
Import ListNotations.

(** Case analysis over one step of the pool; [s] is the state before it. *)
Ltac projs := cbn [nw cap pending rids rnames next shut mtx clock wk stk owners refs fut valid freed
  with_pending with_running with_next with_shut with_mtx with_clock with_wk with_stk with_refs with_fut with_valid with_freed goto release disown] in *.
Ltac eqb_cases := unfold upd in *; repeat match goal with |- context [Nat.eqb ?a ?b] => destruct (Nat.eqb_spec a b); [subst|] end.

Definition b2n (b : bool) : nat := if b then 1 else 0.
Fixpoint cnt (p : frame -> bool) (l : list frame) : nat := match l with [] => 0 | f :: l' => b2n (p f) + cnt p l' end.
Lemma cnt_app p a b : cnt p (a ++ b) = cnt p a + cnt p b.
Proof. induction a; cbn [app cnt]; lia. Qed.
(** how many times thread t holds the mutex according to its program points *)
Definition nh (s : st) (t : nat) : nat := b2n (Nat.ltb t (nw s) && wholds (wk s t)) + cnt fholds (stk s t).
Definition own (m : option nat) (t : nat) : nat := match m with Some x => b2n (Nat.eqb t x) | None => 0 end.
Definition mutex_ok (s : st) : Prop := forall t, nh s t = own (mtx s) t.

Lemma body_same t o s s' r l : body t o s = (s', r, l) ->
  nw s' = nw s /\ cap s' = cap s /\ rids s' = rids s /\ rnames s' = rnames s /\ next s' = next s /\ shut s' = shut s /\ mtx s' = mtx s /\ clock s' = clock s /\
  wk s' = wk s /\ stk s' = stk s /\ owners s' = owners s /\ refs s' = refs s /\ valid s' = valid s /\ freed s' = freed s.
Proof.
  unfold body. destruct o; try (intros [= <- <- <-]; repeat split; fail).
  - destruct (index_of id (ids (pending s))); intros [= <- <- <-]; repeat split.
Qed.

Lemma wholds_wake f w : wholds (wake_all f w) = wholds (f w).
Proof. unfold wake_all. destruct (f w); reflexivity. Qed.

Ltac body_facts := match goal with H : body _ _ _ = _ |- _ =>
  let B := fresh "B" in pose proof (body_same _ _ _ _ _ _ H) as B; destruct B as (B1 & B2 & B3 & B4 & B5 & B6 & B7 & B8 & B9 & B10 & B11 & B12 & B13 & B14) end.
Ltac use_eqs := repeat match goal with H : wk _ _ = _ |- _ => rewrite H in * end; repeat match goal with H : stk _ _ = _ |- _ => rewrite H in * end.
Ltac own_cases := repeat match goal with
  | H : mtx _ = _ |- _ => rewrite H in *
  | |- context [own (mtx ?s) _] => destruct (mtx s) eqn:?
  | H : context [own (mtx ?s) _] |- _ => destruct (mtx s) eqn:?
  end; unfold own in *; repeat match goal with
  | |- context [Nat.eqb ?a ?b] => destruct (Nat.eqb_spec a b); [subst|]
  | H : context [Nat.eqb ?a ?b] |- _ => destruct (Nat.eqb_spec a b); [subst|]
  end; cbn [b2n] in *.
Lemma mutex_step s l s' : step s l s' -> mutex_ok s -> mutex_ok s'.
Proof.
  intros Hs HI. assert (HI' := HI). unfold mutex_ok, nh in HI' |- *.
  destruct Hs; intros th; pose proof (HI' th) as Hx;
    try match goal with H : wk ?ss ?w' = _ |- _ => pose proof (HI' w') as Hw end;
    try match goal with H : wk ?ss ?w' = _ \/ _ |- _ => pose proof (HI' w') as Hw; destruct H end;
    try match goal with H : stk ?ss ?w' = _ |- _ => pose proof (HI' w') as Hv end; clear HI HI'.
  all: try match goal with H : is_blocked (wk ?ss ?w) = true |- _ => destruct (wk ss w) eqn:?; try discriminate H end.
  all: try body_facts; unfold release, disown; projs; rewrite ?wholds_wake; unfold upd in *.
  all: repeat match goal with |- context [Nat.eqb ?a ?b] => destruct (Nat.eqb_spec a b); [subst|] end.
  all: try rewrite B1; try rewrite B7; try rewrite B9; try rewrite B10.
  all: repeat match goal with H : (?a < ?b)%nat |- _ => apply Nat.ltb_lt in H; rewrite H in *; clear H end.
  all: use_eqs.
  all: rewrite ?cnt_app in *; cbn [cnt app fholds wholds b2n andb Nat.add] in *.
  all: try lia.
  all: repeat match goal with |- context [match ?x with _ => _ end] => destruct x; cbn [cnt app fholds wholds b2n andb Nat.add] in * end; rewrite ?cnt_app in *; cbn [cnt app fholds wholds b2n andb Nat.add] in *; try lia.
  all: own_cases; try lia; try congruence.
Qed.

(** * Stacks, owners and the destructor *)
(** frames that touch the members of the pool *)
(** shared_ptrs held by a frame *)
Definition holds_ref (f : frame) : bool := match f with CUnshare _ _ | CDrop => true | _ => false end.
(** every access is covered by a shared_ptr of the call *)
Fixpoint covered (l : list frame) : Prop := match l with [] => True | f :: l' => (accesses f = true -> In CDrop l') /\ covered l' end.
Definition refs_ok (s : st) : Prop := forall t, count_occ Nat.eq_dec (refs s) t = cnt holds_ref (stk s t).
Lemma count_remove_one t x l : count_occ Nat.eq_dec (remove_one x l) t = if Nat.eqb t x then pred (count_occ Nat.eq_dec l t) else count_occ Nat.eq_dec l t.
Proof.
  induction l as [|a l IH]; cbn [remove_one count_occ]; [destruct (Nat.eqb t x); reflexivity|].
  destruct (Nat.eqb_spec a x) as [->|Hax].
  - destruct (Nat.eq_dec x t) as [->|Hxt]; [rewrite Nat.eqb_refl; reflexivity|]. destruct (Nat.eqb_spec t x); [congruence|reflexivity].
  - cbn [count_occ]. rewrite IH. destruct (Nat.eq_dec a t) as [->|Hat]; [|reflexivity]. destruct (Nat.eqb_spec t x); [congruence|reflexivity].
Qed.
Ltac simp := repeat match goal with |- context [Nat.eqb ?a ?b] => destruct (Nat.eqb_spec a b); [subst|] end.
Lemma refs_step s l s' : step s l s' -> refs_ok s -> refs_ok s'.
Proof.
  intros Hs HI. unfold refs_ok in *.
  destruct Hs; intros th; pose proof (HI th) as Hx; try match goal with H : stk ?ss ?w' = _ |- _ => pose proof (HI w') as Hv end; clear HI.
  all: try body_facts; unfold release, disown; projs; unfold upd in *.
  all: try rewrite B10; try rewrite B12.
  all: rewrite ?count_remove_one; cbn [count_occ] in *.
  all: repeat match goal with |- context [Nat.eqb ?a ?b] => destruct (Nat.eqb_spec a b); [subst|] end.
  all: use_eqs; rewrite ?cnt_app in *; cbn [cnt holds_ref b2n Nat.add app] in *.
  all: try congruence; try lia.
  all: repeat match goal with |- context [Nat.eq_dec ?a ?b] => destruct (Nat.eq_dec a b); try congruence end; try lia.
  all: repeat match goal with |- context [match ?x with _ => _ end] => destruct x; rewrite ?cnt_app in *; cbn [cnt holds_ref b2n Nat.add app] in * end; try lia.
Qed.

Definition dt_ok (s : st) : Prop := exists d, (forall t, cnt is_dtor (stk s t) = own d t) /\
  match d with Some _ => strong s = 0 /\ freed s = false | None => (strong s = 0 <-> freed s = true) end.
Lemma dt_frame s s' : dt_ok s -> (forall t, cnt is_dtor (stk s' t) = cnt is_dtor (stk s t)) -> (strong s' = 0 <-> strong s = 0) -> freed s' = freed s -> dt_ok s'.
Proof.
  intros (d & H1 & H2) Hc Hst Hf. exists d. split; [intros t; rewrite Hc; apply H1|]. rewrite Hf. destruct d; [split; [apply Hst|]; apply H2|]. rewrite Hst. exact H2.
Qed.
Lemma dt_alive s : dt_ok s -> 0 < strong s -> (forall t, cnt is_dtor (stk s t) = 0) /\ freed s = false.
Proof.
  intros (d & H1 & H2) Hp. destruct d as [d|]; [lia|]. split; [exact H1|]. destruct (freed s); [|reflexivity]. destruct H2 as [_ H2]. specialize (H2 eq_refl). lia.
Qed.
Lemma length_remove_one t l : 0 < count_occ Nat.eq_dec l t -> length (remove_one t l) = length l - 1.
Proof.
  induction l as [|a l IH]; cbn [remove_one count_occ length]; [lia|]. destruct (Nat.eqb_spec a t) as [->|Ha]; [lia|].
  destruct (Nat.eq_dec a t); [congruence|]. intros H. cbn [length]. rewrite IH by exact H. destruct l; [cbn in H; lia|]. cbn [length]. lia.
Qed.
Lemma dt_release s t f rest rest' : dt_ok s -> refs_ok s -> stk s t = f :: rest -> holds_ref f = true -> cnt is_dtor rest' = cnt is_dtor rest -> dt_ok (release t rest' s).
Proof.
  intros HD HR Hs Hf Hr. pose proof (HR t) as Hc. rewrite Hs in Hc. cbn [cnt] in Hc. rewrite Hf in Hc. cbn [b2n] in Hc.
  pose proof (length_remove_one t (refs s) ltac:(lia)) as HL.
  assert (Hpos : 0 < strong s). { unfold strong. destruct (refs s); [cbn in Hc; lia|cbn; lia]. }
  destruct (dt_alive s HD Hpos) as [HA HF]. unfold release.
  pose proof (HA t) as Ht. rewrite Hs in Ht. cbn [cnt] in Ht.
  destruct (Nat.eqb_spec (strong (with_refs (owners s) (remove_one t (refs s)) s)) 0) as [E|E].
  - exists (Some t). projs. split; [|split; [unfold strong in *; projs; lia|exact HF]].
    intros x. unfold upd, own. destruct (Nat.eqb_spec x t); cbn [cnt is_dtor b2n]; [lia|apply HA].
  - exists None. projs. split; [|rewrite HF; split; [|discriminate]].
    + intros x. unfold upd, own. destruct (Nat.eqb_spec x t); [lia|apply HA].
    + unfold strong in *; projs; lia.
Qed.
Lemma dt_disown s t : dt_ok s -> 0 < owners s -> dt_ok (disown t s).
Proof.
  intros HD Ho. assert (Hpos : 0 < strong s) by (unfold strong; lia). destruct (dt_alive s HD Hpos) as [HA HF]. unfold disown.
  destruct (Nat.eqb_spec (strong (with_refs (owners s - 1) (refs s) s)) 0) as [E|E].
  - exists (Some t). projs. split; [|split; [unfold strong in *; projs; lia|exact HF]].
    intros x. unfold upd, own. destruct (Nat.eqb_spec x t); cbn [cnt is_dtor b2n]; [rewrite HA; lia|apply HA].
  - exists None. projs. split; [|rewrite HF; split; [|discriminate]].
    + intros x. unfold upd, own. destruct (Nat.eqb_spec x t); apply HA.
    + unfold strong in *; projs; lia.
Qed.
Lemma dt_step s l s' : step s l s' -> refs_ok s -> dt_ok s -> dt_ok s'.
Proof.
  intros Hs HR HD. destruct Hs.
  all: try (eapply dt_release; [exact HD|exact HR|eassumption|reflexivity|reflexivity]).
  all: try (apply dt_disown; assumption).
  all: try (apply (dt_frame s); [exact HD| |unfold strong; projs; cbn [length]; try tauto; try (unfold strong in *; lia)|projs; try reflexivity];
    intros th; unfold disown; projs; unfold upd in *; simp; use_eqs; rewrite ?cnt_app; cbn [cnt is_dtor b2n Nat.add] in *; try reflexivity; try congruence;
    repeat match goal with |- context [match ?x with _ => _ end] => destruct x; rewrite ?cnt_app in *; cbn [cnt is_dtor b2n Nat.add app] in * end; lia).
  all: try (unfold strong in *; lia).
  - (* body *) body_facts. apply (dt_frame s); [exact HD| |unfold strong; projs; rewrite B11, B12; tauto|projs; exact B14].
    intros th. projs. rewrite B10. unfold upd. simp; use_eqs; reflexivity.
  - (* free *) destruct HD as (d & H1 & H2). exists None. projs. pose proof (H1 t) as Ht. rewrite H in Ht. cbn [cnt is_dtor b2n] in Ht.
    destruct d as [d|]; [|cbn in Ht; lia]. unfold own in Ht. destruct (Nat.eqb_spec t d) as [->|]; [|cbn in Ht; lia]. cbn in Ht.
    split; [|unfold strong in *; projs; tauto].
    intros x. unfold upd, own in *. specialize (H1 x). destruct (Nat.eqb_spec x d); cbn in *; lia.
Qed.

Definition in_task (p : wpc) : bool := match p with WRun _ | WDrop => true | _ => false end.
Definition wstack_ok (s : st) : Prop := forall t, t < nw s -> stk s t <> [] -> in_task (wk s t) = true.
Lemma in_task_wake f w : in_task (wake_all f w) = in_task (f w).
Proof. unfold wake_all. destruct (f w); reflexivity. Qed.
Lemma wstack_step s l s' : step s l s' -> wstack_ok s -> wstack_ok s'.
Proof.
  intros Hs HI th. destruct Hs; pose proof (HI th) as Hx; try match goal with H : stk ?ss ?w' = _ |- _ => pose proof (HI w') as Hv end;
    try match goal with H : wk ?ss ?w' = _ |- _ => pose proof (HI w') as Hw end.
  all: repeat match goal with H : wk ?ss ?w' = _ \/ _ |- _ => pose proof (HI w') as Hw; destruct H end.
  all: clear HI; try body_facts; unfold release, disown; projs; rewrite ?in_task_wake; unfold upd in *.
  all: try match goal with H : is_blocked (wk ?ss ?w) = true |- _ => pose proof (Hx : _); destruct (wk ss w) eqn:?; try discriminate H end.
  all: try rewrite B1; try rewrite B9; try rewrite B10.
  all: repeat match goal with |- context [Nat.eqb ?a ?b] => destruct (Nat.eqb_spec a b); [subst|] end.
  all: use_eqs; intros Hn Hne; try exact (Hx Hn Hne); try congruence.
  all: try (unfold user_code in *; match goal with H : if Nat.ltb ?a ?b then _ else _ |- _ => apply Nat.ltb_lt in Hn; rewrite Hn in H; destruct H as [? H]; rewrite H; reflexivity end).
  all: try (match goal with H : ?n < ?m |- _ => apply Hv; [exact H|discriminate] end).
  all: try (match goal with H : ?n < ?m |- _ => specialize (Hw Hn Hne); discriminate Hw end).
  all: try (specialize (Hx Hn); rewrite Heqw0 in Hx; discriminate (Hx Hne)).
  all: try reflexivity.
Qed.

Definition covered_ok (s : st) : Prop := forall t, nw s <= t -> covered (stk s t).
Lemma covered_app a b : covered a -> covered b -> covered (a ++ b).
Proof.
  induction a as [|f a IH]; cbn [covered app]; [tauto|]. intros [H1 H2] H3. split; [|apply IH; assumption]. intros H. apply in_or_app. left. apply H1. exact H.
Qed.
Lemma covered_step s l s' : step s l s' -> covered_ok s -> covered_ok s'.
Proof.
  intros Hs HI th. destruct Hs; pose proof (HI th) as Hx; clear HI; try body_facts; unfold release, disown; projs; unfold upd in *.
  all: try rewrite B1; try rewrite B10.
  all: repeat match goal with |- context [Nat.eqb ?a ?b] => destruct (Nat.eqb_spec a b); [subst|] end.
  all: use_eqs; intros Hn; try exact (Hx Hn); try specialize (Hx Hn); cbn [covered accesses] in *; try lia; try tauto.
  all: try (repeat split; intros; try discriminate; try (left; reflexivity); tauto).
  all: repeat match goal with |- context [match ?x with _ => _ end] => destruct x end; cbn [covered accesses app] in *; try tauto.
  all: try (apply covered_app; [tauto|]; cbn; split; [discriminate|exact I]).
  all: try (split; [discriminate|]; tauto).
Qed.

(** * Joining *)
Definition exited (s : st) (k : nat) : Prop := forall w, w < k -> w < nw s -> wk s w = WExit.
Definition joined_ok (s : st) : Prop :=
  (forall t k, In (DJoin k) (stk s t) -> exited s k) /\ (forall t, In DFree (stk s t) -> exited s (nw s)) /\ (freed s = true -> exited s (nw s)).
Lemma exited_mono s s' k : nw s' = nw s -> (forall w, w < nw s -> wk s w = WExit -> wk s' w = WExit) -> exited s k -> exited s' k.
Proof. intros Hn Hw He w H1 H2. rewrite Hn in H2. apply Hw; [exact H2|]. apply He; assumption. Qed.
Lemma exit_stable s l s' : step s l s' -> nw s' = nw s /\ (forall w, w < nw s -> wk s w = WExit -> wk s' w = WExit).
Proof.
  intros Hs. destruct Hs; try body_facts; unfold release, disown; projs; (split; [reflexivity||assumption|]); intros th Hn He; unfold upd.
  all: try rewrite B9; try exact He.
  all: repeat match goal with H : wk ?ss ?w' = _ \/ _ |- _ => destruct H end.
  all: repeat match goal with |- context [Nat.eqb ?a ?b] => destruct (Nat.eqb_spec a b); [subst|] end; try exact He; try congruence.
  - match goal with H : is_blocked _ = true |- _ => rewrite He in H; discriminate H end.
  - unfold wake_all. rewrite He. reflexivity.
Qed.
Lemma joined_step s l s' : step s l s' -> joined_ok s -> joined_ok s'.
Proof.
  intros Hs (J1 & J2 & J3). destruct (exit_stable _ _ _ Hs) as [En Ew].
  assert (M : forall k, exited s k -> exited s' k) by (intros k; apply exited_mono; assumption).
  assert (G : forall t f, In f (stk s' t) -> In f (stk s t) \/ (match f with DJoin k => exited s' k | DFree => exited s' (nw s) | _ => True end)).
  { clear J3. destruct Hs; intros th f; try body_facts; unfold release, disown; projs; unfold upd in *; try rewrite B10; try (intros Hf; left; exact Hf).
    all: repeat match goal with |- context [Nat.eqb ?a ?b] => destruct (Nat.eqb_spec a b); [subst|] end; try (intros Hf; left; exact Hf).
    all: repeat match goal with |- context [match ?x with TUnknown => _ | _ => _ end] => destruct x end.
    all: use_eqs; intros Hf; cbn [In] in Hf; try apply in_app_or in Hf; cbn [In] in Hf; repeat match goal with H : _ \/ _ |- _ => destruct H end; subst; auto.
    all: try (left; cbn; tauto). all: try (right; exact I). all: try contradiction.
    all: try (left; right; assumption).
    - destruct r; right; exact I.
    - right. intros w Hw. lia.
    - right. intros w Hw Hw2. projs. destruct (Nat.eq_dec w k) as [->|]; [assumption|]. apply (J1 t k); [rewrite H; left; reflexivity|lia|exact Hw2].
    - right. intros w Hw Hw2. projs. apply (J1 t k); [rewrite H; left; reflexivity|lia|exact Hw2]. }
  split; [|split].
  - intros t k Hi. destruct (G t _ Hi) as [H|H]; [apply M; eapply J1; exact H|exact H].
  - intros t Hi. rewrite En. destruct (G t _ Hi) as [H|H]; [apply M; eapply J2; exact H|exact H].
  - rewrite En. intros Hf. destruct (freed s) eqn:Ef; [apply M; apply J3; reflexivity|].
    destruct Hs; try body_facts; unfold release, disown in Hf; projs; try congruence.
    apply M. eapply J2. rewrite H. left. reflexivity.
Qed.
