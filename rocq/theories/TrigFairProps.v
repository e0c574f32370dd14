(** Trigger: in fair executions the calls return.
    Property statements: see properties.jsonl (C46, C47). *)
From Coq Require Import ZArith List Bool Lia PeanoNat.
From Verif Require Import TrigModel TrigSpec TrigProofs TrigRun TrigProps TrigFairSpec TrigFairProofs.
Import ListNotations.
Local Open Scope nat_scope.

(** * C46: calls return *)
(** Every call that does not wait returns, and a call that waits returns if the trigger stays set
    (at least until it has returned). *)
Theorem C46_calls_return b0 r ev t o i : runs b0 r ev -> fair r -> lasting r -> in_call t (upto ev i) = Some o ->
  (is_wait o = true -> forall j, i <= j -> value b0 (upto ev j) = true) -> exists j x, i <= j /\ ev j = LRet t o x.
Proof. intros Hr Hf Hl Hc Hv. eapply set_returns; eassumption. Qed.
(** wait_for() and wait_until() return when the time is over, whatever happens to the trigger *)
Theorem C46_time_out b0 r ev t o i : runs b0 r ev -> fair r -> lasting r -> timely r -> in_call t (upto ev i) = Some o ->
  time_passes ev o -> exists j x, i <= j /\ ev j = LRet t o x.
Proof. intros Hr Hf Hl Ht Hc Hp. eapply time_returns; eassumption. Qed.
(** * C47: sleep() comes to an end *)
Theorem C47_ends b0 r ev t dur i : runs b0 r ev -> fair r -> lasting r -> timely r -> in_call t (upto ev i) = Some (OSleep dur) ->
  (forall x, exists n, (x <= clock_of Steady (upto ev n))%Z) ->
  exists j b, i <= j /\ ev j = LRet t (OSleep dur) (Some b) /\ (b = true -> elapsed t (OSleep dur) (upto ev j) dur).
Proof.
  intros Hr Hf Hl Ht Hc Hp. destruct (time_returns b0 r ev Hr Hf Hl Ht t (OSleep dur) i Hc Hp) as (j & x & Hj & E).
  destruct (C47_sleep b0 [] t dur x (upto ev j)) as (h & b & -> & _ & _ & G).
  { exists (r (S j)). cbn [app]. rewrite <- E. exact (exec_upto b0 r ev Hr (S j)). }
  exists j, b. tauto.
Qed.

(** Fair and timely scheduling demands nothing impossible: in every state that executions lead to,
    every thread that is able to go on has a next step, and one that reports the time-out if the
    time is over. *)
Theorem C46_progress b0 tr s t : exec (initial b0) tr s -> able s t ->
  exists l s', step s l s' /\ pc s' t <> pc s t /\
    (forall o c d, pc s t = WCheck o (Some (c, d)) -> (d <= now c s)%Z -> pc s' t <> WTest o (Some (c, d))).
Proof.
  intros He [Ha H]. pose proof (i_wf s (inv_exec _ _ _ He) t) as W.
  assert (G : forall l s' p, step s l s' -> pc s' t = p -> p <> pc s t ->
    (forall o c d, pc s t = WCheck o (Some (c, d)) -> (d <= now c s)%Z -> p <> WTest o (Some (c, d))) ->
    exists l s', step s l s' /\ pc s' t <> pc s t /\
    (forall o c d, pc s t = WCheck o (Some (c, d)) -> (d <= now c s)%Z -> pc s' t <> WTest o (Some (c, d)))).
  { intros l s' p A1 A2 A3 A4. exists l, s'. subst p. auto. }
  destruct (pc s t) eqn:E; cbn [accessing] in Ha; try (specialize (Ha eq_refl)); try (now destruct H).
  1: { eapply G; [eapply s_lock; eassumption|apply upd_same|discriminate|discriminate]. }
  1: { eapply G; [eapply s_write; eassumption|apply upd_same|discriminate|discriminate]. }
  1: { eapply G; [eapply s_rel; eassumption|apply upd_same|destruct b; discriminate|destruct b; discriminate]. }
  1: { eapply G; [eapply s_note; eassumption|apply upd_same|discriminate|discriminate]. }
  1: { eapply G; [eapply s_ret; eassumption|apply upd_same|discriminate|discriminate]. }
  1: { eapply G; [eapply g_lock; eassumption|apply upd_same|discriminate|discriminate]. }
  1: { eapply G; [eapply g_read; eassumption|apply upd_same|discriminate|discriminate]. }
  1: { eapply G; [eapply g_rel; eassumption|apply upd_same|discriminate|discriminate]. }
  1: { eapply G; [eapply g_ret; eassumption|apply upd_same|discriminate|discriminate]. }
  1: { eapply G; [eapply w_lock; eassumption|apply upd_same|destruct (duration o); discriminate|discriminate]. }
  1: { destruct W as (dur & W). eapply G; [eapply w_clock; eassumption|apply upd_same|discriminate|discriminate]. }
  1: { eapply G; [eapply w_test; eassumption|apply upd_same|destruct (trig s); discriminate|discriminate]. }
  1: { eapply G; [eapply w_block; eassumption|apply upd_same|discriminate|discriminate]. }
  1: { eapply G; [eapply w_wake; eassumption|apply upd_same|discriminate|discriminate]. }
  1: { eapply G; [eapply w_relock; eassumption|apply upd_same|discriminate|discriminate]. }
  1: { destruct k as [[c d]|].
       - destruct (Z.le_gt_cases d (now c s)) as [L|L].
         + eapply G; [eapply w_timeout; eassumption|apply upd_same|discriminate|discriminate].
         + eapply G; [eapply w_again; eassumption|apply upd_same|discriminate|].
           intros o' c' d' Q. injection Q as <- <- <-. intros L'. exfalso. apply (Z.lt_irrefl d). eapply Z.le_lt_trans; eassumption.
       - eapply G; [eapply w_again; eassumption|apply upd_same|discriminate|discriminate]. }
  1: { eapply G; [eapply w_last; eassumption|apply upd_same|discriminate|discriminate]. }
  1: { eapply G; [eapply w_rel; eassumption|apply upd_same|discriminate|discriminate]. }
  1: { eapply G; [eapply w_ret; eassumption|apply upd_same|discriminate|discriminate]. }
Qed.
(** * Executions that meet these hypotheses: a schedule, after which only the clock advances *)
Fixpoint state_at (s : st) (l : list act) (i : nat) : st :=
  match l, i with
  | a :: l', S i' => match fire s a with Some (_, s1) => state_at s1 l' i' | None => set_clock Steady (steady s + Z.of_nat i) s end
  | _, _ => set_clock Steady (steady s + Z.of_nat i) s
  end.
Fixpoint event_at (s : st) (l : list act) (i : nat) : label :=
  match l with
  | [] => LTick Steady (steady s + Z.of_nat (S i))
  | a :: l' => match fire s a with Some (e, s1) => match i with 0 => e | S i' => event_at s1 l' i' end | None => LTick Steady (steady s + Z.of_nat (S i)) end
  end.
Lemma set_same s : set_clock Steady (steady s + Z.of_nat 0) s = s.
Proof. destruct s. cbn. rewrite Z.add_0_r. reflexivity. Qed.
Lemma step_ticks s i : step (set_clock Steady (steady s + Z.of_nat i) s) (LTick Steady (steady s + Z.of_nat (S i))) (set_clock Steady (steady s + Z.of_nat (S i)) s).
Proof. pose proof (tick (set_clock Steady (steady s + Z.of_nat i) s) Steady (steady s + Z.of_nat (S i))) as H. apply H. intros _. cbn [set_clock steady]. lia. Qed.
Lemma state_0 l s : state_at s l 0 = s.
Proof. destruct l; apply set_same. Qed.
Lemma step_along l : forall s i, step (state_at s l i) (event_at s l i) (state_at s l (S i)).
Proof.
  induction l as [|a l IH]; intros s i.
  - pose proof (step_ticks s i) as H. destruct i; exact H.
  - cbn [event_at]. destruct (fire s a) as [[e s1]|] eqn:E.
    + destruct i as [|i]; [|cbn [state_at]; rewrite E; apply IH]. rewrite state_0. cbn [state_at]. rewrite E, state_0. apply (fire_step _ _ _ _ E).
    + pose proof (step_ticks s i) as H. destruct i; cbn [state_at]; rewrite E; exact H.
Qed.
Lemma state_end l : forall s i, length l <= i -> exists x, state_at s l i = set_clock Steady x (state_at s l (length l)).
Proof.
  induction l as [|a l IH]; intros s i H.
  - exists (steady s + Z.of_nat i)%Z. destruct i; reflexivity.
  - destruct i as [|i]; [cbn in H; lia|]. cbn [state_at length]. destruct (fire s a) as [[e s1]|]; [apply IH; cbn in H; lia|]. eexists. reflexivity.
Qed.
(** when all calls have returned, only finitely many moments have to be looked at *)
Lemma fair_end l s : (forall t, pc (state_at s l (length l)) t = PIdle) -> fair (state_at s l).
Proof.
  intros H t i. exists (Nat.max i (length l)). split; [lia|]. right. intros k Hk. destruct (state_end l s k ltac:(lia)) as (x & ->). unfold able. cbn [set_clock pc]. rewrite H. intros [_ []].
Qed.
Lemma lasting_all l s : (forall i, i <= length l -> dead (state_at s l i) = false) -> lasting (state_at s l).
Proof.
  intros H j t _. destruct (Nat.le_gt_cases j (length l)) as [Hj|Hj]; [apply H; exact Hj|]. destruct (state_end l s j ltac:(lia)) as (x & ->). cbn [set_clock dead]. apply H. lia.
Qed.
Lemma timely_all l s n : (forall t, n <= t -> forall i, i <= length l -> pc (state_at s l i) t = PIdle) ->
  forallb (fun i => forallb (fun t => match pc (state_at s l i) t with
    | WCheck _ (Some (c, d)) => (now c (state_at s l i) <? d)%Z || match pc (state_at s l (S i)) t with WTest _ _ => false | _ => true end
    | _ => true end) (seq 0 n)) (seq 0 (length l)) = true ->
  (forall t, pc (state_at s l (length l)) t = PIdle) -> timely (state_at s l).
Proof.
  intros Hn H He i t o c d E Hd F. destruct (Nat.le_gt_cases (length l) i) as [Hi|Hi].
  - destruct (state_end l s i Hi) as (x & Ex). rewrite Ex in E. cbn [set_clock pc] in E. rewrite He in E. discriminate E.
  - destruct (Nat.le_gt_cases n t) as [Ht|Ht]; [rewrite (Hn t Ht i ltac:(lia)) in E; discriminate E|].
    rewrite forallb_forall in H. specialize (H i ltac:(apply in_seq; lia)). rewrite forallb_forall in H. specialize (H t ltac:(apply in_seq; lia)). rewrite E, F, orb_false_r in H. apply Z.ltb_lt in H. lia.
Qed.
Lemma event_end l : forall s i, length l <= i -> exists x, event_at s l i = LTick Steady x.
Proof.
  induction l as [|a l IH]; intros s i H; [eexists; reflexivity|]. cbn [event_at]. destruct (fire s a) as [[e s1]|]; [|eexists; reflexivity]. destruct i as [|i]; [cbn in H; lia|]. apply IH. cbn in H. lia.
Qed.
Lemma value_end b l s j : length l < j -> value b (upto (event_at s l) (length l)) = true -> value b (upto (event_at s l) j) = true.
Proof.
  intros Hj H. replace j with (length l + (j - length l)) by lia. generalize (j - length l). induction n as [|n IH]; [rewrite Nat.add_0_r; exact H|].
  rewrite Nat.add_succ_r. cbn [upto]. destruct (event_end l s (length l + n) ltac:(lia)) as (x & ->). exact IH.
Qed.
Lemma steady_end l : forall s n, (0 <= steady (state_at s l (length l)))%Z -> (Z.of_nat n <= steady (state_at s l (length l + n)))%Z.
Proof.
  induction l as [|a l IH]; intros s n; cbn [length state_at Nat.add].
  - intros H. cbn [set_clock steady] in H. destruct n; cbn [state_at set_clock steady]; lia.
  - destruct (fire s a) as [[e s1]|]; [apply IH|]. cbn [set_clock steady]. lia.
Qed.
Ltac idle t := do 4 (destruct t as [|t]; [vm_compute; reflexivity|]); vm_compute; reflexivity.
(** thread 1 waits, thread 2 triggers it *)
Example C46_calls_return_example : exists r ev, runs false r ev /\ fair r /\ lasting r /\ in_call 1 (upto ev 9) = Some OWait /\ blocked 1 (upto ev 7) = true /\
  (forall j, 9 <= j -> value false (upto ev j) = true).
Proof.
  exists (state_at (initial false) demo), (event_at (initial false) demo). split; [split; [reflexivity|intros i; apply step_along]|].
  split. { apply fair_end. intros t. idle t. }
  split. { apply lasting_all. intros i Hi. do 16 (destruct i as [|i]; [vm_compute; reflexivity|]). cbn in Hi. lia. }
  split; [vm_compute; reflexivity|]. split; [vm_compute; reflexivity|].
  intros j Hj. destruct (Nat.le_gt_cases j 15) as [H|H].
  - do 16 (destruct j as [|j]; [first [lia|vm_compute; reflexivity]|]). lia.
  - apply value_end; [exact H|vm_compute; reflexivity].
Qed.
(** thread 1 sleeps for 10 units; it is woken up too early once *)
Example C47_ends_example : exists r ev, runs false r ev /\ fair r /\ lasting r /\ timely r /\ in_call 1 (upto ev 5) = Some (OSleep 10) /\
  (forall x, exists n, (x <= clock_of Steady (upto ev n))%Z).
Proof.
  exists (state_at (initial false) nap), (event_at (initial false) nap). split; [split; [reflexivity|intros i; apply step_along]|].
  split. { apply fair_end. intros t. idle t. }
  split. { apply lasting_all. intros i Hi. do 20 (destruct i as [|i]; [vm_compute; reflexivity|]). cbn in Hi. lia. }
  split. { apply (timely_all _ _ 2); [|vm_compute; reflexivity|intros t; idle t]. intros t Ht i Hi. do 2 (destruct t as [|t]; [lia|]). do 20 (destruct i as [|i]; [vm_compute; reflexivity|]). cbn in Hi. lia. }
  split; [vm_compute; reflexivity|].
  intros x. exists (length nap + Z.to_nat x). assert (G : forall n, (Z.of_nat n <= clock_of Steady (upto (event_at (initial false) nap) (length nap + n)))%Z); [|specialize (G (Z.to_nat x)); lia].
  intros n. rewrite (j_clk _ _ _ (tinv_at false (state_at (initial false) nap) (event_at (initial false) nap) (conj eq_refl (step_along nap (initial false))) (length nap + n)) Steady).
  apply (steady_end nap (initial false)). vm_compute. discriminate.
Qed.
Print Assumptions C46_calls_return.
Print Assumptions C46_time_out.
Print Assumptions C47_ends.
