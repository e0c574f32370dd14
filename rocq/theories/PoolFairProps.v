(** ThreadPool: what every fair execution achieves (C52, C53). *)
From Coq Require Import ZArith List Bool Lia PeanoNat.
From Verif Require Import Base PoolModel PoolSpec PoolRun PoolProps PoolFairSpec PoolFairProofs PoolFairProofs2 PoolFairProofs3.
Import ListNotations.
Local Open Scope nat_scope.

(** * C52: tasks are executed *)
(** As long as the pool has an owner, in every fair execution in which the tasks return, a task that
    is pending and whose start time has come (and the clock is not set back before it) is executed
    by some worker, from beginning to end, unless it is cancelled. *)
Theorem C52_executed n c r ev k i : runs n c r ev -> fair r -> tasks_return n r -> (forall j, 0 < owners (r j)) ->
  In k (pending (r i)) -> (forall j, i <= j -> (t_start k <= clock (r j))%Z) ->
  (exists j, i <= j /\ cancels (ev j) (t_id k)) \/
  (exists w now j1 j2 j3, i <= j1 /\ j1 < j2 < j3 /\ w < n /\ ev j1 = LTake w (t_id k) now /\ ev j2 = LStart w (t_id k) /\ ev j3 = LFinish w (t_id k)).
Proof.
  intros Hr Hf Ht Ho Hk Hc. apply in_split in Hk. destruct Hk as (a & b & Hp).
  destruct (taken_at_last n c r ev Hr Hf Ht Ho k i Hc (length a) i a b (le_n i) Hp (le_n _)) as (m & Hm & Hg).
  destruct (gone_cases n c r ev Hr Ho m _ Hg) as [(w & now & E)|E]; [right|left; exists m; split; assumption].
  destruct (runs_through n c r ev Hr Hf Ht 0 w m (t_id k) now (no_dtor n c r ev Hr Ho) (Nat.le_0_l m) E) as (j1 & j2 & H1 & H2 & H3).
  exists w, now, m, j1, j2. split; [exact Hm|]. split; [exact H1|]. split; [|tauto].
  pose proof (proj2 Hr m) as Hs. rewrite E in Hs. rewrite <- (nw_at n c r ev Hr m). eapply take_worker. exact Hs.
Qed.

(** * C53: the destructor returns *)
(** In every fair execution in which the tasks return, a destructor that is executed outside of the
    worker threads comes to its end. *)
Theorem C53_destructor_ends n c r ev t rest i : runs n c r ev -> fair r -> tasks_return n r -> n <= t ->
  stk (r i) t = DLock :: rest -> exists j, i <= j /\ ev j = LFree t.
Proof. intros Hr Hf Ht Hn Hs. eapply dtor_returns; eassumption. Qed.

(** Fair scheduling demands nothing impossible: in every state that executions lead to, every thread
    that is able to go on has a next step. *)
Theorem C52_progress n c s0 tr s t : construct n c = Ok s0 -> exec s0 tr s -> able s t ->
  exists l s', step s l s' /\ advances s s' t.
Proof. apply able_step. Qed.

(** * Executions that meet these hypotheses: a schedule, after which nothing happens any more *)
Fixpoint state_at (s : st) (l : list act) (i : nat) : st :=
  match l, i with
  | a :: l', S i' => match fire s a with Some (_, s1) => state_at s1 l' i' | None => s end
  | _, _ => s
  end.
Fixpoint event_at (s : st) (l : list act) (i : nat) : label :=
  match l with
  | [] => LTick (clock s)
  | a :: l' => match fire s a with Some (e, s1) => match i with 0 => e | S i' => event_at s1 l' i' end | None => LTick (clock s) end
  end.
Lemma clock_same s : with_clock (clock s) s = s.
Proof. destruct s. reflexivity. Qed.
Lemma step_along l : forall s i, step (state_at s l i) (event_at s l i) (state_at s l (S i)).
Proof.
  induction l as [|a l IH]; intros s i.
  - cbn. pose proof (tick s (clock s)) as H. rewrite clock_same in H. destruct i; exact H.
  - cbn [state_at event_at]. destruct (fire s a) as [[e s1]|] eqn:E.
    + destruct i as [|i]; [|apply IH]. replace (state_at s1 l 0) with s1 by (destruct l; reflexivity). apply (fire_step _ _ _ _ E).
    + pose proof (tick s (clock s)) as H. rewrite clock_same in H. destruct i; exact H.
Qed.
Lemma state_end l : forall s i, length l <= i -> state_at s l i = state_at s l (length l).
Proof.
  induction l as [|a l IH]; intros s i H; [destruct i; reflexivity|]. destruct i as [|i]; [cbn in H; lia|]. cbn [state_at length]. destruct (fire s a) as [[e s1]|]; [|reflexivity]. apply IH. cbn in H. lia.
Qed.
Lemma always l s (P : st -> bool) : forallb (fun i => P (state_at s l i)) (seq 0 (S (length l))) = true -> forall j, P (state_at s l j) = true.
Proof.
  intros H j. rewrite forallb_forall in H. destruct (Nat.le_gt_cases (length l) j) as [Hj|Hj]; [rewrite state_end by exact Hj; apply H; apply in_seq; lia|apply H; apply in_seq; lia].
Qed.
Lemma fair_end l s : (forall t, ~ able (state_at s l (length l)) t) -> fair (state_at s l).
Proof. intros H t i. exists (Nat.max i (length l)). split; [lia|]. right. intros k Hk. rewrite state_end by lia. apply H. Qed.
Lemma return_end l s n : (forall w id, w < n -> wk (state_at s l (length l)) w <> WRun id) -> tasks_return n (state_at s l).
Proof. intros H w id i Hw _. exists (Nat.max i (length l)). split; [lia|]. rewrite state_end by lia. apply H. exact Hw. Qed.
Definition pool_of (n c : nat) : st := match construct n c with Ok s => s | _ => St 0 0 [] [] [] 0%Z false None 0%Z (fun _ => WInit) (fun _ => []) 0 [] (fun _ => FNone) (fun _ => false) false end.
(** a task is added and executed; the worker goes to sleep *)
Definition served : list act := sleeps 0 ++ add_note 7 0 0 ++ starts 0 ++ ends 0 ++ repeat (AW 0) 2.
Ltac nobody t := do 9 (destruct t as [|t]; [vm_compute; intros H; repeat (destruct H as [H ?]); try contradiction; try discriminate; lia|]); vm_compute; intros H; repeat (destruct H as [H ?]); try contradiction; lia.
Example C52_executed_example : exists r ev, runs 1 3 r ev /\ fair r /\ tasks_return 1 r /\ (forall j, 0 < owners (r j)) /\
  In (Task 0 0 nm) (pending (r 9)) /\ (forall j, 9 <= j -> (t_start (Task 0 0 nm) <= clock (r j))%Z) /\ wk (r 9) 0 = WWait None /\ ev 30 = LTick 0.
Proof.
  exists (state_at (pool_of 1 3) served), (event_at (pool_of 1 3) served). split; [split; [vm_compute; reflexivity|intros i; apply step_along]|].
  split. { apply fair_end. intros t. nobody t. }
  split. { apply return_end. intros w id Hw. replace w with 0 by lia. vm_compute. discriminate. }
  split. { intros j. apply Nat.ltb_lt. revert j. apply (always served (pool_of 1 3) (fun s => Nat.ltb 0 (owners s))). vm_compute. reflexivity. }
  split. { vm_compute. left. reflexivity. }
  split. { intros j _. apply Z.leb_le. revert j. apply (always served (pool_of 1 3) (fun s => (0 <=? clock s)%Z)). vm_compute. reflexivity. }
  split; vm_compute; reflexivity.
Qed.
(** the pool is destroyed while a task is being executed and another one is pending *)
Example C53_destructor_ends_example : exists r ev i, runs 1 3 r ev /\ fair r /\ tasks_return 1 r /\ stk (r i) 7 = [DLock] /\ wk (r i) 0 = WRun 0 /\ pending (r i) = [Task 1 0 nm].
Proof.
  exists (state_at (pool_of 1 3) shutdown_end), (event_at (pool_of 1 3) shutdown_end), 32. split; [split; [vm_compute; reflexivity|intros i; apply step_along]|].
  split. { apply fair_end. intros t. nobody t. }
  split. { apply return_end. intros w id Hw. replace w with 0 by lia. vm_compute. discriminate. }
  repeat split; vm_compute; reflexivity.
Qed.
Print Assumptions C52_executed.
Print Assumptions C53_destructor_ends.
