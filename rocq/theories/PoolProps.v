(** ThreadPool: properties C48-C54 and C62.

    A history lists the events of an execution, newest first: in [tr2 ++ l :: tr1] the event l
    happens after the events tr1.  Queue, running tasks, clock etc. at that moment are those that
    PoolSpec computes from tr1. *)
From Coq Require Import ZArith List Bool Lia Arith Sorted.
From Verif Require Import Base PoolModel PoolSpec PoolProofs PoolProofs2 PoolProofs3 PoolProofs4 PoolProofs5 PoolProofs6 PoolProofs7 PoolProofs8 PoolRun.
Import ListNotations.
Local Open Scope nat_scope.

(** * Schedules used as examples *)
Definition nm : str := !"t".
(** thread t adds a task; nobody waits on the condition variable / worker w is notified *)
Definition add_call (t : nat) (start : Z) : list act := [ACall t (OAdd start nm)] ++ repeat (AF t) 9.
Definition add_note (t : nat) (start : Z) (w : nat) : list act := [ACall t (OAdd start nm)] ++ repeat (AF t) 6 ++ [ANote t w; AF t; AF t].
(** a worker goes to sleep; a worker that was woken up takes a task and starts it; ends it; finds shutdown requested *)
Definition sleeps (w : nat) : list act := repeat (AW w) 3.
Definition starts (w : nat) : list act := repeat (AW w) 8.
Definition ends (w : nat) : list act := repeat (AW w) 4.
Definition query (t : nat) (o : op) : list act := [ACall t o] ++ repeat (AF t) 5.
(** TaskHandle::get_state; the task is pending or running / is not *)
Definition handle_live (t : nat) (id : Z) : list act := [AState t id] ++ repeat (AF t) 6.
Definition handle_state (t : nat) (id : Z) : list act := [AState t id] ++ repeat (AF t) 7.
Lemma schedule_history n c l tr s : schedule n c l = Some (tr, s) -> (Z.of_nat (length (added tr)) < id_mod)%Z -> history n c tr.
Proof.
  unfold schedule. destruct (construct n c) as [s0| | |] eqn:E; try discriminate. intros H Hb. exists s0, s. split; [exact E|]. split; [apply (run_exec _ _ _ _ H)|exact Hb].
Qed.
Lemma events_history n c l : (Z.of_nat (length (added (events n c l))) <? id_mod)%Z = true -> events n c l <> [] -> history n c (events n c l).
Proof. unfold events. intros Hb Hn. apply Z.ltb_lt in Hb. destruct (schedule n c l) as [[tr s]|] eqn:E; [|congruence]. eapply schedule_history; eassumption. Qed.
Definition final (n c : nat) (l : list act) : option st := match schedule n c l with Some (_, s) => Some s | None => None end.
Lemma final_reach n c l s : final n c l = Some s -> exists s0 tr, construct n c = Ok s0 /\ exec s0 tr s.
Proof.
  unfold final, schedule. destruct (construct n c) as [s0| | |] eqn:E; try discriminate. destruct (run s0 l) as [[tr s']|] eqn:Er; [|discriminate]. intros [= <-]. exists s0, tr. split; [reflexivity|]. exact (run_exec _ _ _ _ Er).
Qed.
Lemma final_view {A} (f : st -> A) n c l v : option_map f (final n c l) = Some v -> exists s0 tr s, construct n c = Ok s0 /\ exec s0 tr s /\ f s = v.
Proof.
  destruct (final n c l) as [s|] eqn:E; [|discriminate]. intros [= <-]. destruct (final_reach _ _ _ _ E) as (s0 & tr & A1 & A2). exists s0, tr, s. tauto.
Qed.
Ltac hist := apply events_history; [vm_compute; reflexivity|vm_compute; discriminate].

(** two workers, three tasks: the second is canceled, the third is delayed until 5, the first and the third run *)
Definition demo : list act :=
  sleeps 0 ++ sleeps 1 ++ add_note 7 0 0 ++ add_note 7 0 1 ++ [ACancel 7 1%Z; AF 7; AF 7; AF 7; AF 7; AF 7; AF 7; AF 7] ++
  add_call 7 5 ++ starts 0 ++ [ATick 6%Z] ++ starts 1 ++ ends 0 ++ [AW 0; AW 0] ++ ends 1 ++ [AW 1; AW 1] ++ handle_state 7 0.
Example demo_events : filter (fun l => match l with LTau | LNotify _ | LBlock _ _ => false | _ => true end) (rev (events 2 3 demo)) =
  [LCall 7 (OAdd 0 nm); LAdd 7 (Task 0 0 nm); LReturn 7 (OAdd 0 nm) (RId 0); LCall 7 (OAdd 0 nm); LAdd 7 (Task 1 0 nm); LReturn 7 (OAdd 0 nm) (RId 1);
   LCall 7 (OCancel 1); LCancel 7 1 true; LReturn 7 (OCancel 1) (RBool true); LCall 7 (OAdd 5 nm); LAdd 7 (Task 2 5 nm); LReturn 7 (OAdd 5 nm) (RId 2);
   LTake 0 0 0; LStart 0 0; LTick 6; LTake 1 2 6; LStart 1 2; LFinish 0 0; LDereg 0 0; LFinish 1 2; LDereg 1 2; LCall 7 (OState 0); LQuery 7 (OState 0) (RState TUnknown); LState 7 0 TComplete].
Proof. vm_compute. reflexivity. Qed.
Lemma demo_history : history 2 3 (events 2 3 demo).
Proof. hist. Qed.

(** * C48: every task is started at most once, after it was added, not before its start time *)
Theorem C48_at_most_once n c tr : history n c tr -> NoDup (started tr).
Proof. intros H. destruct (history_tinv _ _ _ H) as (s & HT & _). apply (i_start _ _ HT). Qed.
(** A task is started by the worker that took it; the worker read the clock while the task was in the queue, and the start time had come *)
Theorem C48_start_time n c tr2 w id tr1 : history n c (tr2 ++ LStart w id :: tr1) ->
  exists k t now a g h, tr1 = a ++ LTake w id now :: g ++ h /\ clock_of h = now /\ t_id k = id /\ (t_start k <= now)%Z /\ In k (queue h) /\ In (LAdd t k) h.
Proof.
  intros H. destruct (start_take _ _ _ _ _ _ H) as (_ & now & a & b & E & _ & _). subst tr1.
  assert (H' : history n c ((tr2 ++ LStart w id :: a) ++ LTake w id now :: b)) by (rewrite <- app_assoc; exact H).
  destruct (take_facts _ _ _ _ _ _ _ H') as (k & t & h & g & -> & E1 & E2 & E3 & E4 & E5). exists k, t, now, a, g, h. tauto.
Qed.
Theorem C48_one_worker n c tr w id now w' : history n c tr -> In (LTake w id now) tr -> In (LStart w' id) tr -> w' = w.
Proof.
  intros H Ht Hs. apply in_split in Hs. destruct Hs as (a & b & ->). destruct (start_take _ _ _ _ _ _ H) as (_ & now' & a' & b' & E & _ & _).
  eapply take_unique; [exact H| |exact Ht]. apply in_or_app. right. right. rewrite E. apply in_or_app. right. left. reflexivity.
Qed.
(** A task that was canceled (or dropped by cancel_pending_tasks) has not been started and never will *)
Theorem C48_not_after_cancel n c tr2 tr1 id : history n c (tr2 ++ tr1) -> In id (dropped tr1) -> ~ In id (started (tr2 ++ tr1)).
Proof. intros H Hd Hs. apply (proj2 (excl _ _ _ id H)); [apply (started_taken _ _ _ _ H Hs)|apply dropped_app; exact Hd]. Qed.
(** Tasks that are pending when shutdown is requested are never started *)
Theorem C48_not_after_shutdown n c tr2 t tr1 id : history n c (tr2 ++ LShutdown t :: tr1) -> In id (ids (queue tr1)) -> ~ In id (started (tr2 ++ LShutdown t :: tr1)).
Proof.
  intros H Hq Hs. apply (started_taken _ _ _ _ H) in Hs. rewrite taken_app in Hs. apply in_app_or in Hs. destruct Hs as [Hs|Hs].
  - apply taken_in in Hs. destruct Hs as (w & now & Hs). apply in_split in Hs. destruct Hs as (a & b & ->). rewrite <- app_assoc in H. apply history_legal in H. destruct H as (_ & H & _). rewrite shut_app in H; [discriminate|reflexivity].
  - apply (proj1 (proj1 (excl _ _ _ id (history_app _ _ (tr2 ++ [LShutdown t]) tr1 ltac:(rewrite <- app_assoc; exact H))) Hq)). exact Hs.
Qed.
Example C48_example : history 2 3 (events 2 3 demo) /\ started (events 2 3 demo) = [2; 0]%Z /\ dropped (events 2 3 demo) = [1%Z].
Proof. split; [exact demo_history|vm_compute; tauto]. Qed.
(** destruction with a pending task *)
Definition demo_shutdown : list act := sleeps 0 ++ add_note 7 0 0 ++ add_call 7 0 ++ starts 0 ++ [ADrop 7; AF 7; AF 7; AF 7; AF 7] ++ ends 0 ++ [AW 0; AW 0] ++ [AF 7; AF 7; AF 7].
Example C48_shutdown_example : exists tr2 t tr1, events 1 3 demo_shutdown = tr2 ++ LShutdown t :: tr1 /\ ids (queue tr1) = [1%Z] /\ hd_error (events 1 3 demo_shutdown) = Some (LFree 7).
Proof.
  exists (firstn 11 (events 1 3 demo_shutdown)), 7, (skipn 12 (events 1 3 demo_shutdown)). vm_compute. split; [reflexivity|split; reflexivity].
Qed.

(** * C49: bounds and identifiers *)
Theorem C49_capacity n c tr : history n c tr -> length (queue tr) <= c.
Proof.
  intros (s0 & s & H & E & Hb). pose proof (tinv_exec _ _ _ _ _ H E Hb) as HT. rewrite <- (i_pend _ _ HT). destruct (const_exec _ _ _ _ _ H E) as [_ <-]. apply (cap_exec _ _ _ _ _ H E).
Qed.
(** the state of the pool is the one that the history describes *)
Theorem C49_state n c s0 tr s : construct n c = Ok s0 -> exec s0 tr s -> (Z.of_nat (length (added tr)) < id_mod)%Z -> pending s = queue tr /\ shut s = shutdown_requested tr /\ clock s = clock_of tr.
Proof. intros H E Hb. pose proof (tinv_exec _ _ _ _ _ H E Hb) as HT. split; [apply (i_pend _ _ HT)|]. split; [apply (i_shut _ _ HT)|apply (clk_exec _ _ _ _ _ H E)]. Qed.
Theorem C49_running n c tr : history n c tr -> length (active tr) <= n /\ NoDup (map fst (active tr)) /\ (forall w k, In (w, k) (active tr) -> w < n /\ In k (added tr)).
Proof.
  intros H. destruct (history_tinv _ _ _ H) as (s & HT & <-).
  assert (Hnd : NoDup (map fst (active tr))).
  { assert (G : forall l, NoDup l -> (forall x, In x l -> In x (active tr)) -> NoDup (map fst l)).
    { induction l as [|x l IH]; intros Hn Hs; [constructor|]. apply NoDup_cons_iff in Hn. destruct Hn as [H1 H2]. cbn. constructor; [|apply IH; [exact H2|intros; apply Hs; right; assumption]].
      intros Hi. apply in_map_iff in Hi. destruct Hi as (y & Ey & Hy). apply H1. assert (x = y); [|subst; exact Hy]. eapply act_inj; [exact HT|apply Hs; left; reflexivity|apply Hs; right; exact Hy|].
      pose proof (act_fst _ _ (fst x) x HT (Hs x (or_introl eq_refl)) eq_refl) as F1. pose proof (act_fst _ _ (fst x) y HT (Hs y (or_intror Hy)) Ey) as F2. congruence. }
    apply G; [eapply NoDup_map_inv; apply (i_actnd _ _ HT)|tauto]. }
  split; [|split; [exact Hnd|]].
  - rewrite <- (map_length fst). rewrite <- (seq_length (nw s) 0). apply NoDup_incl_length; [exact Hnd|]. intros w Hw. apply in_map_iff in Hw. destruct Hw as (x & <- & Hx). apply in_seq. pose proof (i_actw _ _ HT _ Hx). lia.
  - intros w k Hk. destruct (i_actw _ _ HT _ Hk) as (W1 & W2 & _). split; assumption.
Qed.
Theorem C49_ids n c tr : history n c tr -> ids (added tr) = map Z.of_nat (seq 0 (length (added tr))).
Proof. intros H. destruct (history_tinv _ _ _ H) as (s & HT & _). apply (i_ids _ _ HT). Qed.
(** Every call takes effect at exactly one moment between its beginning and its return, and is answered according to the history at that moment *)
Theorem C49_one_effect n c tr2 t o r tr1 : history n c (tr2 ++ LReturn t o r :: tr1) -> r <> RNoPool ->
  exists a h, tr1 = a ++ effect_of t o r :: h /\ during t o tr1 h /\ effects t tr1 = [effect_of t o r] /\ legal n c h (effect_of t o r).
Proof.
  intros H Hr. destruct (return_effect _ _ _ _ _ _ _ H Hr) as (a & h & E & D & L). exists a, h. split; [exact E|]. split; [exact D|]. split; [|exact L].
  apply history_legal in H. cbn [legal] in H. destruct H as [H|[_ H]]; [congruence|exact H].
Qed.
Theorem C49_add_task n c tr2 t start name r tr1 : history n c (tr2 ++ LReturn t (OAdd start name) r :: tr1) ->
  exists h, during t (OAdd start name) tr1 h /\
    ((r = RId (Z.of_nat (length (added h))) /\ length (queue h) < c /\ exists a, tr1 = a ++ LAdd t (Task (Z.of_nat (length (added h))) start name) :: h) \/
     (r = RFull /\ c <= length (queue h)) \/
     (r = RBadWeak /\ t < n) \/
     r = RNoMem).
Proof.
  intros H. assert (Hnp : r <> RNoPool) by (intros ->; destruct (no_pool _ _ _ _ _ _ H) as (id & [?|?]); discriminate).
  destruct (return_effect _ _ _ _ _ _ _ H Hnp) as (a & h & E & D & L). exists h. split; [exact D|].
  destruct r; cbn [effect_of legal] in L; try (destruct L; fail).
  - left. destruct L as [L1 L2]. cbn [t_id] in L2. subst id. split; [reflexivity|]. split; [exact L1|]. exists a. exact E.
  - right. left. split; [reflexivity|exact L].
  - right. right. left. split; [reflexivity|]. eapply bad_weak_worker; [exact H|]. apply in_or_app. right. right. rewrite E. apply in_or_app. right. left. reflexivity.
  - right. right. right. reflexivity.
Qed.
(** The other calls: count_pending, is_full, is_idle, is_shutdown_requested and the name lists are answered as specified for a moment during the call *)
Theorem C49_queries n c tr2 t o r tr1 : history n c (tr2 ++ LReturn t o r :: tr1) -> In o [OCount; OFull; OIdle; OShut; ONames; ORunning] -> exists h, during t o tr1 h /\ answer c h o r.
Proof.
  intros H Ho. assert (Hnp : r <> RNoPool) by (intros ->; destruct (no_pool _ _ _ _ _ _ H) as (id & [-> | ->]); cbn in Ho; intuition discriminate).
  destruct (return_effect _ _ _ _ _ _ _ H Hnp) as (a & h & E & D & L). exists h. split; [exact D|]. cbn [In] in Ho. intuition (subst o; exact L).
Qed.
Theorem C49_constructor n c : (exists s, construct n c = Ok s) <-> (1 <= n /\ n <= Z.to_nat 10000 /\ 1 <= c /\ c <= Z.to_nat 10000000).
Proof.
  unfold construct. destruct (Nat.eqb_spec n 0) as [->|Hn]; cbn [orb]; [split; [intros (s & [=])|lia]|].
  destruct (Z.ltb_spec 10000 (Z.of_nat n)) as [H|H]; [split; [intros (s & [=])|lia]|].
  destruct (Nat.eqb_spec c 0) as [->|Hc]; cbn [orb]; [split; [intros (s & [=])|lia]|].
  destruct (Z.ltb_spec 10000000 (Z.of_nat c)) as [H'|H']; [split; [intros (s & [=])|lia]|]. split; [lia|]. intros _. eexists. reflexivity.
Qed.
Theorem C49_constructor_throws n c : (exists s, construct n c = Ok s) \/ construct n c = Throw InvalidArgument.
Proof. unfold construct. destruct (_ || _); [right; reflexivity|]. destruct (_ || _); [right; reflexivity|]. left. eexists. reflexivity. Qed.
(** a queue of one place: the second add_task throws *)
Definition demo_full : list act := sleeps 0 ++ add_note 7 0 0 ++ [ACall 7 (OAdd 0 nm); AF 7; AF 7; AF 7; AF 7; AF 7] ++ query 7 OCount ++ query 7 OFull ++ query 7 OIdle.
Example C49_example : history 1 1 (events 1 1 demo_full) /\
  filter (fun l => match l with LReturn _ _ _ => true | _ => false end) (rev (events 1 1 demo_full)) =
    [LReturn 7 (OAdd 0 nm) (RId 0); LReturn 7 (OAdd 0 nm) RFull; LReturn 7 OCount (RCount 1); LReturn 7 OFull (RBool true); LReturn 7 OIdle (RBool false)].
Proof. split; [hist|vm_compute; reflexivity]. Qed.

(** * C50: cancellation *)
Theorem C50_cancel n c tr2 t id b tr1 : history n c (tr2 ++ LReturn t (OCancel id) (RBool b) :: tr1) ->
  exists a h, tr1 = a ++ LCancel t id b :: h /\ during t (OCancel id) tr1 h /\ (b = true <-> In id (ids (queue h))) /\
    (b = true -> ~ In id (started (tr2 ++ LReturn t (OCancel id) (RBool b) :: tr1))).
Proof.
  intros H. destruct (return_effect _ _ _ _ _ _ _ H ltac:(discriminate)) as (a & h & E & D & L). cbn [effect_of legal] in *. exists a, h. split; [exact E|]. split; [exact D|]. split; [exact L|].
  intros ->. rewrite E in *. assert (E2 : tr2 ++ LReturn t (OCancel id) (RBool true) :: a ++ LCancel t id true :: h = (tr2 ++ LReturn t (OCancel id) (RBool true) :: a) ++ LCancel t id true :: h) by (rewrite <- app_assoc; reflexivity).
  rewrite E2 in *. apply (C48_not_after_cancel n c); [exact H|]. cbn [dropped]. left. reflexivity.
Qed.
(** what the two outcomes do to the pool *)
Theorem C50_cancel_effect n c s0 tr s t id b s' : construct n c = Ok s0 -> exec s0 tr s -> (Z.of_nat (length (added tr)) < id_mod)%Z -> step s (LCancel t id b) s' ->
  pending s' = (if b then without id (pending s) else pending s) /\ rids s' = rids s /\ wk s' = wk s /\ valid s' = valid s /\ (forall i, i <> id \/ b = false -> fut s' i = fut s i).
Proof.
  intros H E Hb Hs. pose proof (tinv_exec _ _ _ _ _ H E Hb) as HT. assert (Hb' : (Z.of_nat (length (added (LCancel t id b :: tr))) < id_mod)%Z) by exact Hb.
  pose proof (tinv_exec _ _ _ _ _ H (exec_step _ _ _ _ _ E Hs) Hb') as HT'. split.
  - rewrite (i_pend _ _ HT), (i_pend _ _ HT'). cbn [queue]. destruct b; reflexivity.
  - inversion Hs; subst; try (destruct x; discriminate). match goal with H : body _ _ _ = _ |- _ => pose proof H as Hbd; destruct (body_label _ _ _ _ _ _ H ltac:(assumption)) as [El _] end. body_facts. projs.
    split; [exact B3|]. split; [exact B9|]. split; [exact B13|]. destruct o, r; try discriminate El. injection El as -> -> ->. cbn [body] in Hbd. destruct (index_of id0 (ids (pending s))); injection Hbd as <- <-; projs; [|reflexivity].
    intros i [Hi|Hi]; [|discriminate]. unfold updz. destruct (Z.eqb_spec i id0); [congruence|reflexivity].
Qed.
Theorem C50_cancel_all n c tr2 t m tr1 : history n c (tr2 ++ LReturn t OClear (RCount m) :: tr1) ->
  exists a h, tr1 = a ++ LClear t m :: h /\ during t OClear tr1 h /\ m = length (queue h) /\ queue (LClear t m :: h) = [] /\
    (forall id, In id (ids (queue h)) -> ~ In id (started (tr2 ++ LReturn t OClear (RCount m) :: tr1))).
Proof.
  intros H. destruct (return_effect _ _ _ _ _ _ _ H ltac:(discriminate)) as (a & h & E & D & L). cbn [effect_of legal] in *. exists a, h. split; [exact E|]. split; [exact D|]. split; [exact L|]. split; [reflexivity|].
  intros id Hi. rewrite E in *. assert (E2 : tr2 ++ LReturn t OClear (RCount m) :: a ++ LClear t m :: h = (tr2 ++ LReturn t OClear (RCount m) :: a) ++ LClear t m :: h) by (rewrite <- app_assoc; reflexivity).
  rewrite E2 in *. apply (C48_not_after_cancel n c); [exact H|]. cbn [dropped]. apply in_or_app. left. exact Hi.
Qed.
(** The documentation of TaskHandle::cancel() says that it has no effect on a running task.  It does: the result can no longer be fetched. *)
Definition cancel_running : list act :=
  sleeps 0 ++ add_note 7 0 0 ++ starts 0 ++ [ACancel 7 0%Z; AF 7; AF 7; AF 7; AF 7; AF 7; AF 7; AF 7] ++ ends 0 ++ [AComplete 7 0%Z; AResult 7 0%Z].
Theorem C50_cancel_running_refuted : ~ (forall n c tr2 t id b tr1, history n c (tr2 ++ LComplete t id b :: tr1) -> In id (finished tr1) ->
  (forall t' r, In (LReturn t' (OCancel id) r) tr1 -> r = RBool false) -> (forall t' r, ~ In (LResult t' id (Some r)) tr1) -> b = true).
Proof.
  intros H. assert (HH : history 1 3 (events 1 3 cancel_running)) by hist.
  specialize (H 1 3 [LResult 7 0 None] 7 0%Z false (tl (tl (events 1 3 cancel_running)))). discriminate H.
  - assert (E : [LResult 7 0 None] ++ LComplete 7 0 false :: tl (tl (events 1 3 cancel_running)) = events 1 3 cancel_running) by (vm_compute; reflexivity). rewrite E. exact HH.
  - assert (F : finished (tl (tl (events 1 3 cancel_running))) = [0%Z]) by (vm_compute; reflexivity). rewrite F. left. reflexivity.
  - assert (F : forallb (fun l => match l with LReturn _ (OCancel 0) (RBool false) => true | LReturn _ (OCancel 0) _ => false | _ => true end) (tl (tl (events 1 3 cancel_running))) = true) by (vm_compute; reflexivity).
    intros t' r Hi. rewrite forallb_forall in F. specialize (F _ Hi). destruct r as [ |[]| | | | | | | ]; try discriminate F. reflexivity.
  - assert (F : forallb (fun l => match l with LResult _ 0 (Some _) => false | _ => true end) (tl (tl (events 1 3 cancel_running))) = true) by (vm_compute; reflexivity).
    intros t' r Hi. rewrite forallb_forall in F. specialize (F _ Hi). discriminate F.
Qed.
Example C50_cancel_running_finding : history 1 3 (events 1 3 cancel_running) /\
  filter (fun l => match l with LTau | LNotify _ | LBlock _ _ => false | _ => true end) (rev (events 1 3 cancel_running)) =
  [LCall 7 (OAdd 0 nm); LAdd 7 (Task 0 0 nm); LReturn 7 (OAdd 0 nm) (RId 0); LTake 0 0 0; LStart 0 0; LCall 7 (OCancel 0); LCancel 7 0 false; LReturn 7 (OCancel 0) (RBool false); LFinish 0 0; LDereg 0 0; LComplete 7 0 false; LResult 7 0 None].
Proof. split; [hist|vm_compute; reflexivity]. Qed.
Example C50_example : history 1 3 (events 1 3 (sleeps 0 ++ add_note 7 0 0 ++ add_call 8 0 ++ query 7 OClear ++ [ACancel 8 0%Z; AF 8; AF 8; AF 8; AF 8; AF 8; AF 8; AF 8])) /\
  filter (fun l => match l with LReturn _ _ _ => true | _ => false end) (rev (events 1 3 (sleeps 0 ++ add_note 7 0 0 ++ add_call 8 0 ++ query 7 OClear ++ [ACancel 8 0%Z; AF 8; AF 8; AF 8; AF 8; AF 8; AF 8; AF 8]))) =
    [LReturn 7 (OAdd 0 nm) (RId 0); LReturn 8 (OAdd 0 nm) (RId 1); LReturn 7 OClear (RCount 2); LReturn 8 (OCancel 0) (RBool false)].
Proof. split; [hist|vm_compute; reflexivity]. Qed.

(** * C51: order *)
(** Of the ready tasks, a worker takes the one that was added first (the queue lists them in that order) *)
Theorem C51_first_ready n c tr2 w id now tr1 : history n c (tr2 ++ LTake w id now :: tr1) ->
  exists q1 k q2, queue tr1 = q1 ++ k :: q2 /\ t_id k = id /\ (t_start k <= now)%Z /\ (forall x, In x q1 -> (now < t_start x)%Z).
Proof. intros H. apply history_legal in H. apply H. Qed.
Theorem C51_queue_order n c tr : history n c tr -> StronglySorted Z.lt (ids (queue tr)) /\ StronglySorted Z.lt (ids (added tr)).
Proof.
  intros H. split; [eapply queue_sorted; exact H|]. rewrite (C49_ids _ _ _ H). generalize (length (added tr)), 0. clear. intros m. induction m as [|m IH]; intros i; [constructor|]. cbn [seq map]. constructor; [apply IH|].
  rewrite Forall_forall. intros x Hx. apply in_map_iff in Hx. destruct Hx as (j & <- & Hj). apply in_seq in Hj. lia.
Qed.
(** Without delays, tasks are taken from the queue in the order in which they were added, and none is passed over *)
Theorem C51_fifo n c tr : history n c tr -> undelayed tr -> StronglySorted Z.gt (taken tr) /\ (forall x y, In x (taken tr) -> In y (ids (added tr)) -> (y < x)%Z -> In y (taken tr) \/ In y (dropped tr)).
Proof.
  intros H Hd. destruct (fifo _ _ _ H Hd) as [F1 F2]. split; [exact F1|]. intros x y Hx Hy Hlt. destruct (account _ _ _ _ H Hy) as [A|A]; [|exact A]. specialize (F2 x y Hx A). lia.
Qed.
(** With one worker they are also executed in that order *)
Theorem C51_one_worker c tr : history 1 c tr -> undelayed tr -> StronglySorted Z.gt (started tr) /\ (forall x y, In x (started tr) -> In y (ids (added tr)) -> (y < x)%Z -> In y (started tr) \/ In y (dropped tr)).
Proof.
  intros H Hd. destruct (C51_fifo _ _ _ H Hd) as [F1 F2]. destruct (one_worker _ _ H) as [E|(k & E & _)]; rewrite E in *; [tauto|]. apply StronglySorted_inv in F1. destruct F1 as [F1 F3]. split; [exact F1|].
  intros x y Hx Hy Hlt. destruct (F2 x y (or_intror Hx) Hy Hlt) as [[<-|A]|A]; [|tauto|tauto]. rewrite Forall_forall in F3. specialize (F3 x Hx). lia.
Qed.
(** ... one after the other *)
Theorem C51_serial c tr2 w id tr1 : history 1 c (tr2 ++ LStart w id :: tr1) -> forall id', In id' (started tr1) -> In id' (finished tr1).
Proof.
  intros H id' Hi. assert (H1 : history 1 c tr1) by (apply (history_app _ _ (tr2 ++ [LStart w id])); rewrite <- app_assoc; exact H). destruct (history_tinv _ _ _ H1) as (s & HT & Hn). pose proof (history_legal _ _ _ _ _ H) as L. cbn [legal] in L. destruct L as [(k & Ha & Ek) Hno].
  destruct (i_done _ _ HT id' (started_taken _ _ _ _ H1 Hi)) as [D|D]; [|exact D]. exfalso. apply in_map_iff in D. destruct D as (x & Ex & Hx).
  destruct (C49_running _ _ _ H1) as [R1 _]. assert (x = (w, k)). { destruct (active tr1) as [|y [|z l]]; [destruct Hx| |cbn in R1; lia]. destruct Hx as [<-|[]], Ha as [<-|[]]. reflexivity. }
  subst x. unfold aid in Ex. cbn [snd] in Ex. congruence.
Qed.
Definition demo_order : list act := sleeps 0 ++ add_note 7 0 0 ++ add_call 7 0 ++ starts 0 ++ ends 0 ++ repeat (AW 0) 7.
Example C51_example : history 1 3 (events 1 3 demo_order) /\ started (events 1 3 demo_order) = [1; 0]%Z /\ undelayed (events 1 3 demo_order).
Proof.
  split; [hist|]. split; [vm_compute; reflexivity|]. assert (G : forall tr, forallb (fun l => match l with LTick _ => false | LAdd _ k => (t_start k <=? 0)%Z | _ => true end) tr = true -> undelayed tr).
  { clear. intros tr Hf g h k -> Hk. rewrite forallb_app in Hf. apply andb_true_iff in Hf. destruct Hf as [_ Hf]. destruct (queue_added _ _ Hk) as (t & Ht). rewrite forallb_forall in Hf. pose proof (Hf _ Ht) as Hs. apply Z.leb_le in Hs.
    assert (Hc : clock_of h = 0%Z); [|lia]. clear - Hf. induction h as [|l h IH]; [reflexivity|]. pose proof (Hf l (or_introl eq_refl)) as Hl. destruct l; try discriminate Hl; cbn [clock_of]; apply IH; intros; apply Hf; right; assumption. }
  apply G. vm_compute. reflexivity.
Qed.

(** * C52: wake-ups *)
(** While a task is pending and shutdown is not requested, some worker is awake, or a notification is under way, or a worker waits no longer than until the first start time *)
Theorem C52_no_lost_wakeup n c s0 tr s : construct n c = Ok s0 -> exec s0 tr s -> pending s <> [] -> shut s = false ->
  (exists w, w < n /\ is_blocked (wk s w) = false) \/
  (exists t f, In f (stk s t) /\ notifying f = true) \/
  (exists w d, w < n /\ wk s w = WWait (Some d) /\ forall k, In k (pending s) -> (d <= t_start k)%Z).
Proof.
  intros H E Hp Hs. destruct (const_exec _ _ _ _ _ H E) as [<- _]. destruct (g_wake _ (good_exec _ _ _ _ _ H E) Hp Hs) as [A|[A|(w & d & A1 & A2 & A3)]]; [left; exact A|right; left; exact A|right; right].
  exists w, d. split; [exact A1|]. split; [exact A2|]. intros k Hk. pose proof (min_start_le _ _ Hk). lia.
Qed.
(** As long as the pool has an owner, whatever happened before, the threads can go on, without new calls from outside, spurious wake-ups, or setting the clock back, until a worker takes a task or nothing is pending *)
Theorem C52_picked_up n c s0 tr s : construct n c = Ok s0 -> exec s0 tr s -> 0 < owners s ->
  exists tr' s', continues s tr' s' /\ ((exists w id now tr'', tr' = LTake w id now :: tr'') \/ pending s' = []).
Proof. intros H E Ho. apply rt_all. constructor; [exists n, c, s0, tr; tauto|exact Ho]. Qed.
(** a worker blocks without time limit only when nothing is pending, and otherwise until the first start time *)
Theorem C52_blocking n c tr2 w until tr1 : history n c (tr2 ++ LBlock w until :: tr1) -> shutdown_requested tr1 = false /\
  match until with None => queue tr1 = [] | Some d => (exists k, In k (queue tr1) /\ t_start k = d) /\ (forall k, In k (queue tr1) -> (d <= t_start k)%Z) end.
Proof. intros H. apply history_legal in H. destruct until; cbn [legal] in H; tauto. Qed.
(** Not guaranteed: a free worker for a task whose time has come.  The worker that waited for the
    delayed task 0 was given task 1 instead; the other worker sleeps without time limit, and task 0,
    ready since time 5, waits for the end of task 1. *)
Definition lost_timer : list act :=
  sleeps 0 ++ sleeps 1 ++ add_note 7 5 0 ++ repeat (AW 0) 5 ++ add_note 7 0 0 ++ starts 0 ++ [ATick 100%Z].
Theorem C52_idle_worker_finding : exists n c s0 tr s, construct n c = Ok s0 /\ exec s0 tr s /\
  (exists k, pending s = [k] /\ (t_start k < clock s)%Z) /\ stk s 0 = [] /\ stk s 1 = [] /\ stk s 7 = [] /\ wk s 1 = WWait None /\ wk s 0 = WRun 1 /\ n = 2 /\ shut s = false.
Proof.
  destruct (final_view (fun s => (pending s, clock s, (wk s 0, wk s 1), (stk s 0, stk s 1, stk s 7), shut s)) 2 3 lost_timer ([Task 0 5 nm], 100%Z, (WRun 1, WWait None), ([], [], []), false)) as (s0 & tr & s & E1 & E2 & G).
  { vm_compute. reflexivity. }
  exists 2, 3, s0, tr, s. injection G as G1 G2 G3 G4 G5 G6 G7 G8. rewrite G1, G2, G3, G4, G5, G6, G7, G8. split; [exact E1|]. split; [exact E2|].
  split; [exists (Task 0 5 nm); split; [reflexivity|cbn; lia]|]. tauto.
Qed.
Example C52_example : option_map (fun s => (pending s, shut s, owners s, wk s 0, wk s 1)) (final 2 3 (sleeps 0 ++ sleeps 1 ++ [ACall 7 (OAdd 5 nm)] ++ repeat (AF 7) 5)) = Some ([Task 0 5 nm], false, 1, WWait None, WWait None).
Proof. vm_compute. reflexivity. Qed.

(** * C53: shutdown *)
Theorem C53_no_new_task n c tr2 t tr1 : history n c (tr2 ++ LShutdown t :: tr1) -> (forall w id now, ~ In (LTake w id now) tr2) /\ (forall t', ~ In (LShutdown t') (tr2 ++ tr1)).
Proof.
  intros H. split.
  - intros w id now Hi. apply in_split in Hi. destruct Hi as (a & b & ->). rewrite <- app_assoc in H. apply history_legal in H. destruct H as (_ & H & _). rewrite shut_app in H; [discriminate|reflexivity].
  - intros t' Hi. apply in_app_or in Hi. destruct Hi as [Hi|Hi].
    + apply in_split in Hi. destruct Hi as (a & b & ->). rewrite <- app_assoc in H. apply history_legal in H. cbn [legal] in H. rewrite shut_app in H; [discriminate|reflexivity].
    + apply history_legal in H. cbn [legal] in H. assert (X : shutdown_requested tr1 = true) by (apply shut_in; exists t'; exact Hi). congruence.
Qed.
(** Once the destructor waits for the workers, every statement executed by a worker brings its return nearer, and nothing that other threads do delays it *)
Theorem C53_workers_return n c s0 tr s l s' : construct n c = Ok s0 -> exec s0 tr s -> joining s -> step s l s' ->
  left_over s' <= left_over s /\ ((exists w, w < n /\ wk s' w <> wk s w) -> left_over s' < left_over s).
Proof. intros H E HJ Hs. destruct (const_exec _ _ _ _ _ H E) as [<- _]. apply (join_rank s l s'); [eapply good_exec; eassumption|exact HJ|exact Hs]. Qed.
(** a destructor that waits in a thread outside the pool can complete, if the running tasks have no calls of their own in progress and return *)
Theorem C53_join_returns n c s0 tr s t k rest : construct n c = Ok s0 -> exec s0 tr s -> stk s t = DJoin k :: rest -> n <= t -> (forall v id, v < n -> wk s v = WRun id -> stk s v = []) ->
  exists tr' s', exec s (LFree t :: tr') s' /\ stk s' t = rest.
Proof. intros H E. destruct (const_exec _ _ _ _ _ H E) as [<- _]. apply (join_terminates _ _ _ _ _ _ _ _ H E). Qed.
(** in such a thread the destructor does not wait for a mutex that the thread itself holds *)
Theorem C53_no_self_deadlock n c s0 tr s t rest : construct n c = Ok s0 -> exec s0 tr s -> n <= t -> stk s t = DLock :: rest -> mtx s <> Some t.
Proof. intros H E. destruct (const_exec _ _ _ _ _ H E) as [<- _]. apply client_dtor. eapply inv_exec; eassumption. Qed.
(** when the destructor ends, no task is running *)
Theorem C53_free n c tr2 t tr1 : history n c (tr2 ++ LFree t :: tr1) -> active tr1 = [].
Proof. intros H. apply history_legal in H. exact H. Qed.
(** If a task drops the last shared_ptr, the worker joins itself: std::terminate *)
Definition self_join : list act := sleeps 0 ++ add_note 7 0 0 ++ starts 0 ++ [ADrop 0; AF 0; AF 0; AF 0; AF 0; AF 0].
Theorem C53_self_join_finding : history 1 1 (events 1 1 self_join) /\ hd_error (events 1 1 self_join) = Some (LTerminate 0).
Proof. split; [hist|vm_compute; reflexivity]. Qed.
(** If the owner goes away while a task is inside add_task(), the last reference is the temporary
    shared_ptr of add_task(): the destructor then waits for the mutex that its own thread holds *)
Definition self_lock : list act := sleeps 0 ++ add_note 7 0 0 ++ starts 0 ++ [ATask 0 (OAdd 0 nm)] ++ repeat (AF 0) 3 ++ [ADrop 7; AF 0].
Theorem C53_self_deadlock_finding : option_map (fun s => (stk s 0, mtx s, strong s)) (final 1 3 self_lock) = Some ([DLock; CPush 0 nm], Some 0, 0).
Proof. vm_compute. reflexivity. Qed.
(** the same if the last shared_ptr is owned by the function object of a task: it is destroyed under the lock *)
Definition drop_lock : list act := sleeps 0 ++ add_note 7 0 0 ++ starts 0 ++ repeat (AW 0) 3 ++ [ADropTask 0].
Theorem C53_captured_owner_finding : option_map (fun s => (stk s 0, mtx s, strong s)) (final 1 3 drop_lock) = Some ([DLock], Some 0, 0).
Proof. vm_compute. reflexivity. Qed.
(** in these states the pool is stuck: the mutex is never released *)
Theorem C53_deadlock_permanent n c s0 tr s t rest : construct n c = Ok s0 -> exec s0 tr s -> stk s t = DLock :: rest -> mtx s = Some t -> forall tr' s', exec s tr' s' -> stk s' t = DLock :: rest /\ mtx s' = Some t.
Proof.
  intros H E Hk Hm tr' s' E'. induction E' as [|tr' s1 l s2 E' IH Hs]; [tauto|]. destruct IH as [I1 I2]. pose proof (good_exec _ _ _ _ _ H (exec_trans _ _ _ _ _ E E')) as HG.
  pose proof (v_mtx _ (g_inv _ HG)) as HM. assert (Hno : forall v, v < nw s1 -> v <> t -> wholds (wk s1 v) = false).
  { intros v Hv Hne. pose proof (HM v) as X. unfold nh, own in X. rewrite I2 in X. destruct (Nat.eqb_spec v t); [congruence|]. apply Nat.ltb_lt in Hv. rewrite Hv in X. destruct (wholds (wk s1 v)); [cbn in X; lia|reflexivity]. }
  assert (Hnf : forall v f r, stk s1 v = f :: r -> v <> t -> fholds f = false).
  { intros v f r Hv Hne. pose proof (HM v) as X. unfold nh, own in X. rewrite I2, Hv in X. destruct (Nat.eqb_spec v t); [congruence|]. cbn [cnt b2n] in X. destruct (fholds f); [cbn in X; lia|reflexivity]. }
  assert (Hwt : t < nw s1 -> in_task (wk s1 t) = true) by (intros Ht; apply (v_wst _ (g_inv _ HG) t Ht); rewrite I1; discriminate).
  destruct Hs; try body_facts; unfold release, disown in *; projs; try congruence; try (split; assumption).
  all: try (match goal with Hw : ?w < nw ?s, Hp : wk ?s ?w = _ |- _ => match type of I1 with stk _ ?u = _ => destruct (Nat.eq_dec w u) as [->|Hne]; [specialize (Hwt Hw); rewrite Hp in Hwt; discriminate Hwt|specialize (Hno w Hw Hne); rewrite Hp in Hno; discriminate Hno] end end).
  all: try (match goal with Hs : stk ?s ?v = ?f :: ?r |- _ => match type of I1 with stk _ ?u = _ => destruct (Nat.eq_dec v u) as [->|Hne]; [rewrite I1 in Hs; try discriminate Hs|unfold upd; match goal with |- context [Nat.eqb ?u v] => destruct (Nat.eqb_spec u v); [congruence|] | _ => idtac end; try (specialize (Hnf v f r Hs Hne); discriminate Hnf); try (split; assumption)] end end).
  all: try (unfold upd; match goal with |- context [Nat.eqb ?u ?v] => destruct (Nat.eqb_spec u v); [subst; congruence|split; assumption] end).
Qed.
(** the pool is destroyed while task 0 is running: the worker finishes it and exits, the destructor returns *)
Definition shutdown_demo : list act := sleeps 0 ++ add_note 7 0 0 ++ starts 0 ++ add_call 7 0 ++ [ADrop 7] ++ repeat (AF 7) 4.
Definition shutdown_end : list act := shutdown_demo ++ ends 0 ++ repeat (AW 0) 2 ++ repeat (AF 7) 3.
Example C53_example : history 1 3 (events 1 3 shutdown_end) /\
  filter (fun l => match l with LTau | LNotify _ => false | _ => true end) (firstn 12 (events 1 3 shutdown_end)) = [LFree 7; LDereg 0 0; LFinish 0 0; LShutdown 7] /\
  option_map (fun s => (stk s 7, wk s 0, pending s, left_over s)) (final 1 3 shutdown_demo) = Some ([DJoin 0], WRun 0, [Task 1 0 nm], 6).
Proof. split; [hist|]. split; vm_compute; reflexivity. Qed.

(** * C54: task states *)
(** get_state() reports what was the case at some moment during the call *)
Theorem C54_moment n c tr2 t id x tr1 : history n c (tr2 ++ LState t id x :: tr1) ->
  exists h, during t (OState id) tr1 h /\
    match x with
    | TPending => In id (ids (queue h))
    | TRunning => In id (aids h)
    | TComplete | TCanceled => ~ In id (ids (queue h)) /\ ~ In id (aids h) /\ In id (ids (added h))
    | TUnknown => False
    end.
Proof. intros H. destruct (state_moment _ _ _ _ _ _ _ H) as (h & A & B & C). exists h. split; [exact A|]. destruct x; tauto. Qed.
Lemma during_history n c t o a tr h : history n c (a ++ tr) -> during t o tr h -> history n c h.
Proof. intros H (b & _ & _ & -> & _). apply (history_app n c (a ++ b) h). rewrite <- app_assoc. exact H. Qed.
Lemma queue_not_active n c h id : history n c h -> In id (ids (queue h)) -> ~ In id (aids h).
Proof.
  intros H Hq Ha. unfold aids in Ha. apply in_map_iff in Ha. destruct Ha as ([w k] & <- & Ha). destruct (active_taken _ _ _ Ha) as (now & a & b & -> & _). cbn [snd] in Hq.
  apply (proj1 (proj1 (excl _ _ _ _ H) Hq)). apply taken_in. exists w, now. apply in_or_app. right. left. reflexivity.
Qed.
(** a task that is pending (running) throughout the call is reported as pending (running) *)
Theorem C54_pending n c tr2 t id x tr1 : history n c (tr2 ++ LState t id x :: tr1) -> (forall h, during t (OState id) tr1 h -> In id (ids (queue h))) -> x = TPending.
Proof.
  intros H Hq. destruct (C54_moment _ _ _ _ _ _ _ H) as (h & A & B). specialize (Hq h A). assert (Hh : history n c h) by (apply (during_history n c t (OState id) (tr2 ++ [LState t id x]) tr1); [rewrite <- app_assoc; exact H|exact A]).
  destruct x; try tauto. exfalso. exact (queue_not_active _ _ _ _ Hh Hq B).
Qed.
Theorem C54_running n c tr2 t id x tr1 : history n c (tr2 ++ LState t id x :: tr1) -> (forall h, during t (OState id) tr1 h -> In id (aids h)) -> x = TRunning.
Proof.
  intros H Hq. destruct (C54_moment _ _ _ _ _ _ _ H) as (h & A & B). specialize (Hq h A). assert (Hh : history n c h) by (apply (during_history n c t (OState id) (tr2 ++ [LState t id x]) tr1); [rewrite <- app_assoc; exact H|exact A]).
  destruct x; try tauto. exfalso. exact (queue_not_active _ _ _ _ Hh B Hq).
Qed.
(** the other two states: complete means that the function has ended, or that the pool discarded
    the task, and that the handle still has the result; canceled means that the handle was used
    to cancel the task or to fetch its result *)
Theorem C54_over n c tr2 t id x tr1 : history n c (tr2 ++ LState t id x :: tr1) ->
  (x = TComplete -> (In id (finished tr1) \/ In id (dropped tr1)) /\ ~ retired id tr1) /\ (x = TCanceled -> invalidated id tr1).
Proof.
  intros H. pose proof (history_legal _ _ _ _ _ H) as HL. cbn [legal] in HL. destruct HL as [_ HL]. split; intros ->; [|apply HL]. split; [apply HL|]. intros Hr.
  exact (proj1 (retired_legal _ _ _ _ _ _ H Hr) t eq_refl).
Qed.
Theorem C54_monotone n c tr3 t' id x' tr2 t x tr1 : history n c (tr3 ++ LState t' id x' :: tr2 ++ LState t id x :: tr1) -> In (LCall t' (OState id)) tr2 -> progress x <= progress x'.
Proof. apply state_monotone. Qed.
Theorem C54_is_complete n c tr2 t id b tr1 : history n c (tr2 ++ LComplete t id b :: tr1) ->
  (b = true -> (In id (finished tr1) \/ In id (dropped tr1)) /\ ~ retired id tr1) /\ (b = false -> invalidated id tr1 \/ ~ In id (finished tr1) /\ ~ In id (dropped tr1)).
Proof.
  intros H. pose proof (history_legal _ _ _ _ _ H) as HL. cbn [legal] in HL. split; intros ->; [|exact HL]. split; [exact HL|]. intros Hr. exact (proj1 (proj2 (retired_legal _ _ _ _ _ _ H Hr)) t eq_refl).
Qed.
(** get_result() delivers the result of a function that has ended, or future_error for a task that was discarded, once *)
Theorem C54_get_result n c tr2 t id r tr1 : history n c (tr2 ++ LResult t id (Some r) :: tr1) ->
  (r = FReady /\ In id (finished tr1) \/ r = FBroken /\ In id (dropped tr1)) /\ ~ retired id tr1.
Proof.
  intros H. pose proof (history_legal _ _ _ _ _ H) as HL. cbn [legal] in HL. split; [apply HL|]. intros Hr. exact (proj2 (proj2 (retired_legal _ _ _ _ _ _ H Hr)) t r eq_refl).
Qed.
(** The documentation says more: a task that has finished is complete.  After get_result() the state is canceled. *)
Definition result_then_state : list act := sleeps 0 ++ add_note 7 0 0 ++ starts 0 ++ ends 0 ++ repeat (AW 0) 2 ++ handle_state 7 0 ++ [AResult 7 0] ++ handle_state 7 0.
Theorem C54_complete_refuted : ~ forall n c tr2 t id x b d w, history n c (tr2 ++ LState t id x :: b ++ LCall t (OState id) :: d) ->
  (forall o, ~ In (LCall t o) b) -> In (LDereg w id) d -> (forall t', ~ In (LCall t' (OCancel id)) d) -> x = TComplete.
Proof.
  intros H. let l := eval vm_compute in (events 1 3 result_then_state) in assert (E : events 1 3 result_then_state = l) by (vm_compute; reflexivity).
  assert (Hh : history 1 3 (events 1 3 result_then_state)) by hist. rewrite E in Hh. clear E.
  match type of Hh with history _ _ (LState 7 0%Z TCanceled :: ?a1 :: ?a2 :: ?a3 :: ?a4 :: ?a5 :: ?a6 :: LCall 7 (OState 0) :: ?d) =>
    specialize (H 1 3 [] 7 0%Z TCanceled [a1; a2; a3; a4; a5; a6] d 0 Hh) end.
  assert (G : TCanceled = TComplete); [|discriminate G]. apply H.
  - intros o Hi. cbn [In] in Hi. repeat (destruct Hi as [Hi|Hi]; [discriminate Hi|]). exact Hi.
  - cbn [In]. repeat (first [left; reflexivity|right]).
  - intros t' Hi. cbn [In] in Hi. repeat (destruct Hi as [Hi|Hi]; [discriminate Hi|]). exact Hi.
Qed.
(** A task that was discarded by cancel_pending_tasks() is reported as complete. *)
Definition clear_then_state : list act := add_call 7 0 ++ query 7 OClear ++ handle_state 7 0 ++ [AComplete 7 0].
Theorem C54_canceled_refuted : ~ forall n c tr2 t id x b d, history n c (tr2 ++ LState t id x :: b ++ LCall t (OState id) :: d) ->
  (forall o, ~ In (LCall t o) b) -> In id (dropped d) -> x = TCanceled.
Proof.
  intros H. let l := eval vm_compute in (events 1 3 clear_then_state) in assert (E : events 1 3 clear_then_state = l) by (vm_compute; reflexivity).
  assert (Hh : history 1 3 (events 1 3 clear_then_state)) by hist. rewrite E in Hh. clear E.
  match type of Hh with history _ _ (?a0 :: LState 7 0%Z TComplete :: ?a1 :: ?a2 :: ?a3 :: ?a4 :: ?a5 :: ?a6 :: LCall 7 (OState 0) :: ?d) =>
    specialize (H 1 3 [a0] 7 0%Z TComplete [a1; a2; a3; a4; a5; a6] d Hh) end.
  assert (G : TComplete = TCanceled); [|discriminate G]. apply H.
  - intros o Hi. cbn [In] in Hi. repeat (destruct Hi as [Hi|Hi]; [discriminate Hi|]). exact Hi.
  - vm_compute. left. reflexivity.
Qed.
Example C54_example : history 1 3 (events 1 3 result_then_state) /\
  filter (fun l => match l with LState _ _ _ | LResult _ _ _ => true | _ => false end) (events 1 3 result_then_state) = [LState 7 0 TCanceled; LResult 7 0 (Some FReady); LState 7 0 TComplete] /\
  filter (fun l => match l with LState _ _ _ | LStart _ _ => true | _ => false end) (events 1 3 (sleeps 0 ++ add_note 7 0 0 ++ handle_live 7 0 ++ starts 0 ++ handle_live 7 0)) = [LState 7 0 TRunning; LStart 0 0; LState 7 0 TPending].
Proof. split; [hist|]. split; vm_compute; reflexivity. Qed.

(** * C62: data races and use after destruction *)
(** At most one thread is between lock and unlock: the thread that owns the mutex *)
Theorem C62_mutual_exclusion n c s0 tr s : construct n c = Ok s0 -> exec s0 tr s ->
  (forall w, w < n -> wholds (wk s w) = true -> mtx s = Some w) /\ (forall t f, In f (stk s t) -> fholds f = true -> mtx s = Some t) /\
  (forall t f rest, stk s t = f :: rest -> fholds f = true -> t < n -> wholds (wk s t) = false).
Proof.
  intros H E. destruct (const_exec _ _ _ _ _ H E) as [<- _]. pose proof (inv_exec _ _ _ _ _ H E) as HV. pose proof (v_mtx _ HV) as HM. split; [|split].
  - intros w Hw Hh. specialize (HM w). unfold nh, own in HM. apply Nat.ltb_lt in Hw. rewrite Hw, Hh in HM. destruct (mtx s) as [x|]; [|cbn in HM; lia]. destruct (Nat.eqb_spec w x) as [->|Hne]; [reflexivity|]. cbn in HM. lia.
  - intros t f Hf Hh. specialize (HM t). unfold nh, own in HM. assert (Hc : 0 < cnt fholds (stk s t)).
    { clear - Hf Hh. induction (stk s t) as [|g l IH]; [destruct Hf|]. cbn [cnt]. destruct Hf as [->|Hf]; [rewrite Hh; cbn; lia|specialize (IH Hf); lia]. }
    destruct (mtx s) as [x|]; [|cbn in HM; lia]. destruct (Nat.eqb_spec t x) as [->|Hne]; [reflexivity|]. cbn in HM. lia.
  - intros t f rest Hk Hh Ht. specialize (HM t). unfold nh, own in HM. rewrite Hk in HM. cbn [cnt] in HM. rewrite Hh in HM. apply Nat.ltb_lt in Ht. rewrite Ht in HM. destruct (wholds (wk s t)); [|reflexivity].
    cbn in HM. destruct (mtx s) as [x|]; [destruct (Nat.eqb t x)|]; cbn in HM; lia.
Qed.
(** the queue, the list of running tasks, the shutdown flag and the next task id are changed only by a step of the thread that owns the mutex; the exception is the destruction of the members, after all workers have returned *)
Theorem C62_writes_locked n c s0 tr s l s' : construct n c = Ok s0 -> exec s0 tr s -> step s l s' ->
  pending s' <> pending s \/ rids s' <> rids s \/ rnames s' <> rnames s \/ shut s' <> shut s \/ next s' <> next s ->
  (exists t, mtx s = Some t /\ forall v, v <> t -> wk s' v = wk s v /\ stk s' v = stk s v) \/ (exists t, l = LFree t) /\ forall w, w < n -> wk s w = WExit.
Proof.
  intros H E Hs Hd. destruct (const_exec _ _ _ _ _ H E) as [<- _]. destruct (C62_mutual_exclusion _ _ _ _ _ H E) as (M1 & M2 & _). pose proof (inv_exec _ _ _ _ _ H E) as HV.
  destruct Hs; try body_facts; unfold release, disown in *; projs; try (exfalso; clear - Hd; tauto); try (left; eexists; (split; [apply M1; [eassumption|]; match goal with Hp : wk _ _ = _ |- _ => rewrite Hp; reflexivity end|]));
    try (left; eexists; (split; [match goal with Hp : stk _ _ = ?f :: _ |- _ => eapply (M2 _ f); [rewrite Hp; left; reflexivity|reflexivity] end|])).
  all: try (intros v Hv; unfold upd; try rewrite B9; try rewrite B10; destruct (Nat.eqb_spec v t); [congruence|tauto]).
  all: try (intros v Hv; unfold upd; destruct (Nat.eqb_spec v w); [congruence|tauto]).
  all: try (right; split; [eexists; reflexivity|]; intros w Hw; apply (proj1 (proj2 (v_join _ HV)) t); [rewrite H0; left; reflexivity|exact Hw|exact Hw]).
Qed.
(** every operation on the pool, and every step of a worker on the queue, takes effect while the thread owns the mutex *)
Theorem C62_effects_locked n c s0 tr s l s' : construct n c = Ok s0 -> exec s0 tr s -> step s l s' ->
  match l with
  | LAdd t _ | LCancel t _ _ | LClear t _ | LQuery t _ _ | LShutdown t | LTake t _ _ | LDereg t _ | LBlock t _ => mtx s = Some t
  | LFree _ => mtx s = None
  | _ => True
  end.
Proof.
  intros H E Hs. destruct (C62_mutual_exclusion _ _ _ _ _ H E) as (M1 & M2 & _). destruct (const_exec _ _ _ _ _ H E) as [<- _]. pose proof (inv_exec _ _ _ _ _ H E) as HV.
  destruct Hs; try exact I; try (apply M1; [eassumption|]; match goal with Hp : wk _ _ = _ |- _ => rewrite Hp; reflexivity end);
    try (match goal with Hp : stk _ _ = ?f :: _ |- _ => eapply (M2 _ f); [rewrite Hp; left; reflexivity|reflexivity] end).
  - destruct o; cbn [body] in H2; try (destruct (index_of id (ids (pending s)))); injection H2 as <- <- <-; try exact I; (eapply M2; [rewrite H0; left; reflexivity|reflexivity]).
  - destruct x; exact I.
  - destruct (mtx s) as [x|] eqn:Hm; [|reflexivity]. exfalso. pose proof (v_mtx _ HV x) as HM. unfold nh, own in HM. rewrite Hm, Nat.eqb_refl in HM. cbn [b2n] in HM.
    assert (Hw : (x <? nw s) && wholds (wk s x) = false).
    { destruct (Nat.ltb_spec x (nw s)) as [Hx|]; [|reflexivity]. rewrite (proj1 (proj2 (v_join _ HV)) t); [reflexivity|rewrite H0; left; reflexivity|exact Hx|exact Hx]. }
    rewrite Hw in HM. cbn [b2n] in HM. assert (Hc : exists f, In f (stk s x) /\ fholds f = true).
    { clear - HM. induction (stk s x) as [|g l IH]; [cbn in HM; lia|]. cbn [cnt] in HM. destruct (fholds g) eqn:Eg; [exists g; split; [left; reflexivity|exact Eg]|]. destruct IH as (f & A & B); [cbn in HM; lia|]. exists f. split; [right; exact A|exact B]. }
    destruct Hc as (f & Hf & Hh). destruct (v_dt _ HV) as (d & D1 & D2). pose proof (D1 t) as Dt. rewrite H0 in Dt. cbn [cnt is_dtor b2n] in Dt. destruct d as [d|]; [|cbn in Dt; lia]. destruct D2 as [D2 _].
    destruct (Nat.lt_ge_cases x (nw s)) as [Hx|Hx].
    + assert (He : in_task (wk s x) = true) by (apply (v_wst _ HV x Hx); intros E0; rewrite E0 in Hf; destruct Hf). rewrite (proj1 (proj2 (v_join _ HV)) t) in He; [discriminate He|rewrite H0; left; reflexivity|exact Hx|exact Hx].
    + destruct (accesses f) eqn:Ea.
      * pose proof (covered_cdrop f _ (v_cov _ HV x Hx) Hf Ea) as Hc. pose proof (v_refs _ HV x) as Hr. pose proof (cnt_pos holds_ref _ _ Hc eq_refl). unfold strong in D2. destruct (refs s); [cbn in Hr; lia|cbn in D2; lia].
      * assert (Ed : is_dtor f = true) by (destruct f; try discriminate; reflexivity). pose proof (D1 x) as Dx. pose proof (cnt_pos is_dtor _ _ Hf Ed). unfold own in Dt, Dx.
        destruct (Nat.eqb_spec x d) as [->|]; [|cbn in Dx; lia]. destruct (Nat.eqb_spec t d) as [->|]; [|cbn in Dt; lia]. cbn [b2n] in Dt. rewrite H0 in Hf. destruct Hf as [<-|Hf]; [discriminate Hh|]. pose proof (cnt_pos is_dtor _ _ Hf Ed). lia.
Qed.
(** after the destructor has ended, all workers have returned, no call in progress will access the pool, and no event touches it *)
Theorem C62_destroyed n c s0 tr s : construct n c = Ok s0 -> exec s0 tr s -> freed s = true ->
  (forall w, w < n -> wk s w = WExit) /\ (forall t f, In f (stk s t) -> accesses f = false) /\ owners s = 0.
Proof.
  intros H E Hf. destruct (const_exec _ _ _ _ _ H E) as [<- _]. pose proof (inv_exec _ _ _ _ _ H E) as HV. destruct (freed_quiet s HV Hf) as [A B]. split; [exact A|]. split; [intros t f Hi; apply (B t f Hi)|].
  destruct (v_dt _ HV) as (d & _ & D). destruct d; [destruct D; congruence|]. apply D in Hf. unfold strong in Hf. lia.
Qed.
Theorem C62_free_last n c tr2 t tr1 : history n c (tr2 ++ LFree t :: tr1) -> forall l, In l tr2 -> touches l = false.
Proof. apply free_last. Qed.
(** the destructor runs only when no shared_ptr is left, and is run by one thread *)
Theorem C62_one_destructor n c s0 tr s t f : construct n c = Ok s0 -> exec s0 tr s -> In f (stk s t) -> is_dtor f = true ->
  strong s = 0 /\ forall v g, v <> t -> In g (stk s v) -> is_dtor g = false.
Proof.
  intros H E Hi Hd. pose proof (inv_exec _ _ _ _ _ H E) as HV. destruct (v_dt _ HV) as (d & D1 & D2).
  assert (Hp : 0 < cnt is_dtor (stk s t)) by exact (cnt_pos is_dtor _ _ Hi Hd).
  rewrite (D1 t) in Hp. unfold own in Hp. destruct d as [d|]; [|cbn in Hp; lia]. destruct (Nat.eqb_spec t d) as [->|]; [|cbn in Hp; lia]. split; [apply D2|].
  intros v g Hv Hf. apply (cnt_zero is_dtor (stk s v)); [|exact Hf]. rewrite (D1 v). unfold own. destruct (Nat.eqb_spec v d); [congruence|reflexivity].
Qed.
Example C62_example : history 1 3 (events 1 3 shutdown_end) /\ option_map (fun s => (freed s, wk s 0, stk s 7)) (final 1 3 shutdown_end) = Some (true, WExit, []) /\
  option_map (fun s => (mtx s, (stk s 7, wk s 0))) (final 1 3 (sleeps 0 ++ [ACall 7 OCount; AF 7])) = Some (Some 7, ([CBody OCount; CDrop], WWait None)) /\
  option_map (fun s => stk s 7) (final 1 3 shutdown_demo) = Some [DJoin 0].
Proof. split; [hist|]. repeat split; vm_compute; reflexivity. Qed.
Print Assumptions C48_start_time.
Print Assumptions C52_picked_up.
Print Assumptions C53_join_returns.
Print Assumptions C54_monotone.
Print Assumptions C62_writes_locked.
