(** ThreadPool: property C88, what happens when memory runs out.

    Histories of PoolModel contain calls that end with std::bad_alloc (RNoMem), so the theorems
    C48-C54 and C62 hold for pools whose users run out of memory; this file adds what is
    particular to such calls. *)
From Coq Require Import ZArith List Bool Lia PeanoNat.
From Verif Require Import Base PoolModel PoolSpec PoolProofs PoolProofs2 PoolProofs3 PoolProofs5 PoolProofs8 PoolRun PoolProps PoolMemModel PoolMemProofs.
Import ListNotations.
Local Open Scope nat_scope.

(** The calls that can end with std::bad_alloc *)
Theorem C88_calls n c tr2 t o tr1 : history n c (tr2 ++ LReturn t o RNoMem :: tr1) -> (exists start name, o = OAdd start name) \/ o = ONames \/ o = ORunning.
Proof.
  intros H. destruct (C49_one_effect _ _ _ _ _ _ _ H) as (a & h & _ & _ & _ & L); [discriminate|].
  destruct o; cbn [effect_of legal answer] in L; try contradiction; [left; eexists; eexists; reflexivity|right; left; reflexivity|right; right; reflexivity].
Qed.
(** Such a call has no effect on the pool: it is answered at one moment during the call, which
    changes neither the queue, nor the tasks added, taken, started, finished or removed so far,
    nor the running tasks, nor the request to shut down; and it does nothing else *)
Theorem C88_no_effect n c tr2 t o tr1 : history n c (tr2 ++ LReturn t o RNoMem :: tr1) ->
  effects t tr1 = [LQuery t o RNoMem] /\
  exists a h, tr1 = a ++ LQuery t o RNoMem :: h /\ during t o tr1 h /\
    queue (LQuery t o RNoMem :: h) = queue h /\ added (LQuery t o RNoMem :: h) = added h /\ active (LQuery t o RNoMem :: h) = active h /\
    taken (LQuery t o RNoMem :: h) = taken h /\ started (LQuery t o RNoMem :: h) = started h /\ finished (LQuery t o RNoMem :: h) = finished h /\
    dropped (LQuery t o RNoMem :: h) = dropped h /\ shutdown_requested (LQuery t o RNoMem :: h) = shutdown_requested h.
Proof.
  intros H. destruct (C49_one_effect _ _ _ _ _ _ _ H) as (a & h & E & D & F & L); [discriminate|].
  assert (Ee : effect_of t o RNoMem = LQuery t o RNoMem) by (destruct o; reflexivity). rewrite Ee in *.
  split; [exact F|]. exists a, h. repeat split; assumption.
Qed.
(** the same, in terms of the data of the pool: nothing changes at that moment, except that the call goes on to its end *)
Theorem C88_state n c s0 tr s t o s' : construct n c = Ok s0 -> exec s0 tr s -> step s (LQuery t o RNoMem) s' ->
  mtx s = Some t /\
  (pending s', rids s', rnames s', next s', shut s', mtx s', clock s', owners s', refs s', freed s') =
  (pending s, rids s, rnames s, next s, shut s, mtx s, clock s, owners s, refs s, freed s) /\
  (forall id, fut s' id = fut s id /\ valid s' id = valid s id) /\ (forall w, wk s' w = wk s w) /\ (forall u, u <> t -> stk s' u = stk s u).
Proof.
  intros Hc E Hs. pose proof (v_mtx _ (g_inv _ (good_exec _ _ _ _ _ Hc E))) as HM.
  assert (Ho : forall u : nat, u <> t -> forall x, upd (stk s) t x u = stk s u).
  { intros u Hu x. unfold upd. destruct (Nat.eqb_spec u t); [contradiction|reflexivity]. }
  remember (LQuery t o RNoMem) as l eqn:El. destruct Hs; try discriminate El.
  all: try (exfalso; match goal with H : body _ _ _ = _ |- _ => apply body_label in H; exact (proj1 H _ _ El) end).
  all: try (destruct x; discriminate El).
  all: injection El as -> <-; projs.
  all: match goal with H : stk _ _ = _ |- _ => pose proof (proj2 (one_holder _ _ _ _ HM H eq_refl)) as Hm end.
  all: split; [exact Hm|]; split; [reflexivity|]; split; [intros; split; reflexivity|]; split; [reflexivity|]; intros u Hu; apply Ho; exact Hu.
Qed.
(** Every call, however it ends, has unlocked the mutex when it returns *)
Theorem C88_unlocked n c s0 tr t o r s : construct n c = Ok s0 -> exec s0 (LReturn t o r :: tr) s -> r <> RNoPool -> mtx s <> Some t.
Proof.
  intros Hc E Hr. inversion E as [|? s1 ? ? E1 Hs]. subst. destruct (ret_exec _ _ _ _ _ Hc E1) as [_ I2].
  remember (LReturn t o r) as l eqn:El. destruct Hs; try discriminate El.
  - exfalso. match goal with H : body _ _ _ = _ |- _ => apply body_label in H; exact (proj2 H _ _ _ El) end.
  - injection El as -> -> ->. projs. eapply I2; [eassumption|reflexivity].
  - destruct x; discriminate El.
  - injection El as -> -> <-. congruence.
Qed.
(** A call that failed has used up no task id: every task is numbered with the tasks added before *)
Theorem C88_next_id n c tr2 t k tr1 : history n c (tr2 ++ LAdd t k :: tr1) -> t_id k = Z.of_nat (length (added tr1)).
Proof. intros H. apply history_legal in H. apply H. Qed.

(** A failed and a successful call of add_task, and another failed one, with one worker *)
Definition no_memory : list act :=
  [ACall 7 (OAdd 0 nm); AF 7; ANoMem 7; AF 7; AF 7; AF 7] ++ add_call 7 0 ++ [ACall 7 (OAdd 0 nm); AF 7; AF 7; AF 7; AF 7; ANoMem 7; AF 7; AF 7; AF 7] ++ [ACall 7 ONames; AF 7; ANoMem 7; AF 7; AF 7; AF 7] ++
  repeat (AW 0) 8 ++ ends 0.
Example C88_example : history 1 3 (events 1 3 no_memory) /\
  filter (fun l => match l with LTau | LNotify _ | LBlock _ _ => false | _ => true end) (rev (events 1 3 no_memory)) =
  [LCall 7 (OAdd 0 nm); LQuery 7 (OAdd 0 nm) RNoMem; LReturn 7 (OAdd 0 nm) RNoMem;
   LCall 7 (OAdd 0 nm); LAdd 7 (Task 0 0 nm); LReturn 7 (OAdd 0 nm) (RId 0);
   LCall 7 (OAdd 0 nm); LQuery 7 (OAdd 0 nm) RNoMem; LReturn 7 (OAdd 0 nm) RNoMem;
   LCall 7 ONames; LQuery 7 ONames RNoMem; LReturn 7 ONames RNoMem;
   LTake 0 0 0; LStart 0 0; LFinish 0 0; LDereg 0 0].
Proof. split; [hist|vm_compute; reflexivity]. Qed.

(** * Memory that runs out in a worker *)
(** The process is ended only when a worker has taken a task off the queue and has not started it; the mutex is locked *)
Theorem C88_abort n c s0 tr s w k : construct n c = Ok s0 -> exec s0 tr s -> (Z.of_nat (length (added tr)) < id_mod)%Z -> aborts s w k ->
  mtx s = Some w /\ (exists now, In (LTake w (t_id k) now) tr) /\ ~ In (t_id k) (started tr) /\ ~ In (t_id k) (ids (pending s)).
Proof.
  intros Hc E Hb [Hw Hk]. pose proof (tinv_exec _ _ _ _ _ Hc E Hb) as HT. pose proof (v_mtx _ (g_inv _ (good_exec _ _ _ _ _ Hc E))) as HM.
  assert (Hp : phase (wk s w) = PReg k) by (rewrite Hk; reflexivity).
  destruct (i_reg _ _ HT _ _ Hw Hp) as (A & EA). assert (Hin : In (w, k) (active tr)) by (rewrite EA; apply in_or_app; right; left; reflexivity).
  split; [|split; [|split]].
  - specialize (HM w). unfold nh in HM. apply Nat.ltb_lt in Hw. rewrite Hw, Hk in HM. cbn [wholds andb b2n] in HM. unfold own in HM.
    destruct (mtx s) as [x|]; [|lia]. destruct (Nat.eqb_spec w x); [subst; reflexivity|cbn [b2n] in HM; lia].
  - destruct (active_taken _ _ _ Hin) as (now & a & b & -> & _). exists now. apply in_or_app. right. left. reflexivity.
  - intros Hs. assert (Hcur : pcur (phase (wk s w)) = Some (t_id k)) by (rewrite Hp; reflexivity).
    apply (proj1 (proj2 (proj2 (i_start _ _ HT)) _ _ Hw Hcur)) in Hs. rewrite Hp in Hs. discriminate Hs.
  - intros Hi. rewrite (i_pend _ _ HT) in Hi. assert (Hh : history n c tr) by (exists s0, s; tauto).
    apply (proj1 (proj1 (excl _ _ _ (t_id k) Hh) Hi)). apply (i_actw _ _ HT) in Hin. apply Hin.
Qed.
(** ... and this does happen: a worker that cannot enter its task in the list of running tasks ends the process *)
Theorem C88_worker_aborts_finding : exists s0 tr s k, construct 1 3 = Ok s0 /\ exec s0 tr s /\ aborts s 0 k.
Proof.
  destruct (final_view (fun s => wk s 0) 1 3 (add_call 7 0 ++ repeat (AW 0) 5) (WReg (Task 0 0 nm))) as (s0 & tr & s & H1 & H2 & H3); [vm_compute; reflexivity|].
  exists s0, tr, s, (Task 0 0 nm). split; [exact H1|]. split; [exact H2|]. constructor; [|exact H3]. rewrite (proj1 (const_exec _ _ _ _ _ H1 H2)). constructor.
Qed.
Print Assumptions C88_no_effect.
Print Assumptions C88_abort.
