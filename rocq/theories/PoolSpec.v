(** Specification of the thread pool: what the events of an execution (newest first) say about
    the queue, the running tasks and the futures.  Nothing here refers to the state of the pool. *)
From Coq Require Import ZArith List Bool.
From Verif Require Import Base PoolModel.
Import ListNotations.
Local Open Scope Z_scope.

Definition without (id : Z) (l : list task) : list task := filter (fun k => negb (k.(t_id) =? id)) l.
(** The queue: tasks in the order in which they were added, without those that were taken by a
    worker or removed. *)
Fixpoint queue (tr : list label) : list task :=
  match tr with
  | [] => []
  | LAdd _ k :: tr' => queue tr' ++ [k]
  | LTake _ id _ :: tr' => without id (queue tr')
  | LCancel _ id true :: tr' => without id (queue tr')
  | LClear _ _ :: tr' => []
  | LFree _ :: tr' => []
  | _ :: tr' => queue tr'
  end.
(** The running tasks with the workers that execute them, in the order in which they were taken *)
Fixpoint active (tr : list label) : list (nat * task) :=
  match tr with
  | [] => []
  | LTake w id _ :: tr' => active tr' ++ map (fun k => (w, k)) (filter (fun k => k.(t_id) =? id) (queue tr'))
  | LDereg _ id :: tr' => filter (fun x => negb ((snd x).(t_id) =? id)) (active tr')
  | _ :: tr' => active tr'
  end.
(** All tasks that were ever added, oldest first *)
Fixpoint added (tr : list label) : list task :=
  match tr with
  | [] => []
  | LAdd _ k :: tr' => added tr' ++ [k]
  | _ :: tr' => added tr'
  end.
(** ids of the tasks that were taken and started, newest first *)
Fixpoint taken (tr : list label) : list Z :=
  match tr with [] => [] | LTake _ id _ :: tr' => id :: taken tr' | _ :: tr' => taken tr' end.
Fixpoint started (tr : list label) : list Z :=
  match tr with [] => [] | LStart _ id :: tr' => id :: started tr' | _ :: tr' => started tr' end.
Fixpoint finished (tr : list label) : list Z :=
  match tr with [] => [] | LFinish _ id :: tr' => id :: finished tr' | _ :: tr' => finished tr' end.
(** ids of the tasks that were removed from the queue without being taken *)
Fixpoint dropped (tr : list label) : list Z :=
  match tr with
  | [] => []
  | LCancel _ id true :: tr' => id :: dropped tr'
  | LClear _ _ :: tr' => ids (queue tr') ++ dropped tr'
  | LFree _ :: tr' => ids (queue tr') ++ dropped tr'
  | _ :: tr' => dropped tr'
  end.
Fixpoint shutdown_requested (tr : list label) : bool :=
  match tr with [] => false | LShutdown _ :: _ => true | _ :: tr' => shutdown_requested tr' end.

(** The system clock: 0 initially *)
Fixpoint clock_of (tr : list label) : Z :=
  match tr with [] => 0 | LTick x :: _ => x | _ :: tr' => clock_of tr' end.
(** The current or most recent operation of thread t, and the events that thread t caused in the
    pool by this operation *)
Fixpoint last_call (t : nat) (tr : list label) : option op :=
  match tr with [] => None | LCall t' o :: tr' => if Nat.eqb t' t then Some o else last_call t tr' | _ :: tr' => last_call t tr' end.
Definition effect_by (t : nat) (l : label) : bool :=
  match l with LAdd t' _ | LCancel t' _ _ | LClear t' _ | LQuery t' _ _ => Nat.eqb t' t | _ => false end.
Fixpoint effects (t : nat) (tr : list label) : list label :=
  match tr with
  | [] => []
  | LCall t' _ :: tr' => if Nat.eqb t' t then [] else effects t tr'
  | l :: tr' => if effect_by t l then l :: effects t tr' else effects t tr'
  end.
(** the event that corresponds to an operation with a given result *)
Definition effect_of (t : nat) (o : op) (r : result) : label :=
  match o, r with
  | OAdd start name, RId id => LAdd t (Task id start name)
  | OCancel id, RBool b => LCancel t id b
  | OClear, RCount n => LClear t n
  | _, _ => LQuery t o r
  end.

(** What an event [l] may look like after the history [tr], for a pool of n workers with capacity c. *)
Definition aids (tr : list label) : list Z := map (fun x => t_id (snd x)) (active tr).
Definition answer (c : nat) (tr : list label) (o : op) (r : result) : Prop :=
  match o, r with
  | OAdd _ _, RFull => (c <= length (queue tr))%nat
  | OAdd _ _, RBadWeak => True
  | OAdd _ _, RNoMem | ONames, RNoMem | ORunning, RNoMem => True
  | OCount, RCount m => m = length (queue tr)
  | OFull, RBool b => b = true <-> (c <= length (queue tr))%nat
  | OIdle, RBool b => b = true <-> queue tr = [] /\ active tr = []
  | OState id, RState x => (x = TPending /\ In id (ids (queue tr))) \/ (x = TRunning /\ In id (aids tr)) \/ (x = TUnknown /\ ~ In id (ids (queue tr)) /\ ~ In id (aids tr))
  | OShut, RBool b => b = shutdown_requested tr
  | ONames, RNames l => l = map t_name (queue tr)
  | ORunning, RNames l => l = map (fun x => t_name (snd x)) (active tr)
  | _, _ => False
  end.
(** the handle of the task was used to cancel it or to fetch its result *)
Definition invalidated (id : Z) (tr : list label) : Prop := exists t, In (LCall t (OCancel id)) tr \/ exists r, In (LResult t id (Some r)) tr.
Definition legal (n c : nat) (tr : list label) (l : label) : Prop :=
  match l with
  | LAdd t k => (length (queue tr) < c)%nat /\ t_id k = Z.of_nat (length (added tr))
  | LTake w id now =>
      (w < n)%nat /\ shutdown_requested tr = false /\ (forall k, ~ In (w, k) (active tr)) /\
      (exists q1 k q2, queue tr = q1 ++ k :: q2 /\ t_id k = id /\ t_start k <= now /\ (forall x, In x q1 -> now < t_start x)) /\
      (exists tr1 tr2, tr = tr1 ++ tr2 /\ clock_of tr2 = now /\ queue tr2 = queue tr)
  | LStart w id => (exists k, In (w, k) (active tr) /\ t_id k = id) /\ ~ In id (started tr)
  | LFinish w id => (exists k, In (w, k) (active tr) /\ t_id k = id) /\ In id (started tr) /\ ~ In id (finished tr)
  | LDereg w id => (exists k, In (w, k) (active tr) /\ t_id k = id) /\ In id (finished tr)
  | LCancel t id b => b = true <-> In id (ids (queue tr))
  | LClear t m => m = length (queue tr)
  | LQuery t o r => answer c tr o r
  | LBlock w None => queue tr = [] /\ shutdown_requested tr = false
  | LBlock w (Some d) => (exists k, In k (queue tr) /\ t_start k = d) /\ (forall k, In k (queue tr) -> d <= t_start k) /\ shutdown_requested tr = false
  | LReturn t o r => r = RNoPool \/ last_call t tr = Some o /\ effects t tr = [effect_of t o r]
  | LState t id x =>
      last_call t tr = Some (OState id) /\
      match x with
      | TPending | TRunning => effects t tr = [LQuery t (OState id) (RState x)]
      | TComplete => effects t tr = [LQuery t (OState id) (RState TUnknown)] /\ (In id (finished tr) \/ In id (dropped tr))
      | TCanceled => effects t tr = [LQuery t (OState id) (RState TUnknown)] /\ invalidated id tr
      | TUnknown => False
      end
  | LComplete t id b => if b then In id (finished tr) \/ In id (dropped tr) else invalidated id tr \/ ~ In id (finished tr) /\ ~ In id (dropped tr)
  | LResult t id None => True
  | LResult t id (Some r) => (r = FReady /\ In id (finished tr) \/ r = FBroken /\ In id (dropped tr)) /\ (forall t' r', ~ In (LResult t' id (Some r')) tr)
  | LShutdown t => shutdown_requested tr = false
  | LFree t => active tr = []
  | _ => True
  end.
(** Histories of a pool with n workers and capacity c, newest event first.  Task ids are numbers
    modulo 2^64; the statements are about histories in which they have not been used up. *)
Definition history (n c : nat) (tr : list label) : Prop :=
  exists s0 s, construct n c = Ok s0 /\ exec s0 tr s /\ Z.of_nat (length (added tr)) < id_mod.
(** The moment after the events [h] lies within the call of [o] that is the last one made by thread t in [tr]. *)
Definition during (t : nat) (o : op) (tr h : list label) : Prop :=
  exists a b d, tr = a ++ h /\ h = b ++ LCall t o :: d /\ (forall o', ~ In (LCall t o') (a ++ b)).
(** TaskHandle::cancel() has returned, or get_result() has delivered its result *)
Definition retired (id : Z) (tr : list label) : Prop := exists t r, In (LReturn t (OCancel id) r) tr \/ exists x, In (LResult t id (Some x)) tr.

(** * Program points of the model that the statements mention *)
Local Close Scope Z_scope.
(** program points at which a worker, or a call in progress, is between locking and unlocking the mutex *)
Definition wholds (p : wpc) : bool :=
  match p with WTest | WCheck | WLook | WTimed _ | WTake _ _ | WReg _ | WRel _ | WDereg _ | WDrop | WQuit => true | _ => false end.
Definition fholds (f : frame) : bool :=
  match f with CBody _ | CShare _ _ | CUnshare _ _ | CPush _ _ | CRel _ _ | DSet | DRel => true | _ => false end.
(** a call in progress that will still read or write the pool *)
Definition accesses (f : frame) : bool :=
  match f with CLock _ | CBody _ | CShare _ _ | CUnshare _ _ | CPush _ _ | CRel _ _ | CNote _ _ => true | _ => false end.
(** a thread that runs the destructor *)
Definition is_dtor (f : frame) : bool := match f with DLock | DSet | DRel | DNote | DJoin _ | DFree | DTerm => true | _ => false end.
(** a call in progress that will still call notify_one *)
Definition notifying (f : frame) : bool := match f with CRel _ (RId _) | CNote _ _ => true | _ => false end.
(** how many statements of its loop a worker has to execute before it returns, once shutdown is requested *)
Definition wrank (p : wpc) : nat :=
  match p with WReg _ => 9 | WRel _ => 8 | WCall _ => 7 | WRun _ => 6 | WDone _ => 5 | WDereg _ => 4 | WDrop | WInit | WWake => 3 | WTest => 2 | WQuit => 1 | _ => 0 end.
Fixpoint total (f : nat -> nat) (n : nat) : nat := match n with 0 => 0 | S m => f m + total f m end.
Definition left_over (s : st) : nat := total (fun w => wrank (wk s w)) (nw s).
(** some thread is in the destructor and waits for the workers *)
Definition joining (s : st) : Prop := exists t k, In (DJoin k) (stk s t).
(** steps other than the beginning of a call, the destruction of the pool, a spurious wake-up (of
    a worker that does not wait for a time that has come) and setting the clock back *)
Definition calm (s : st) (l : label) : Prop :=
  match l with
  | LCall _ _ | LShutdown _ | LFree _ => False
  | LTick x => (clock s <= x)%Z
  | LWake w => exists d, wk s w = WWait (Some d) /\ (d <= clock s)%Z
  | _ => True
  end.
(** executions that consist of such steps *)
Inductive continues (s0 : st) : list label -> st -> Prop :=
| cont_nil : continues s0 [] s0
| cont_step tr s l s' : continues s0 tr s -> step s l s' -> calm s l -> continues s0 (l :: tr) s'.
(** a worker can go on to take a task, without new calls, or the queue becomes empty *)
Definition reach_take (s : st) : Prop :=
  exists tr' s', continues s tr' s' /\ ((exists w id now tr'', tr' = LTake w id now :: tr'') \/ pending s' = []).
(** no pending task ever has to wait for its start time *)
Definition undelayed (tr : list label) : Prop := forall g h k, tr = g ++ h -> In k (queue h) -> (t_start k <= clock_of h)%Z.
(** order of the task states *)
Definition progress (x : tstate) : nat := match x with TPending => 0 | TRunning => 1 | _ => 2 end.
(** events that read or change the pool *)
Definition touches (l : label) : bool :=
  match l with LAdd _ _ | LTake _ _ _ | LStart _ _ | LFinish _ _ | LDereg _ _ | LCancel _ _ _ | LClear _ _ | LQuery _ _ _ | LBlock _ _ | LNotify _ | LWake _ | LShutdown _ | LFree _ | LTerminate _ => true | _ => false end.
