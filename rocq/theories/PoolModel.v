(** include/gul14/ThreadPool.h, src/ThreadPool.cc: worker threads, client threads, the mutex, the
    condition variable, the clock, the shared_ptr that owns the pool, and the futures of the
    tasks, as a transition system.  One step of one thread is one access to shared data, one
    mutex or condition variable operation, or one event of the environment; any thread may make
    the next step.

    Simplifications: memory may run out in the calls of users, but not in a worker (see
    PoolMemModel); the functions executed by the tasks are arbitrary sequences of calls of this interface followed by a normal or exceptional end (their results
    are not represented); signal masks (ThreadPool.cc:187-204) are left out; a TaskHandle is
    identified with the id of its task and is used by one thread at a time. *)
From Coq Require Import ZArith List Bool.
From Verif Require Import Base.
Import ListNotations.
Local Open Scope Z_scope.

(** ThreadPool.h:490-503 struct Task; the function object is identified by the id *)
Record task := Task { t_id : Z; t_start : Z; t_name : str }.

(** Program points of a worker, ThreadPool.cc:185-265 perform_work().  The comments give the
    statement that is executed next. *)
Inductive wpc :=
| WInit                       (* 206 unique_lock lock(mutex_) *)
| WTest                       (* 208 while (!shutdown_requested_) *)
| WCheck                      (* 211 if (pending_tasks_.empty()); 213 cv_.wait(lock): unlock and block *)
| WLook                       (* 217-228 now(), find_if, min_element *)
| WTimed (until : Z)          (* 230 cv_.wait_until(lock, start_time): unlock and block *)
| WTake (i : nat) (now : Z)   (* 234-237 move task i out of the queue; [now] is the time read at 217 *)
| WReg (k : task)             (* 239-240 running_task_ids_.push_back, running_task_names_.push_back *)
| WRel (id : Z)               (* 242 lock.unlock() *)
| WCall (id : Z)              (* 246 about to call the function *)
| WRun (id : Z)               (* 246 inside the function *)
| WDone (id : Z)              (* 255 lock.lock() *)
| WDereg (id : Z)             (* 257-263 find and erase the running task *)
| WDrop                       (* 264 end of the loop body: the function object dies, under the lock *)
| WWait (until : option Z)    (* 213/230 blocked in wait (None) or wait_until *)
| WWake                       (* 213/230 woken up, about to lock the mutex again *)
| WQuit                       (* 265 unlock by the destructor of the lock *)
| WExit.                      (* thread function has returned *)

(** Operations on the pool *)
Inductive op :=
| OAdd (start : Z) (name : str)      (* ThreadPool.h:302-341 add_task *)
| OCancel (id : Z)                   (* ThreadPool.cc:82-95 cancel_pending_task *)
| OClear                             (* 97-105 cancel_pending_tasks *)
| OCount                             (* 107-111 count_pending *)
| OFull                              (* 137-146 is_full *)
| OIdle                              (* 148-152 is_idle *)
| OState (id : Z)                    (* 154-170 get_task_state *)
| OShut                              (* 172-176 is_shutdown_requested *)
| ONames                             (* 118-129 get_pending_task_names *)
| ORunning.                          (* 131-135 get_running_task_names *)

(** ThreadPool.h:454-462 InternalTaskState and 64-70 TaskState *)
Inductive tstate := TPending | TRunning | TComplete | TCanceled | TUnknown.
Inductive result :=
| RId (id : Z) | RBool (b : bool) | RCount (n : nat) | RState (x : tstate) | RNames (l : list str)
| RFull         (* std::runtime_error: queue full *)
| RBadWeak      (* std::bad_weak_ptr from shared_from_this() *)
| RNoMem        (* std::bad_alloc *)
| RNoPool.      (* std::logic_error: pool does not exist any more *)

(** Frames of a call made by a client, or by a task from within a worker *)
Inductive frame :=
| CLock (o : op)                        (* lock_guard lock(mutex_) *)
| CBody (o : op)                        (* the code under the lock *)
| CShare (start : Z) (name : str)       (* ThreadPool.h:328 shared_from_this() *)
| CUnshare (start : Z) (name : str)     (* ThreadPool.h:328 end of the full expression: temporary shared_ptr dies *)
| CPush (start : Z) (name : str)        (* ThreadPool.h:330-333 emplace_back, ++next_task_id_ *)
| CRel (o : op) (r : result)            (* end of the lock_guard *)
| CNote (o : op) (r : result)           (* ThreadPool.h:338 cv_.notify_one() *)
| CRet (o : op) (r : result)            (* return *)
| CDrop                                 (* release of the shared_ptr through which the call was made *)
| HDrop (id : Z)                        (* ThreadPool.h:175 future_ = {} *)
| HWeak (o : op)                        (* ThreadPool.cc:35-42 lock_pool_or_throw *)
| HReady (id : Z)                       (* ThreadPool.h:230 is_complete() in get_state() *)
| DLock                                 (* ThreadPool.cc:70 unique_lock lock(mutex_) in the destructor *)
| DSet                                  (* 71 shutdown_requested_ = true *)
| DRel                                  (* 72 lock.unlock() *)
| DNote                                 (* 73 cv_.notify_all() *)
| DJoin (k : nat)                       (* 75-79 join thread k *)
| DFree                                 (* destruction of the members *)
| DTerm.                                (* join of the own thread: std::system_error out of a destructor, std::terminate *)

(** State of a future: no result yet; value or exception of the function; broken promise (its
    packaged_task was destroyed without having been called).  The last two count as ready. *)
Inductive fstate := FNone | FReady | FBroken.

Record st := St {
  nw : nat;                   (* number of worker threads: threads 0 ... nw-1 *)
  cap : nat;                  (* capacity_ *)
  pending : list task;        (* pending_tasks_ *)
  rids : list Z;              (* running_task_ids_ *)
  rnames : list str;          (* running_task_names_ *)
  next : Z;                   (* next_task_id_ *)
  shut : bool;                (* shutdown_requested_ *)
  mtx : option nat;           (* owner of mutex_ *)
  clock : Z;                  (* std::chrono::system_clock *)
  wk : nat -> wpc;            (* program points of the workers *)
  stk : nat -> list frame;    (* calls in progress in each thread, innermost first *)
  owners : nat;               (* shared_ptrs to the pool held by the user outside of calls *)
  refs : list nat;            (* shared_ptrs held by calls in progress, one entry (the thread) each *)
  fut : Z -> fstate;          (* futures of the tasks *)
  valid : Z -> bool;          (* the handle of the task still has its future *)
  freed : bool }.             (* the pool has been destroyed *)

Definition upd {A} (f : nat -> A) (k : nat) (v : A) : nat -> A := fun n => if Nat.eqb n k then v else f n.
Definition updz {A} (f : Z -> A) (k : Z) (v : A) : Z -> A := fun n => if Z.eqb n k then v else f n.
Definition with_pending p s := St s.(nw) s.(cap) p s.(rids) s.(rnames) s.(next) s.(shut) s.(mtx) s.(clock) s.(wk) s.(stk) s.(owners) s.(refs) s.(fut) s.(valid) s.(freed).
Definition with_running i n s := St s.(nw) s.(cap) s.(pending) i n s.(next) s.(shut) s.(mtx) s.(clock) s.(wk) s.(stk) s.(owners) s.(refs) s.(fut) s.(valid) s.(freed).
Definition with_next x s := St s.(nw) s.(cap) s.(pending) s.(rids) s.(rnames) x s.(shut) s.(mtx) s.(clock) s.(wk) s.(stk) s.(owners) s.(refs) s.(fut) s.(valid) s.(freed).
Definition with_shut x s := St s.(nw) s.(cap) s.(pending) s.(rids) s.(rnames) s.(next) x s.(mtx) s.(clock) s.(wk) s.(stk) s.(owners) s.(refs) s.(fut) s.(valid) s.(freed).
Definition with_mtx x s := St s.(nw) s.(cap) s.(pending) s.(rids) s.(rnames) s.(next) s.(shut) x s.(clock) s.(wk) s.(stk) s.(owners) s.(refs) s.(fut) s.(valid) s.(freed).
Definition with_clock x s := St s.(nw) s.(cap) s.(pending) s.(rids) s.(rnames) s.(next) s.(shut) s.(mtx) x s.(wk) s.(stk) s.(owners) s.(refs) s.(fut) s.(valid) s.(freed).
Definition with_wk x s := St s.(nw) s.(cap) s.(pending) s.(rids) s.(rnames) s.(next) s.(shut) s.(mtx) s.(clock) x s.(stk) s.(owners) s.(refs) s.(fut) s.(valid) s.(freed).
Definition with_stk t x s := St s.(nw) s.(cap) s.(pending) s.(rids) s.(rnames) s.(next) s.(shut) s.(mtx) s.(clock) s.(wk) (upd s.(stk) t x) s.(owners) s.(refs) s.(fut) s.(valid) s.(freed).
Definition with_refs o r s := St s.(nw) s.(cap) s.(pending) s.(rids) s.(rnames) s.(next) s.(shut) s.(mtx) s.(clock) s.(wk) s.(stk) o r s.(fut) s.(valid) s.(freed).
Definition with_fut x s := St s.(nw) s.(cap) s.(pending) s.(rids) s.(rnames) s.(next) s.(shut) s.(mtx) s.(clock) s.(wk) s.(stk) s.(owners) s.(refs) x s.(valid) s.(freed).
Definition with_valid x s := St s.(nw) s.(cap) s.(pending) s.(rids) s.(rnames) s.(next) s.(shut) s.(mtx) s.(clock) s.(wk) s.(stk) s.(owners) s.(refs) s.(fut) x s.(freed).
Definition with_freed x s := St s.(nw) s.(cap) s.(pending) s.(rids) s.(rnames) s.(next) s.(shut) s.(mtx) s.(clock) s.(wk) s.(stk) s.(owners) s.(refs) s.(fut) s.(valid) x.
Definition goto w p s := with_wk (upd s.(wk) w p) s.

(** Events *)
Inductive label :=
| LTau                                   (* internal step *)
| LAdd (t : nat) (k : task)              (* a task was appended to the queue *)
| LTake (w : nat) (id now : Z)           (* a worker took a task off the queue *)
| LStart (w : nat) (id : Z)              (* ... began to execute its function *)
| LFinish (w : nat) (id : Z)             (* ... the function ended, the future is ready *)
| LDereg (w : nat) (id : Z)              (* ... the task is no longer registered as running *)
| LCancel (t : nat) (id : Z) (b : bool)  (* cancel_pending_task removed the task (true) or did not find it *)
| LClear (t : nat) (n : nat)             (* cancel_pending_tasks removed n tasks *)
| LQuery (t : nat) (o : op) (r : result) (* another operation computed its result *)
| LCall (t : nat) (o : op)               (* a call began *)
| LReturn (t : nat) (o : op) (r : result)(* a call returned or threw *)
| LState (t : nat) (id : Z) (x : tstate) (* TaskHandle::get_state() returned *)
| LComplete (t : nat) (id : Z) (b : bool)(* TaskHandle::is_complete() returned *)
| LResult (t : nat) (id : Z) (r : option fstate) (* TaskHandle::get_result(): result, broken promise, or (None) logic_error *)
| LBlock (w : nat) (until : option Z)    (* a worker blocked on the condition variable *)
| LNotify (t : nat)                      (* notify_one *)
| LWake (w : nat)                        (* spurious wake-up or time-out *)
| LTick (now : Z)                        (* the clock was advanced or set *)
| LShutdown (t : nat)                    (* the destructor set shutdown_requested_ *)
| LFree (t : nat)                        (* the destructor ended *)
| LTerminate (t : nat).                  (* std::terminate *)

(** std::find_if over pending_tasks_ (ThreadPool.cc:218-219): position of the first task whose
    start time has come *)
Fixpoint find_ready (now : Z) (l : list task) : option nat :=
  match l with
  | [] => None
  | k :: l' => if k.(t_start) <=? now then Some 0%nat else option_map S (find_ready now l')
  end.
(** start time of *std::min_element (ThreadPool.cc:223-228) *)
Fixpoint min_start (l : list task) : Z :=
  match l with
  | [] => 0
  | [k] => k.(t_start)
  | k :: l' => Z.min k.(t_start) (min_start l')
  end.
Definition remove_nth {A} (i : nat) (l : list A) : list A := firstn i l ++ skipn (S i) l.
(** position of a task id: std::find / std::find_if *)
Fixpoint index_of (id : Z) (l : list Z) : option nat :=
  match l with
  | [] => None
  | x :: l' => if x =? id then Some 0%nat else option_map S (index_of id l')
  end.
Definition erase_at {A} (i : option nat) (l : list A) : list A := match i with Some i => remove_nth i l | None => l end.
Definition ids (l : list task) : list Z := map t_id l.
(** the packaged_tasks of the given tasks are destroyed *)
Definition break_all (l : list task) (f : Z -> fstate) : Z -> fstate := fun id => if existsb (Z.eqb id) (ids l) then FBroken else f id.
(** number of shared_ptrs that own the pool *)
Definition strong (s : st) : nat := s.(owners) + length s.(refs).
Fixpoint remove_one (t : nat) (l : list nat) : list nat :=
  match l with
  | [] => []
  | x :: l' => if Nat.eqb x t then l' else x :: remove_one t l'
  end.
(** thread t releases the shared_ptr of its call and continues with [rest]; the last owner runs the destructor *)
Definition release (t : nat) (rest : list frame) (s : st) : st :=
  let s' := with_refs s.(owners) (remove_one t s.(refs)) s in
  with_stk t (if Nat.eqb (strong s') 0 then DLock :: rest else rest) s'.
(** thread t destroys one of the shared_ptrs held by the user *)
Definition disown (t : nat) (s : st) : st :=
  let s' := with_refs (s.(owners) - 1) s.(refs) s in
  with_stk t (if Nat.eqb (strong s') 0 then DLock :: s.(stk) t else s.(stk) t) s'.
Definition is_blocked (p : wpc) : bool := match p with WWait _ => true | _ => false end.
Definition wake_all (f : nat -> wpc) : nat -> wpc := fun w => match f w with WWait _ => WWake | p => p end.

(** Code under the lock of the operations other than add_task: new state, result, event *)
Definition body (t : nat) (o : op) (s : st) : st * result * label :=
  match o with
  | OAdd _ _ => (s, RFull, LTau)
  | OCancel id =>
      match index_of id (ids s.(pending)) with
      | Some i => (with_pending (remove_nth i s.(pending)) (with_fut (updz s.(fut) id FBroken) s), RBool true, LCancel t id true)
      | None => (s, RBool false, LCancel t id false)
      end
  | OClear => (with_pending [] (with_fut (break_all s.(pending) s.(fut)) s), RCount (length s.(pending)), LClear t (length s.(pending)))
  | OCount => let r := RCount (length s.(pending)) in (s, r, LQuery t o r)
  | OFull => let r := RBool (Nat.leb s.(cap) (length s.(pending))) in (s, r, LQuery t o r)
  | OIdle => let r := RBool (match s.(pending), s.(rids) with [], [] => true | _, _ => false end) in (s, r, LQuery t o r)
  | OState id =>
      let r := RState (if existsb (Z.eqb id) s.(rids) then TRunning else if existsb (Z.eqb id) (ids s.(pending)) then TPending else TUnknown) in
      (s, r, LQuery t o r)
  | OShut => let r := RBool s.(shut) in (s, r, LQuery t o r)
  | ONames => let r := RNames (map t_name s.(pending)) in (s, r, LQuery t o r)
  | ORunning => let r := RNames s.(rnames) in (s, r, LQuery t o r)
  end.
Definition is_public (o : op) : bool := match o with OCancel _ | OState _ => false | _ => true end.
(** A thread that can execute user code: a client thread, or a worker inside a task *)
Definition user_code (s : st) (t : nat) : Prop :=
  if Nat.ltb t s.(nw) then exists id, s.(wk) t = WRun id else True.
(** 2^64, the modulus of TaskId *)
Definition id_mod : Z := 2 ^ 64.

Inductive step : st -> label -> st -> Prop :=
(** ** Workers *)
| w_lock s w : (w < nw s)%nat -> wk s w = WInit \/ wk s w = WWake -> mtx s = None ->
    step s LTau (goto w WTest (with_mtx (Some w) s))
| w_test s w : (w < nw s)%nat -> wk s w = WTest ->
    step s LTau (goto w (if shut s then WQuit else WCheck) s)
| w_wait s w : (w < nw s)%nat -> wk s w = WCheck -> pending s = [] ->
    step s (LBlock w None) (goto w (WWait None) (with_mtx None s))
| w_check s w : (w < nw s)%nat -> wk s w = WCheck -> pending s <> [] ->
    step s LTau (goto w WLook s)
| w_look s w : (w < nw s)%nat -> wk s w = WLook ->
    step s LTau (goto w (match find_ready (clock s) (pending s) with Some i => WTake i (clock s) | None => WTimed (min_start (pending s)) end) s)
| w_timed s w d : (w < nw s)%nat -> wk s w = WTimed d ->
    step s (LBlock w (Some d)) (goto w (WWait (Some d)) (with_mtx None s))
| w_take s w i now k : (w < nw s)%nat -> wk s w = WTake i now -> nth_error (pending s) i = Some k ->
    step s (LTake w k.(t_id) now) (goto w (WReg k) (with_pending (remove_nth i (pending s)) s))
| w_reg s w k : (w < nw s)%nat -> wk s w = WReg k ->
    step s LTau (goto w (WRel k.(t_id)) (with_running (rids s ++ [k.(t_id)]) (rnames s ++ [k.(t_name)]) s))
| w_rel s w id : (w < nw s)%nat -> wk s w = WRel id ->
    step s LTau (goto w (WCall id) (with_mtx None s))
| w_call s w id : (w < nw s)%nat -> wk s w = WCall id ->
    step s (LStart w id) (goto w (WRun id) s)
| w_finish s w id : (w < nw s)%nat -> wk s w = WRun id -> stk s w = [] ->
    step s (LFinish w id) (goto w (WDone id) (with_fut (updz (fut s) id FReady) s))
| w_done s w id : (w < nw s)%nat -> wk s w = WDone id -> mtx s = None ->
    step s LTau (goto w (WDereg id) (with_mtx (Some w) s))
| w_dereg s w id : (w < nw s)%nat -> wk s w = WDereg id ->
    step s (LDereg w id)
      (goto w WDrop (with_running (erase_at (index_of id (rids s)) (rids s)) (erase_at (index_of id (rids s)) (rnames s)) s))
| w_drop s w : (w < nw s)%nat -> wk s w = WDrop -> stk s w = [] ->
    step s LTau (goto w WTest s)
(** the function object may have captured a shared_ptr to the pool *)
| w_drop_owner s w : (w < nw s)%nat -> wk s w = WDrop -> stk s w = [] -> (0 < owners s)%nat ->
    step s LTau (disown w s)
| w_quit s w : (w < nw s)%nat -> wk s w = WQuit ->
    step s LTau (goto w WExit (with_mtx None s))
(** ** Condition variable and clock *)
(** spurious wake-up; a time-out is the case until = Some d, d <= clock *)
| w_wake s w d : (w < nw s)%nat -> wk s w = WWait d ->
    step s (LWake w) (goto w WWake s)
(** the system clock may be set to any value *)
| tick s now : step s (LTick now) (with_clock now s)
(** ** Calls *)
(** a call through a shared_ptr; the caller keeps the pool alive during the call *)
| call_shared s t o : user_code s t -> stk s t = [] -> (0 < owners s)%nat -> is_public o = true ->
    step s (LCall t o) (with_stk t [CLock o; CDrop] (with_refs (owners s) (t :: refs s) s))
(** a task calls through the ThreadPool& argument *)
| call_task s t o : (t < nw s)%nat -> user_code s t -> stk s t = [] -> is_public o = true ->
    step s (LCall t o) (with_stk t [CLock o] s)
| c_lock s t o rest : stk s t = CLock o :: rest -> mtx s = None ->
    step s LTau (with_stk t (CBody o :: rest) (with_mtx (Some t) s))
| c_full s t start name rest : stk s t = CBody (OAdd start name) :: rest -> (cap s <= length (pending s))%nat ->
    step s (LQuery t (OAdd start name) RFull) (with_stk t (CRel (OAdd start name) RFull :: rest) s)
| c_room s t start name rest : stk s t = CBody (OAdd start name) :: rest -> (length (pending s) < cap s)%nat ->
    step s LTau (with_stk t (CShare start name :: rest) s)
| c_share s t start name rest : stk s t = CShare start name :: rest -> (0 < strong s)%nat ->
    step s LTau (with_stk t (CUnshare start name :: rest) (with_refs (owners s) (t :: refs s) s))
| c_bad_weak s t start name rest : stk s t = CShare start name :: rest -> strong s = 0%nat ->
    step s (LQuery t (OAdd start name) RBadWeak) (with_stk t (CRel (OAdd start name) RBadWeak :: rest) s)
(** memory runs out in add_task: in cat() or make_unique() (ThreadPool.h:317-326), or in emplace_back() (330-331) *)
| c_nomem s t start name rest : stk s t = CBody (OAdd start name) :: rest ->
    step s (LQuery t (OAdd start name) RNoMem) (with_stk t (CRel (OAdd start name) RNoMem :: rest) s)
| c_nomem_push s t start name rest : stk s t = CPush start name :: rest ->
    step s (LQuery t (OAdd start name) RNoMem) (with_stk t (CRel (OAdd start name) RNoMem :: rest) s)
(** memory runs out while the names of tasks are copied (ThreadPool.cc:122-128, 134) *)
| c_nomem_names s t rest : stk s t = CBody ONames :: rest ->
    step s (LQuery t ONames RNoMem) (with_stk t (CRel ONames RNoMem :: rest) s)
| c_nomem_running s t rest : stk s t = CBody ORunning :: rest ->
    step s (LQuery t ORunning RNoMem) (with_stk t (CRel ORunning RNoMem :: rest) s)
| c_unshare s t start name rest : stk s t = CUnshare start name :: rest ->
    step s LTau (release t (CPush start name :: rest) s)
| c_push s t start name rest k : stk s t = CPush start name :: rest -> k = Task (next s) start name ->
    step s (LAdd t k)
      (with_stk t (CRel (OAdd start name) (RId (next s)) :: rest)
        (with_pending (pending s ++ [k]) (with_next ((next s + 1) mod id_mod)
          (with_fut (updz (fut s) (next s) FNone) (with_valid (updz (valid s) (next s) true) s)))))
| c_body s t o rest : stk s t = CBody o :: rest -> (forall start name, o <> OAdd start name) ->
    forall s' r l, body t o s = (s', r, l) ->
    step s l (with_stk t (CRel o r :: rest) s')
| c_rel s t o r rest : stk s t = CRel o r :: rest ->
    step s LTau (with_stk t (match r with RId _ => CNote o r | _ => CRet o r end :: rest) (with_mtx None s))
(** cancel_pending_task(s) destroys function objects under the lock; they may own the pool *)
| c_drop_owner s t o r rest : stk s t = CRel o r :: rest -> (0 < owners s)%nat -> (exists id, o = OCancel id) \/ o = OClear \/ (exists start name, o = OAdd start name /\ r = RNoMem) ->
    step s LTau (disown t s)
(** notify_one wakes one blocked worker, if there is one *)
| c_note_none s t o r rest : stk s t = CNote o r :: rest -> (forall w, (w < nw s)%nat -> is_blocked (wk s w) = false) ->
    step s (LNotify t) (with_stk t (CRet o r :: rest) s)
| c_note s t o r rest w : stk s t = CNote o r :: rest -> (w < nw s)%nat -> is_blocked (wk s w) = true ->
    step s (LNotify t) (with_stk t (CRet o r :: rest) (goto w WWake s))
| c_ret s t o r rest : stk s t = CRet o r :: rest -> (forall id, o <> OState id) ->
    step s (LReturn t o r) (with_stk t rest s)
(** get_state: pending and running are returned as they are, otherwise is_complete() is asked *)
| c_ret_state s t id x rest : stk s t = CRet (OState id) (RState x) :: rest ->
    step s (match x with TUnknown => LTau | _ => LState t id x end)
      (with_stk t (match x with TUnknown => rest ++ [HReady id] | _ => rest end) s)
| c_drop s t rest : stk s t = CDrop :: rest ->
    step s LTau (release t rest s)
(** ** Ownership *)
| own_copy s : (0 < owners s)%nat -> step s LTau (with_refs (S (owners s)) (refs s) s)
| own_drop s t : user_code s t -> stk s t = [] -> (0 < owners s)%nat ->
    step s LTau (disown t s)
(** ** Task handles *)
(** ThreadPool.h:173-177 cancel() *)
| h_cancel s t id : user_code s t -> stk s t = [] -> 0 <= id < next s ->
    step s (LCall t (OCancel id)) (with_stk t [HDrop id; HWeak (OCancel id)] s)
| h_drop s t id rest : stk s t = HDrop id :: rest ->
    step s LTau (with_stk t rest (with_valid (updz (valid s) id false) s))
(** ThreadPool.h:224-236 get_state() *)
| h_state s t id : user_code s t -> stk s t = [] -> 0 <= id < next s ->
    step s (LCall t (OState id)) (with_stk t [HWeak (OState id)] s)
| h_lock s t o rest : stk s t = HWeak o :: rest -> (0 < strong s)%nat ->
    step s LTau (with_stk t (CLock o :: CDrop :: rest) (with_refs (owners s) (t :: refs s) s))
| h_no_pool s t o : stk s t = [HWeak o] -> strong s = 0%nat ->
    step s (LReturn t o RNoPool) (with_stk t [] s)
| h_ready s t id rest : stk s t = HReady id :: rest ->
    step s (LState t id (if valid s id && match fut s id with FNone => false | _ => true end then TComplete else TCanceled)) (with_stk t rest s)
(** ThreadPool.h:204-210 is_complete() *)
| h_complete s t id : user_code s t -> stk s t = [] -> 0 <= id < next s ->
    step s (LComplete t id (valid s id && match fut s id with FNone => false | _ => true end)) s
(** ThreadPool.h:185-190 get_result(); blocks until the future is ready *)
| h_result_none s t id : user_code s t -> stk s t = [] -> 0 <= id < next s -> valid s id = false ->
    step s (LResult t id None) s
| h_result s t id : user_code s t -> stk s t = [] -> 0 <= id < next s -> valid s id = true -> fut s id <> FNone ->
    step s (LResult t id (Some (fut s id))) (with_valid (updz (valid s) id false) s)
(** ** Destructor, ThreadPool.cc:68-80 *)
| d_lock s t rest : stk s t = DLock :: rest -> mtx s = None ->
    step s LTau (with_stk t (DSet :: rest) (with_mtx (Some t) s))
| d_set s t rest : stk s t = DSet :: rest ->
    step s (LShutdown t) (with_stk t (DRel :: rest) (with_shut true s))
| d_rel s t rest : stk s t = DRel :: rest ->
    step s LTau (with_stk t (DNote :: rest) (with_mtx None s))
| d_note s t rest : stk s t = DNote :: rest ->
    step s (LNotify t) (with_stk t (DJoin 0 :: rest) (with_wk (wake_all (wk s)) s))
| d_join s t k rest : stk s t = DJoin k :: rest -> (k < nw s)%nat -> k <> t -> wk s k = WExit ->
    step s LTau (with_stk t (DJoin (S k) :: rest) s)
| d_join_self s t rest : stk s t = DJoin t :: rest -> (t < nw s)%nat ->
    step s (LTerminate t) (with_stk t (DTerm :: rest) s)
| d_joined s t k rest : stk s t = DJoin k :: rest -> (nw s <= k)%nat ->
    step s LTau (with_stk t (DFree :: rest) s)
| d_free s t rest : stk s t = DFree :: rest ->
    step s (LFree t) (with_stk t rest (with_pending [] (with_fut (break_all (pending s) (fut s)) (with_freed true s)))).

(** ThreadPool.cc:51-66 constructor: Throw for illegal arguments, otherwise all workers are
    started (and wait for their first time slice); one shared_ptr owns the pool. *)
Definition construct (num_threads capacity : nat) : outcome st :=
  if (num_threads =? 0)%nat || (10000 <? Z.of_nat num_threads) then Throw InvalidArgument
  else if (capacity =? 0)%nat || (10000000 <? Z.of_nat capacity) then Throw InvalidArgument
  else Ok (St num_threads capacity [] [] [] 0 false None 0 (fun _ => WInit) (fun _ => []) 1 [] (fun _ => FNone) (fun _ => false) false).

(** Executions; the events are listed newest first *)
Inductive exec (s0 : st) : list label -> st -> Prop :=
| exec_nil : exec s0 [] s0
| exec_step tr s l s' : exec s0 tr s -> step s l s' -> exec s0 (l :: tr) s'.
