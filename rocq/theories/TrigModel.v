(** include/gul14/Trigger.h, src/Trigger.cc, and the functions sleep of include/gul14/time_util.h
    that use a Trigger, as a transition system: any number of threads, any interleaving.

    Simplifications: time points and durations are integers and do not overflow; a call that
    throws out of the mutex functions does not occur.  cv_.wait_for / wait_until with a predicate
    are modelled as the loops by which the C++ standard defines them. *)
From Coq Require Import ZArith List Bool.
Import ListNotations.
Local Open Scope Z_scope.

(** std::chrono::steady_clock never goes backwards, std::chrono::system_clock can be set *)
Inductive clk := Steady | System.
Inductive op :=
| OSet (b : bool)             (* Trigger.cc:60-70 trigger() or operator=(true) 33-38; 54-58 reset() or operator=(false) 33-46 *)
| OGet                        (* Trigger.cc:48-52 operator bool *)
| OWait                       (* Trigger.cc:72-76 wait() *)
| OFor (dur : Z)              (* Trigger.h:189-193 wait_for() *)
| OUntil (c : clk) (d : Z)    (* Trigger.h:212-216 wait_until() *)
| OSleep (dur : Z)            (* time_util.h:113-117 sleep(duration, trigger); 135-138 sleep(seconds, trigger) *)
| ODestroy.                   (* Trigger.cc:28-31 ~Trigger() *)

(** Program points of a thread; [k] is the deadline, if there is one *)
Inductive point :=
| PIdle                                         (* not in a call *)
| SLock (o : op) (b : bool)                     (* Trigger.cc:41/56/63 lock_guard *)
| SWrite (o : op) (b : bool)                    (* 42/57/64 triggered_ = b *)
| SRel (o : op) (b : bool)                      (* end of the lock_guard *)
| SNote (o : op)                                (* 69 notify_all *)
| SRet (o : op)
| GLock | GRead | GRel (r : bool) | GRet (r : bool)   (* 50-51 *)
| WLock (o : op)                                (* 74, Trigger.h:191/214 unique_lock *)
| WClock (o : op)                               (* wait_for only: deadline = steady_clock::now() + duration *)
| WTest (o : op) (k : option (clk * Z))         (* while (!pred()) *)
| WBlock (o : op) (k : option (clk * Z))        (* unlock and block, atomically *)
| WBlocked (o : op) (k : option (clk * Z))
| WWake (o : op) (k : option (clk * Z))         (* woken up, about to lock the mutex again *)
| WCheck (o : op) (k : option (clk * Z))        (* the inner wait returns timeout or no_timeout *)
| WLast (o : op)                                (* after timeout: return pred() *)
| WRel (o : op) (r : bool)                      (* destructor of the unique_lock *)
| WRet (o : op) (r : bool).

Record st := St {
  trig : bool;                 (* triggered_ *)
  mtx : option nat;            (* owner of mutex_ *)
  steady : Z; system : Z;      (* the two clocks *)
  pc : nat -> point;           (* program points of all threads *)
  dead : bool }.               (* the object has been destroyed *)

Definition upd {A} (f : nat -> A) (k : nat) (v : A) : nat -> A := fun n => if Nat.eqb n k then v else f n.
Definition go t p s := St s.(trig) s.(mtx) s.(steady) s.(system) (upd s.(pc) t p) s.(dead).
Definition with_mtx m s := St s.(trig) m s.(steady) s.(system) s.(pc) s.(dead).
Definition with_trig b s := St b s.(mtx) s.(steady) s.(system) s.(pc) s.(dead).
Definition with_pc f s := St s.(trig) s.(mtx) s.(steady) s.(system) f s.(dead).
Definition now (c : clk) (s : st) : Z := match c with Steady => s.(steady) | System => s.(system) end.
Definition set_clock c x s := match c with Steady => St s.(trig) s.(mtx) x s.(system) s.(pc) s.(dead) | System => St s.(trig) s.(mtx) s.(steady) x s.(pc) s.(dead) end.

Inductive label :=
| LTau
| LCall (t : nat) (o : op)                     (* a call begins *)
| LSet (t : nat) (b : bool)                    (* triggered_ is written *)
| LGet (t : nat) (b : bool)                    (* triggered_ is read *)
| LBlock (t : nat)                             (* a thread blocks on the condition variable *)
| LWake (t : nat)                              (* spurious wake-up or time-out *)
| LNotify (t : nat)                            (* notify_all *)
| LRet (t : nat) (o : op) (r : option bool)    (* a call returns *)
| LTick (c : clk) (x : Z)                      (* a clock advances or is set *)
| LUB (t : nat).                               (* a thread accesses the destroyed object *)

Definition first (o : op) : point :=
  match o with
  | OSet b => SLock o b
  | ODestroy => SLock o true
  | OGet => GLock
  | OWait | OFor _ | OUntil _ _ | OSleep _ => WLock o
  end.
Definition deadline (o : op) : option (clk * Z) := match o with OUntil c d => Some (c, d) | _ => None end.
Definition duration (o : op) : option Z := match o with OFor d | OSleep d => Some d | _ => None end.
(** Trigger.cc:72 wait() returns nothing; time_util.h:116 return !trg.wait_for(duration) *)
Definition value_of (o : op) (r : bool) : option bool := match o with OWait => None | OSleep _ => Some (negb r) | _ => Some r end.
Definition wake (p : point) : point := match p with WBlocked o k => WWake o k | _ => p end.
(** program points whose next statement accesses the object *)
Definition accessing (p : point) : bool := match p with PIdle | SRet _ | GRet _ | WRet _ _ | WBlocked _ _ => false | _ => true end.

Inductive step : st -> label -> st -> Prop :=
| t_call s t o : pc s t = PIdle -> dead s = false -> step s (LCall t o) (go t (first o) s)
| s_lock s t o b : pc s t = SLock o b -> dead s = false -> mtx s = None -> step s LTau (go t (SWrite o b) (with_mtx (Some t) s))
| s_write s t o b : pc s t = SWrite o b -> dead s = false -> step s (LSet t b) (go t (SRel o b) (with_trig b s))
| s_rel s t o b : pc s t = SRel o b -> dead s = false -> step s LTau (go t (if b then SNote o else SRet o) (with_mtx None s))
| s_note s t o : pc s t = SNote o -> dead s = false -> step s (LNotify t) (go t (SRet o) (with_pc (fun u => wake (pc s u)) s))
| s_ret s t o : pc s t = SRet o -> step s (LRet t o None) (go t PIdle (St (trig s) (mtx s) (steady s) (system s) (pc s) (match o with ODestroy => true | _ => dead s end)))
| g_lock s t : pc s t = GLock -> dead s = false -> mtx s = None -> step s LTau (go t GRead (with_mtx (Some t) s))
| g_read s t : pc s t = GRead -> dead s = false -> step s (LGet t (trig s)) (go t (GRel (trig s)) s)
| g_rel s t r : pc s t = GRel r -> dead s = false -> step s LTau (go t (GRet r) (with_mtx None s))
| g_ret s t r : pc s t = GRet r -> step s (LRet t OGet (Some r)) (go t PIdle s)
| w_lock s t o : pc s t = WLock o -> dead s = false -> mtx s = None ->
    step s LTau (go t (match duration o with Some _ => WClock o | None => WTest o (deadline o) end) (with_mtx (Some t) s))
| w_clock s t o dur : pc s t = WClock o -> dead s = false -> duration o = Some dur ->
    step s LTau (go t (WTest o (Some (Steady, steady s + dur))) s)
| w_test s t o k : pc s t = WTest o k -> dead s = false ->
    step s (LGet t (trig s)) (go t (if trig s then WRel o true else WBlock o k) s)
| w_block s t o k : pc s t = WBlock o k -> dead s = false ->
    step s (LBlock t) (go t (WBlocked o k) (with_mtx None s))
(** spurious wake-up, or time-out *)
| w_wake s t o k : pc s t = WBlocked o k -> step s (LWake t) (go t (WWake o k) s)
| w_relock s t o k : pc s t = WWake o k -> dead s = false -> mtx s = None ->
    step s LTau (go t (WCheck o k) (with_mtx (Some t) s))
(** no_timeout: possible in any case *)
| w_again s t o k : pc s t = WCheck o k -> dead s = false -> step s LTau (go t (WTest o k) s)
(** timeout: only if the deadline has been reached *)
| w_timeout s t o c d : pc s t = WCheck o (Some (c, d)) -> dead s = false -> d <= now c s -> step s LTau (go t (WLast o) s)
| w_last s t o : pc s t = WLast o -> dead s = false -> step s (LGet t (trig s)) (go t (WRel o (trig s)) s)
| w_rel s t o r : pc s t = WRel o r -> dead s = false -> step s LTau (go t (WRet o r) (with_mtx None s))
| w_ret s t o r : pc s t = WRet o r -> step s (LRet t o (value_of o r)) (go t PIdle s)
| tick s c x : (c = Steady -> steady s <= x) -> step s (LTick c x) (set_clock c x s)
| ub s t : dead s = true -> accessing (pc s t) = true -> step s (LUB t) s.

(** Trigger.h:114 constructor *)
Definition initial (b : bool) : st := St b None 0 0 (fun _ => PIdle) false.
Inductive exec (s0 : st) : list label -> st -> Prop :=
| exec_nil : exec s0 [] s0
| exec_step tr s l s' : exec s0 tr s -> step s l s' -> exec s0 (l :: tr) s'.
