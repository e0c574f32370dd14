(** Trigger and sleep: properties C46 and C47.

    A history lists the events of an execution, newest first; [value b0 h] is the state of the
    trigger after the events h. *)
From Coq Require Import ZArith List Bool Lia.
From Verif Require Import TrigModel TrigSpec TrigProofs TrigRun.
Import ListNotations.
Local Open Scope Z_scope.

Lemma history_app b0 a b : history b0 (a ++ b) -> history b0 b.
Proof. intros (s & E). revert s E. induction a as [|l a IH]; intros s E; [exists s; exact E|]. inversion E; subst. eapply IH; eassumption. Qed.
Lemma ret_fact b0 tr2 t o r tr1 : history b0 (tr2 ++ LRet t o r :: tr1) -> exists s, tinv b0 tr1 s /\
  (pc s t = SRet o /\ r = None \/ (exists x, pc s t = GRet x /\ o = OGet /\ r = Some x) \/ exists x, pc s t = WRet o x /\ r = value_of o x).
Proof.
  intros H. apply history_app in H. destruct H as (s' & E). inversion E as [|tr s l s1 E1 Hs]; subst. exists s. split; [apply tinv_exec; exact E1|]. inversion Hs; subst; [left; tauto|right; left; eauto|right; right; eauto].
Qed.
Lemma wait_ret b0 tr2 t o r tr1 : history b0 (tr2 ++ LRet t o r :: tr1) -> waits o -> exists x, r = value_of o x /\ (exists h, during t o tr1 h /\ value b0 h = x) /\ (x = false -> overdue t o tr1).
Proof.
  intros H Hw. destruct (ret_fact _ _ _ _ _ _ H) as (s & HT & [[Hp _]|[(x & Hp & E & _)|(x & Hp & ->)]]); pose proof (j_fact _ _ _ HT t) as Hf; rewrite Hp in Hf; cbn [fact] in Hf.
  - destruct Hf as (h & b & [E|[E _]] & _); subst o; destruct Hw.
  - subst o. destruct Hw.
  - exists x. tauto.
Qed.
(** * C46 *)
(** operator bool returns the state of the trigger at a moment during the call *)
Theorem C46_get b0 tr2 t r tr1 : history b0 (tr2 ++ LRet t OGet r :: tr1) -> exists h b, r = Some b /\ during t OGet tr1 h /\ value b0 h = b.
Proof.
  intros H. destruct (ret_fact _ _ _ _ _ _ H) as (s & HT & [[Hp _]|[(x & Hp & _ & ->)|(x & Hp & ->)]]); pose proof (j_fact _ _ _ HT t) as Hf; rewrite Hp in Hf; cbn [fact] in Hf.
  - destruct Hf as (h & b & [E|[E _]] & _); discriminate E.
  - destruct Hf as (h & A & B). exists h, x. tauto.
  - destruct Hf as ((h & A & B) & _). exists h, x. tauto.
Qed.
(** trigger(), reset() and operator= set the state during the call; trigger() then notifies all threads *)
Theorem C46_set b0 tr2 t b r tr1 : history b0 (tr2 ++ LRet t (OSet b) r :: tr1) ->
  exists h, during t (OSet b) tr1 (LSet t b :: h) /\ (b = true -> exists g, during t (OSet b) tr1 (LNotify t :: g ++ LSet t b :: h)).
Proof.
  intros H. destruct (ret_fact _ _ _ _ _ _ H) as (s & HT & [[Hp _]|[(x & Hp & E & _)|(x & Hp & ->)]]); pose proof (j_fact _ _ _ HT t) as Hf; rewrite Hp in Hf; cbn [fact] in Hf.
  - destruct Hf as (h & b' & [E|[E _]] & A & B); [injection E as <-|discriminate E]. exists h. tauto.
  - discriminate E.
  - pose proof (i_wf _ (j_inv _ _ _ HT) t) as Hi. rewrite Hp in Hi. destruct Hi.
Qed.
(** wait() returns only after a moment during the call at which the trigger was set *)
Theorem C46_wait b0 tr2 t r tr1 : history b0 (tr2 ++ LRet t OWait r :: tr1) -> exists h, during t OWait tr1 h /\ value b0 h = true.
Proof.
  intros H. destruct (wait_ret _ _ _ _ _ _ H I) as (x & _ & (h & A & B) & C). destruct x; [exists h; tauto|]. destruct (C eq_refl) as [(c & d & E & _)|(dur & E & _)]; discriminate E.
Qed.
(** wait_for() and wait_until() return the state of the trigger at a moment during the call, and return false only if the time is over *)
Theorem C46_wait_for b0 tr2 t dur r tr1 : history b0 (tr2 ++ LRet t (OFor dur) r :: tr1) ->
  exists h b, r = Some b /\ during t (OFor dur) tr1 h /\ value b0 h = b /\ (b = false -> elapsed t (OFor dur) tr1 dur).
Proof.
  intros H. destruct (wait_ret _ _ _ _ _ _ H I) as (x & E & (h & A & B) & C). exists h, x. split; [exact E|]. split; [exact A|]. split; [exact B|]. intros Hx. destruct (C Hx) as [(c & d & E' & _)|(dur' & E' & F)]; [discriminate E'|]. injection E' as <-. exact F.
Qed.
Theorem C46_wait_until b0 tr2 t c d r tr1 : history b0 (tr2 ++ LRet t (OUntil c d) r :: tr1) ->
  exists h b, r = Some b /\ during t (OUntil c d) tr1 h /\ value b0 h = b /\ (b = false -> expired t (OUntil c d) tr1 c d).
Proof.
  intros H. destruct (wait_ret _ _ _ _ _ _ H I) as (x & E & (h & A & B) & C). exists h, x. split; [exact E|]. split; [exact A|]. split; [exact B|]. intros Hx. destruct (C Hx) as [(c' & d' & E' & F)|(dur' & E' & F)]; [|discriminate E']. injection E' as <- <-. exact F.
Qed.
(** if the trigger is set, and no thread is about to notify the waiting threads, no thread is blocked *)
Theorem C46_no_lost_wakeup b0 tr : history b0 tr -> value b0 tr = true -> (forall t, in_call t tr <> Some (OSet true) /\ in_call t tr <> Some ODestroy) -> forall t, blocked t tr = false.
Proof.
  intros (s & E) Hv Hn t. pose proof (tinv_exec _ _ _ E) as HT. rewrite (j_blk _ _ _ HT). destruct (isblocked (pc s t)) eqn:Eb; [|reflexivity]. exfalso.
  destruct (i_wake _ (j_inv _ _ _ HT) t Eb) as (u & Hu); [rewrite <- (j_val _ _ _ HT); exact Hv|]. destruct (Hn u) as [N1 N2]. rewrite (j_call _ _ _ HT) in N1, N2. pose proof (i_wf _ (j_inv _ _ _ HT) u) as Hw.
  destruct (pc s u); try discriminate Hu; [destruct b; [|discriminate Hu]|]; cbn [opof] in *; destruct Hw as [->|[-> _]]; congruence.
Qed.
(** When the trigger is set and no reset is in progress, every waiting thread can return, without
    new calls, spurious wake-ups or time-outs; and as long as it stays set, every step of the
    waiting thread brings it nearer to its return and no step of another thread delays it *)
Theorem C46_released b0 tr s t : exec (initial b0) tr s -> trig s = true -> dead s = false -> (forall u, resetting (pc s u) = false) -> waiting (pc s t) = true ->
  exists tr' s' o r, exec s (LRet t o r :: tr') s' /\ forallb calm tr' = true.
Proof. intros E Ht Hd Hr Hw. eapply released; [|exact Hw|reflexivity]. split; [eapply inv_exec; exact E|]. tauto. Qed.
Theorem C46_nearer b0 tr s l s' t : exec (initial b0) tr s -> step s l s' -> trig s = true -> trig s' = true -> waiting (pc s t) = true ->
  (wrank (pc s' t) <= wrank (pc s t))%nat /\ (pc s' t <> pc s t -> wrank (pc s' t) < wrank (pc s t))%nat.
Proof. intros E. apply wait_rank. eapply inv_exec; exact E. Qed.
(** two threads never own the mutex at the same time *)
Theorem C46_mutual_exclusion b0 tr s t u : exec (initial b0) tr s -> hold (pc s t) = true -> hold (pc s u) = true -> t = u.
Proof. intros E Ht Hu. pose proof (inv_exec _ _ _ E) as HI. apply (i_mtx _ HI) in Ht, Hu. congruence. Qed.

(** thread 1 waits, thread 2 triggers it *)
Definition demo : list act := [ACall 1 OWait; AGo 1; AGo 1; AGo 1; ACall 2 (OSet true); AGo 2; AGo 2; AGo 2; AGo 2; AGo 2; AGo 1; AGo 1; AGo 1; AGo 1; AGo 1].
Example C46_example : events false demo = [LRet 1 OWait None; LTau; LGet 1 true; LTau; LTau; LRet 2 (OSet true) None; LNotify 2; LTau; LSet 2 true; LTau; LCall 2 (OSet true); LBlock 1; LGet 1 false; LTau; LCall 1 OWait].
Proof. vm_compute. reflexivity. Qed.
Example C46_example_waiting : option_map (fun s => (trig s, dead s, pc s 1, pc s 2)) (final false (firstn 7 demo)) = Some (true, false, WBlocked OWait None, SRel (OSet true) true).
Proof. vm_compute. reflexivity. Qed.
(** Not guaranteed: a waiting thread misses a trigger() that is followed by a reset() before the
    thread has locked the mutex again *)
Definition pulse : list act := [ACall 1 OWait; AGo 1; AGo 1; AGo 1; ACall 2 (OSet true); AGo 2; AGo 2; AGo 2; AGo 2; AGo 2; ACall 2 (OSet false); AGo 2; AGo 2; AGo 2; AGo 2; AGo 1; AGo 1; AGo 1; AGo 1].
Example C46_pulse_finding : exists tr, history false tr /\ In (LRet 2 (OSet true) None) tr /\ blocked 1 tr = true /\ in_call 1 tr = Some OWait /\ in_call 2 tr = None.
Proof. exists (events false pulse). split; [apply events_history|]. vm_compute. tauto. Qed.
(** The destructor wakes the waiting threads, but does not wait until they have left the object:
    they lock the destroyed mutex *)
Definition destroy : list act := [ACall 1 OWait; AGo 1; AGo 1; AGo 1; ACall 2 ODestroy; AGo 2; AGo 2; AGo 2; AGo 2; AGo 2; AUB 1].
Example C46_destroy_finding : history false (events false destroy) /\ hd_error (events false destroy) = Some (LUB 1) /\ in_call 1 (events false destroy) = Some OWait.
Proof. split; [apply events_history|]. vm_compute. tauto. Qed.
Definition quiet (t : nat) (s : st) : Prop := (forall u, u <> t -> pc s u = PIdle) /\ (dead s = true -> pc s t = PIdle).
Lemma quiet_step t s l s' : step s l s' -> (forall u o, l <> LCall u o) -> quiet t s -> quiet t s' /\ forall u, l <> LUB u.
Proof.
  intros Hs Hl [Q1 Q2]. assert (Qt : forall u, pc s u <> PIdle -> u = t /\ dead s = false).
  { intros u Hu. destruct (PeanoNat.Nat.eq_dec u t) as [->|Hn]; [|rewrite (Q1 u Hn) in Hu; congruence]. split; [reflexivity|]. destruct (dead s); [rewrite (Q2 eq_refl) in Hu; congruence|reflexivity]. }
  assert (K : forall u p, pc s u <> PIdle -> quiet t (go u p s)).
  { intros u p Hu. destruct (Qt u Hu) as [-> Hd]. split; [|projs; congruence]. intros v Hv. projs. unfold upd. destruct (Nat.eqb_spec v t); [congruence|apply Q1; exact Hv]. }
  destruct Hs; (split; [|intros; discriminate || idtac]).
  all: try (match goal with H : pc ?s ?v = _ |- quiet _ _ => assert (Hx : pc s v <> PIdle) by congruence; destruct (Qt v Hx) as [-> Hd]; split; projs; [intros w Hw; unfold upd; destruct (Nat.eqb_spec w t); [congruence|]; first [apply Q1; exact Hw|rewrite (Q1 w Hw); reflexivity]|try congruence] end).
  - exfalso. exact (Hl t0 o eq_refl).
  - intros _. apply upd_same.
  - split; destruct c; projs; assumption.
  - split; assumption.
  - exfalso. assert (Hx : pc s t0 <> PIdle) by (intros X; rewrite X in H0; discriminate H0). destruct (Qt t0 Hx). congruence.
Qed.
Lemma alive_no_ub b0 tr s u : exec (initial b0) tr s -> dead s = false -> ~ In (LUB u) tr.
Proof.
  intros E. induction E as [|tr s l s' E IH Hs]; intros Hd; [intros []|]. assert (Hd' : dead s = false /\ l <> LUB u) by (destruct Hs; try destruct c; projs; split; try assumption; try discriminate; try congruence; destruct o; congruence).
  intros [X|X]; [apply (proj2 Hd' X)|apply (IH (proj1 Hd') X)].
Qed.
(** without other calls in progress when the destructor is called and none later, the object is not accessed after its destruction *)
Theorem C46_destroy_safe b0 tr2 t tr1 : history b0 (tr2 ++ LCall t ODestroy :: tr1) -> (forall u, in_call u tr1 = None) -> (forall u o, ~ In (LCall u o) tr2) -> forall u, ~ In (LUB u) (tr2 ++ LCall t ODestroy :: tr1).
Proof.
  intros (s & E) Hn Hc u Hi. assert (G : exists s1, exec (initial b0) (LCall t ODestroy :: tr1) s1 /\ (tr2 = [] -> s1 = s)).
  { clear Hc Hi. revert s E. induction tr2 as [|l tr2 IH]; intros s E; [exists s; tauto|]. inversion E; subst. destruct (IH _ H1) as (s1 & A & _). exists s1. split; [exact A|discriminate]. }
  assert (Q0 : forall s, exec (initial b0) (LCall t ODestroy :: tr1) s -> quiet t s /\ ~ In (LUB u) (LCall t ODestroy :: tr1)).
  { clear - Hn. intros s E. inversion E as [|tr s0 l s1 E1 Hs]; subst. pose proof (tinv_exec _ _ _ E1) as HT. inversion Hs; subst. split.
    - split; [|projs; congruence]. intros v Hv. projs. unfold upd. destruct (Nat.eqb_spec v t); [congruence|]. specialize (Hn v). rewrite (j_call _ _ _ HT) in Hn. destruct (pc s0 v); try discriminate Hn. reflexivity.
    - intros [X|X]; [discriminate X|]. apply (alive_no_ub _ _ _ _ E1 H4 X). }
  clear G Hn. revert s E. induction tr2 as [|l tr2 IH]; intros s E; [exact (proj2 (Q0 s E) Hi)|].
  assert (Q : forall tr2 s, exec (initial b0) (tr2 ++ LCall t ODestroy :: tr1) s -> (forall u o, ~ In (LCall u o) tr2) -> quiet t s).
  { clear - Q0. induction tr2 as [|l tr2 IH]; intros s E Hc; [apply Q0, E|]. inversion E as [|tr s0 l' s1 E1 Hs]; subst. eapply quiet_step; [exact Hs| |apply IH; [exact E1|]]; intros v o X; [apply (Hc v o); left; congruence|apply (Hc v o); right; exact X]. }
  inversion E as [|tr s0 l' s1 E1 Hs]; subst. assert (Hc' : forall u o, ~ In (LCall u o) tr2) by (intros v o X; apply (Hc v o); right; exact X). destruct Hi as [->|Hi].
  - destruct (quiet_step t _ _ _ Hs) as [_ X]; [intros v o X; apply (Hc v o); left; congruence|apply (Q tr2 s0 E1 Hc')|]. exact (X u eq_refl).
  - exact (IH Hc' Hi s0 E1).
Qed.

(** * C47 *)
(** sleep() returns the negated state of the trigger at a moment during the call; true only if the time is over *)
Theorem C47_sleep b0 tr2 t dur r tr1 : history b0 (tr2 ++ LRet t (OSleep dur) r :: tr1) ->
  exists h b, r = Some b /\ during t (OSleep dur) tr1 h /\ value b0 h = negb b /\ (b = true -> elapsed t (OSleep dur) tr1 dur).
Proof.
  intros H. destruct (wait_ret _ _ _ _ _ _ H I) as (x & E & (h & A & B) & C). exists h, (negb x). split; [exact E|]. split; [exact A|]. split; [rewrite negb_involutive; exact B|]. intros Hx. destruct x; [discriminate|].
  destruct (C eq_refl) as [(c & d & E' & _)|(dur' & E' & F)]; [discriminate E'|]. injection E' as <-. exact F.
Qed.
(** if the trigger is not set during the call, sleep() returns true, after the time *)
Theorem C47_undisturbed b0 tr2 t dur r tr1 : history b0 (tr2 ++ LRet t (OSleep dur) r :: tr1) -> (forall h, during t (OSleep dur) tr1 h -> value b0 h = false) -> r = Some true /\ elapsed t (OSleep dur) tr1 dur.
Proof.
  intros H Hv. destruct (C47_sleep _ _ _ _ _ _ H) as (h & b & -> & A & B & C). rewrite (Hv h A) in B. destruct b; [|discriminate]. split; [reflexivity|apply C; reflexivity].
Qed.
(** if it is set throughout the call, sleep() returns false *)
Theorem C47_interrupted b0 tr2 t dur r tr1 : history b0 (tr2 ++ LRet t (OSleep dur) r :: tr1) -> (forall h, during t (OSleep dur) tr1 h -> value b0 h = true) -> r = Some false.
Proof.
  intros H Hv. destruct (C47_sleep _ _ _ _ _ _ H) as (h & b & -> & A & B & C). rewrite (Hv h A) in B. destruct b; [discriminate|reflexivity].
Qed.
Definition nap : list act := [ATick Steady 3; ACall 1 (OSleep 10); AGo 1; AGo 1; AGo 1; AGo 1; ATick Steady 12; AWake 1; AGo 1; AGo 1; AGo 1; AGo 1; ATick Steady 13; AWake 1; AGo 1; ATimeout 1; AGo 1; AGo 1; AGo 1].
Example C47_example : hd_error (events false nap) = Some (LRet 1 (OSleep 10) (Some true)) /\ history false (events false nap).
Proof. split; [vm_compute; reflexivity|apply events_history]. Qed.
(** a sleeping thread can miss a trigger() followed by a reset() *)
Definition nap_pulse : list act := [ACall 1 (OSleep 10); AGo 1; AGo 1; AGo 1; AGo 1; ACall 2 (OSet true); AGo 2; AGo 2; AGo 2; AGo 2; AGo 2; ACall 2 (OSet false); AGo 2; AGo 2; AGo 2; AGo 2; ATick Steady 10; AGo 1; ATimeout 1; AGo 1; AGo 1; AGo 1].
Example C47_pulse_finding : hd_error (events false nap_pulse) = Some (LRet 1 (OSleep 10) (Some true)) /\ In (LRet 2 (OSet true) None) (events false nap_pulse) /\ history false (events false nap_pulse).
Proof. split; [vm_compute; reflexivity|]. split; [vm_compute; tauto|apply events_history]. Qed.
Print Assumptions C46_released.
Print Assumptions C47_sleep.
