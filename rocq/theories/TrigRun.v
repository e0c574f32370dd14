(** Trigger: a function that executes given schedules, used to exhibit concrete executions. *)
From Coq Require Import ZArith List Bool Lia PeanoNat.
From Verif Require Import TrigModel TrigSpec.
Import ListNotations.
Local Open Scope Z_scope.

(** a call; the next statement of thread t (no_timeout after a wake-up); the same with timeout; a wake-up; the clock; an access to the destroyed object *)
Inductive act := ACall (t : nat) (o : op) | AGo (t : nat) | ATimeout (t : nat) | AWake (t : nat) | ATick (c : clk) (x : Z) | AUB (t : nat).
Definition freeb (s : st) : bool := match s.(mtx) with None => true | _ => false end.
Definition guard {A} (b : bool) (x : A) : option A := if b then Some x else None.
Definition fire (s : st) (a : act) : option (label * st) :=
  match a with
  | ACall t o => match pc s t with PIdle => guard (negb (dead s)) (LCall t o, go t (first o) s) | _ => None end
  | AGo t =>
    match pc s t with
    | SRet o => Some (LRet t o None, go t PIdle (St (trig s) (mtx s) (steady s) (system s) (pc s) (match o with ODestroy => true | _ => dead s end)))
    | GRet r => Some (LRet t OGet (Some r), go t PIdle s)
    | WRet o r => Some (LRet t o (value_of o r), go t PIdle s)
    | p => if dead s then None else
      match p with
      | SLock o b => guard (freeb s) (LTau, go t (SWrite o b) (with_mtx (Some t) s))
      | SWrite o b => Some (LSet t b, go t (SRel o b) (with_trig b s))
      | SRel o b => Some (LTau, go t (if b then SNote o else SRet o) (with_mtx None s))
      | SNote o => Some (LNotify t, go t (SRet o) (with_pc (fun u => wake (pc s u)) s))
      | GLock => guard (freeb s) (LTau, go t GRead (with_mtx (Some t) s))
      | GRead => Some (LGet t (trig s), go t (GRel (trig s)) s)
      | GRel r => Some (LTau, go t (GRet r) (with_mtx None s))
      | WLock o => guard (freeb s) (LTau, go t (match duration o with Some _ => WClock o | None => WTest o (deadline o) end) (with_mtx (Some t) s))
      | WClock o => match duration o with Some dur => Some (LTau, go t (WTest o (Some (Steady, steady s + dur))) s) | None => None end
      | WTest o k => Some (LGet t (trig s), go t (if trig s then WRel o true else WBlock o k) s)
      | WBlock o k => Some (LBlock t, go t (WBlocked o k) (with_mtx None s))
      | WWake o k => guard (freeb s) (LTau, go t (WCheck o k) (with_mtx (Some t) s))
      | WCheck o k => Some (LTau, go t (WTest o k) s)
      | WLast o => Some (LGet t (trig s), go t (WRel o (trig s)) s)
      | WRel o r => Some (LTau, go t (WRet o r) (with_mtx None s))
      | _ => None
      end
    end
  | ATimeout t => match pc s t with WCheck o (Some (c, d)) => guard (negb (dead s) && (d <=? now c s)) (LTau, go t (WLast o) s) | _ => None end
  | AWake t => match pc s t with WBlocked o k => Some (LWake t, go t (WWake o k) s) | _ => None end
  | ATick c x => match c with Steady => guard (steady s <=? x) (LTick c x, set_clock c x s) | System => Some (LTick c x, set_clock c x s) end
  | AUB t => guard (dead s && accessing (pc s t)) (LUB t, s)
  end.
Ltac fin := intros H; try discriminate; try (injection H as <- <-); repeat match goal with H : guard ?b _ = Some _ |- _ => unfold guard in H; destruct b eqn:?; [injection H as <- <-|discriminate] end.
Lemma fire_step s a l s' : fire s a = Some (l, s') -> step s l s'.
Proof.
  assert (F : freeb s = true -> mtx s = None) by (unfold freeb; destruct (mtx s); [discriminate|reflexivity]).
  destruct a; cbn [fire].
  - destruct (pc s t) eqn:E; fin. apply t_call; [exact E|]. destruct (dead s); [discriminate|reflexivity].
  - destruct (pc s t) eqn:E; try (destruct (dead s) eqn:D; [discriminate|]); fin; try (econstructor; eauto; fail).
    destruct (duration o) as [dur|] eqn:Ed; [|discriminate]. injection H as <- <-. eapply w_clock; eassumption.
  - destruct (pc s t) eqn:E; try discriminate. destruct k as [[c d]|]; fin. apply andb_true_iff in Heqb. destruct Heqb as [A B]. apply Z.leb_le in B. eapply w_timeout; [exact E|destruct (dead s); [discriminate|reflexivity]|exact B].
  - destruct (pc s t) eqn:E; fin. econstructor; exact E.
  - destruct c; fin; apply tick; [intros _; apply Z.leb_le; assumption|discriminate].
  - fin. apply andb_true_iff in Heqb. apply ub; apply Heqb.
Qed.
Fixpoint run (s : st) (tr : list label) (l : list act) : option (list label * st) :=
  match l with [] => Some (tr, s) | a :: l' => match fire s a with Some (e, s') => run s' (e :: tr) l' | None => None end end.
Lemma run_exec s0 l : forall tr s tr' s', exec s0 tr s -> run s tr l = Some (tr', s') -> exec s0 tr' s'.
Proof.
  induction l as [|a l IH]; intros tr s tr' s' E; cbn [run]; [intros [= <- <-]; exact E|]. destruct (fire s a) as [[e s1]|] eqn:Ef; [|discriminate]. apply IH. econstructor; [exact E|apply (fire_step _ _ _ _ Ef)].
Qed.
Definition events (b : bool) (l : list act) : list label := match run (initial b) [] l with Some (tr, _) => tr | None => [] end.
Lemma events_history b l : history b (events b l).
Proof. unfold events. destruct (run (initial b) [] l) as [[tr s]|] eqn:E; [exists s; eapply run_exec; [constructor|exact E]|exists (initial b); constructor]. Qed.
Definition final (b : bool) (l : list act) : option st := option_map snd (run (initial b) [] l).
