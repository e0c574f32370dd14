(** ThreadPool: a function that executes given schedules, used to exhibit concrete executions. *)
From Coq Require Import ZArith List Bool Lia PeanoNat.
From Verif Require Import Base PoolModel.
Import ListNotations.
Local Open Scope Z_scope.

(** The next step of worker w; of the innermost call of thread t; a notification that wakes w; ... *)
Inductive act :=
| AW (w : nat) | AF (t : nat) | ANote (t w : nat) | AWake (w : nat) | ATick (now : Z)
| ACall (t : nat) (o : op) | ATask (t : nat) (o : op) | ACopy | ADrop (t : nat)
| ADropTask (w : nat) | ADropCancel (t : nat) | ANoMem (t : nat)
| ACancel (t : nat) (id : Z) | AState (t : nat) (id : Z) | AComplete (t : nat) (id : Z) | AResult (t : nat) (id : Z).

Definition user_codeb (s : st) (t : nat) : bool := if Nat.ltb t s.(nw) then match s.(wk) t with WRun _ => true | _ => false end else true.
Definition idleb (s : st) (t : nat) : bool := match s.(stk) t with [] => true | _ => false end.
Definition guard {A} (b : bool) (x : A) : option A := if b then Some x else None.
Definition freeb (s : st) : bool := match s.(mtx) with None => true | _ => false end.
Definition ready (s : st) (id : Z) : bool := s.(valid) id && match s.(fut) id with FNone => false | _ => true end.
Definition knownb (s : st) (id : Z) : bool := (0 <=? id) && (id <? s.(next)).

Definition fire (s : st) (a : act) : option (label * st) :=
  match a with
  | AW w =>
    if negb (Nat.ltb w s.(nw)) then None else
    match s.(wk) w with
    | WInit | WWake => guard (freeb s) (LTau, goto w WTest (with_mtx (Some w) s))
    | WTest => Some (LTau, goto w (if s.(shut) then WQuit else WCheck) s)
    | WCheck => match s.(pending) with
                | [] => Some (LBlock w None, goto w (WWait None) (with_mtx None s))
                | _ => Some (LTau, goto w WLook s)
                end
    | WLook => Some (LTau, goto w (match find_ready s.(clock) s.(pending) with Some i => WTake i s.(clock) | None => WTimed (min_start s.(pending)) end) s)
    | WTimed d => Some (LBlock w (Some d), goto w (WWait (Some d)) (with_mtx None s))
    | WTake i now => match nth_error s.(pending) i with
                     | Some k => Some (LTake w k.(t_id) now, goto w (WReg k) (with_pending (remove_nth i s.(pending)) s))
                     | None => None
                     end
    | WReg k => Some (LTau, goto w (WRel k.(t_id)) (with_running (s.(rids) ++ [k.(t_id)]) (s.(rnames) ++ [k.(t_name)]) s))
    | WRel id => Some (LTau, goto w (WCall id) (with_mtx None s))
    | WCall id => Some (LStart w id, goto w (WRun id) s)
    | WRun id => guard (idleb s w) (LFinish w id, goto w (WDone id) (with_fut (updz s.(fut) id FReady) s))
    | WDone id => guard (freeb s) (LTau, goto w (WDereg id) (with_mtx (Some w) s))
    | WDereg id => Some (LDereg w id, goto w WDrop (with_running (erase_at (index_of id s.(rids)) s.(rids)) (erase_at (index_of id s.(rids)) s.(rnames)) s))
    | WDrop => guard (idleb s w) (LTau, goto w WTest s)
    | WQuit => Some (LTau, goto w WExit (with_mtx None s))
    | WWait _ | WExit => None
    end
  | AF t =>
    match s.(stk) t with
    | [] => None
    | CLock o :: rest => guard (freeb s) (LTau, with_stk t (CBody o :: rest) (with_mtx (Some t) s))
    | CBody (OAdd start name) :: rest =>
        if Nat.leb s.(cap) (length s.(pending)) then Some (LQuery t (OAdd start name) RFull, with_stk t (CRel (OAdd start name) RFull :: rest) s)
        else Some (LTau, with_stk t (CShare start name :: rest) s)
    | CBody o :: rest => let '(s', r, l) := body t o s in Some (l, with_stk t (CRel o r :: rest) s')
    | CShare start name :: rest =>
        if Nat.eqb (strong s) 0 then Some (LQuery t (OAdd start name) RBadWeak, with_stk t (CRel (OAdd start name) RBadWeak :: rest) s)
        else Some (LTau, with_stk t (CUnshare start name :: rest) (with_refs s.(owners) (t :: s.(refs)) s))
    | CUnshare start name :: rest => Some (LTau, release t (CPush start name :: rest) s)
    | CPush start name :: rest =>
        let k := Task s.(next) start name in
        Some (LAdd t k, with_stk t (CRel (OAdd start name) (RId s.(next)) :: rest)
          (with_pending (s.(pending) ++ [k]) (with_next ((s.(next) + 1) mod id_mod) (with_fut (updz s.(fut) s.(next) FNone) (with_valid (updz s.(valid) s.(next) true) s)))))
    | CRel o r :: rest => Some (LTau, with_stk t (match r with RId _ => CNote o r | _ => CRet o r end :: rest) (with_mtx None s))
    | CNote o r :: rest => guard (forallb (fun w => negb (is_blocked (s.(wk) w))) (seq 0 s.(nw))) (LNotify t, with_stk t (CRet o r :: rest) s)
    | CRet (OState id) (RState x) :: rest =>
        Some (match x with TUnknown => LTau | _ => LState t id x end, with_stk t (match x with TUnknown => rest ++ [HReady id] | _ => rest end) s)
    | CRet (OState _) _ :: _ => None
    | CRet o r :: rest => Some (LReturn t o r, with_stk t rest s)
    | CDrop :: rest => Some (LTau, release t rest s)
    | HDrop id :: rest => Some (LTau, with_stk t rest (with_valid (updz s.(valid) id false) s))
    | HWeak o :: rest =>
        if Nat.eqb (strong s) 0 then match rest with [] => Some (LReturn t o RNoPool, with_stk t [] s) | _ => None end
        else Some (LTau, with_stk t (CLock o :: CDrop :: rest) (with_refs s.(owners) (t :: s.(refs)) s))
    | HReady id :: rest => Some (LState t id (if ready s id then TComplete else TCanceled), with_stk t rest s)
    | DLock :: rest => guard (freeb s) (LTau, with_stk t (DSet :: rest) (with_mtx (Some t) s))
    | DSet :: rest => Some (LShutdown t, with_stk t (DRel :: rest) (with_shut true s))
    | DRel :: rest => Some (LTau, with_stk t (DNote :: rest) (with_mtx None s))
    | DNote :: rest => Some (LNotify t, with_stk t (DJoin 0 :: rest) (with_wk (wake_all s.(wk)) s))
    | DJoin k :: rest =>
        if Nat.ltb k s.(nw) then
          if Nat.eqb k t then Some (LTerminate t, with_stk t (DTerm :: rest) s)
          else match s.(wk) k with WExit => Some (LTau, with_stk t (DJoin (S k) :: rest) s) | _ => None end
        else Some (LTau, with_stk t (DFree :: rest) s)
    | DFree :: rest => Some (LFree t, with_stk t rest (with_pending [] (with_fut (break_all s.(pending) s.(fut)) (with_freed true s))))
    | DTerm :: _ => None
    end
  | ANote t w => match s.(stk) t with
                 | CNote o r :: rest => guard (Nat.ltb w s.(nw) && is_blocked (s.(wk) w)) (LNotify t, with_stk t (CRet o r :: rest) (goto w WWake s))
                 | _ => None
                 end
  | AWake w => match s.(wk) w with WWait _ => guard (Nat.ltb w s.(nw)) (LWake w, goto w WWake s) | _ => None end
  | ATick now => Some (LTick now, with_clock now s)
  | ACall t o => guard (user_codeb s t && idleb s t && Nat.ltb 0 s.(owners) && is_public o) (LCall t o, with_stk t [CLock o; CDrop] (with_refs s.(owners) (t :: s.(refs)) s))
  | ATask t o => guard (Nat.ltb t s.(nw) && user_codeb s t && idleb s t && is_public o) (LCall t o, with_stk t [CLock o] s)
  | ACopy => guard (Nat.ltb 0 s.(owners)) (LTau, with_refs (S s.(owners)) s.(refs) s)
  | ADrop t => guard (user_codeb s t && idleb s t && Nat.ltb 0 s.(owners)) (LTau, disown t s)
  | ADropTask w => match s.(wk) w with WDrop => guard (Nat.ltb w s.(nw) && idleb s w && Nat.ltb 0 s.(owners)) (LTau, disown w s) | _ => None end
  | ADropCancel t => match s.(stk) t with
                     | CRel (OCancel _) _ :: _ | CRel OClear _ :: _ | CRel (OAdd _ _) RNoMem :: _ => guard (Nat.ltb 0 s.(owners)) (LTau, disown t s)
                     | _ => None
                     end
  | ANoMem t => match s.(stk) t with
                | CBody (OAdd start name) :: rest | CPush start name :: rest => Some (LQuery t (OAdd start name) RNoMem, with_stk t (CRel (OAdd start name) RNoMem :: rest) s)
                | CBody ONames :: rest => Some (LQuery t ONames RNoMem, with_stk t (CRel ONames RNoMem :: rest) s)
                | CBody ORunning :: rest => Some (LQuery t ORunning RNoMem, with_stk t (CRel ORunning RNoMem :: rest) s)
                | _ => None
                end
  | ACancel t id => guard (user_codeb s t && idleb s t && knownb s id) (LCall t (OCancel id), with_stk t [HDrop id; HWeak (OCancel id)] s)
  | AState t id => guard (user_codeb s t && idleb s t && knownb s id) (LCall t (OState id), with_stk t [HWeak (OState id)] s)
  | AComplete t id => guard (user_codeb s t && idleb s t && knownb s id) (LComplete t id (ready s id), s)
  | AResult t id =>
      if negb (user_codeb s t && idleb s t && knownb s id) then None else
      if negb (s.(valid) id) then Some (LResult t id None, s) else
      match s.(fut) id with FNone => None | r => Some (LResult t id (Some r), with_valid (updz s.(valid) id false) s) end
  end.
Fixpoint run (s : st) (l : list act) : option (list label * st) :=
  match l with
  | [] => Some ([], s)
  | a :: l' => match fire s a with
               | Some (e, s1) => match run s1 l' with Some (tr, s2) => Some (tr ++ [e], s2) | None => None end
               | None => None
               end
  end.

Lemma user_codeb_ok s t : user_codeb s t = true -> user_code s t.
Proof. unfold user_codeb, user_code. destruct (Nat.ltb t (nw s)); [|tauto]. destruct (wk s t); try discriminate. intros _. eexists. reflexivity. Qed.
Lemma idleb_ok s t : idleb s t = true -> stk s t = [].
Proof. unfold idleb. destruct (stk s t); [reflexivity|discriminate]. Qed.
Lemma freeb_ok s : freeb s = true -> mtx s = None.
Proof. unfold freeb. destruct (mtx s); [discriminate|reflexivity]. Qed.
Lemma guard_some {A} b (x y : A) : guard b x = Some y -> b = true /\ x = y.
Proof. destruct b; cbn; [intros [= ->]; tauto|discriminate]. Qed.
Ltac fire_facts := repeat match goal with
  | H : guard _ _ = Some _ |- _ => apply guard_some in H; destruct H as [? H]
  | H : Some _ = Some _ |- _ => injection H as <- <-
  | H : (_, _) = (_, _) |- _ => injection H as <- <-
  | H : _ && _ = true |- _ => apply andb_true_iff in H; destruct H
  | H : user_codeb _ _ = true |- _ => apply user_codeb_ok in H
  | H : idleb _ _ = true |- _ => apply idleb_ok in H
  | H : freeb _ = true |- _ => apply freeb_ok in H
  | H : Nat.ltb _ _ = true |- _ => apply Nat.ltb_lt in H
  | H : negb _ = false |- _ => apply negb_false_iff in H
  | H : (_ <=? _) = true |- _ => apply Z.leb_le in H
  | H : (_ <? _) = true |- _ => apply Z.ltb_lt in H
  end.
Lemma fire_step s a l s' : fire s a = Some (l, s') -> step s l s'.
Proof.
  intros H. destruct a; cbn [fire] in H; unfold knownb in *.
  - destruct (negb (Nat.ltb w (nw s))) eqn:Ew; [discriminate|]. fire_facts. destruct (wk s w) eqn:Ep; try discriminate; fire_facts; try (constructor; tauto); try (econstructor; eassumption).
    + destruct (pending s) eqn:Eq; fire_facts; constructor; try assumption. rewrite Eq. discriminate.
    + destruct (nth_error (pending s) i) eqn:Ek; [|discriminate]. fire_facts. eapply w_take; eassumption.
  - destruct (stk s t) as [|f rest] eqn:Ek; [discriminate|]. destruct f; fire_facts; try discriminate; try (econstructor; eassumption).
    + destruct o; try (destruct (body t _ s) as [[s1 r1] l1] eqn:Eb; injection H as <- <-; eapply c_body; [exact Ek|discriminate|exact Eb]).
      destruct (Nat.leb (cap s) (length (pending s))) eqn:Ec; fire_facts; [apply c_full; [exact Ek|apply Nat.leb_le; exact Ec]|apply c_room; [exact Ek|apply Nat.leb_gt; exact Ec]].
    + destruct (Nat.eqb_spec (strong s) 0); fire_facts; [apply c_bad_weak; assumption|apply c_share; [assumption|lia]].
    + eapply c_push; [exact Ek|reflexivity].
    + apply c_note_none; [exact Ek|]. rewrite forallb_forall in H0. intros w Hw. specialize (H0 w). rewrite in_seq in H0. specialize (H0 ltac:(lia)). apply negb_true_iff in H0. exact H0.
    + destruct o; fire_facts; try (apply c_ret; [exact Ek|discriminate]). destruct r; try discriminate. fire_facts. apply c_ret_state. exact Ek.
    + destruct (Nat.eqb_spec (strong s) 0); [destruct rest; [|discriminate]|]; fire_facts; [apply h_no_pool; assumption|apply h_lock; [assumption|lia]].
    + destruct (Nat.ltb_spec k (nw s)); [destruct (Nat.eqb_spec k t); [subst|destruct (wk s k) eqn:Ew; try discriminate]|]; fire_facts; [apply d_join_self; assumption|apply d_join; assumption|eapply d_joined; eassumption].
  - destruct (stk s t) as [|f rest] eqn:Ek; [discriminate|]. destruct f; try discriminate. fire_facts. eapply c_note; eassumption.
  - destruct (wk s w) eqn:Ep; try discriminate. fire_facts. eapply w_wake; eassumption.
  - fire_facts. constructor.
  - fire_facts. apply call_shared; assumption.
  - fire_facts. apply call_task; assumption.
  - fire_facts. apply own_copy; assumption.
  - fire_facts. apply own_drop; assumption.
  - destruct (wk s w) eqn:Ep; try discriminate. fire_facts. apply w_drop_owner; assumption.
  - destruct (stk s t) as [|f rest] eqn:Ek; [discriminate|]. destruct f; try discriminate. destruct o; try discriminate; [destruct r; try discriminate| |]; fire_facts; (eapply c_drop_owner; [exact Ek|assumption|]); [right; right; eexists; eexists; split; reflexivity|left; eexists; reflexivity|right; left; reflexivity].
  - destruct (stk s t) as [|f rest] eqn:Ek; [discriminate|]. destruct f; try discriminate; [destruct o; try discriminate|]; fire_facts;
      [apply c_nomem|apply c_nomem_names|apply c_nomem_running|apply c_nomem_push]; exact Ek.
  - fire_facts. apply h_cancel; [assumption|assumption|lia].
  - fire_facts. apply h_state; [assumption|assumption|lia].
  - fire_facts. apply h_complete; [assumption|assumption|lia].
  - destruct (negb _) eqn:E1 in H; [discriminate|]. fire_facts. destruct (valid s id) eqn:Ev; cbn [negb] in H.
    + destruct (fut s id) eqn:Ef; [discriminate| |]; fire_facts; rewrite <- Ef; apply h_result; try assumption; try lia; congruence.
    + fire_facts. apply h_result_none; try assumption; lia.
Qed.
Lemma exec_cat s0 tr s tr' s' : exec s0 tr s -> exec s tr' s' -> exec s0 (tr' ++ tr) s'.
Proof. intros E1 E2. induction E2 as [|tr2 s2 l s3 E2 IH Hs]; [exact E1|]. cbn. econstructor; [exact IH|exact Hs]. Qed.
Lemma run_exec l : forall s tr s', run s l = Some (tr, s') -> exec s tr s'.
Proof.
  induction l as [|a l IH]; intros s tr s' H; cbn [run] in H; [injection H as <- <-; constructor|].
  destruct (fire s a) as [[e s1]|] eqn:Ef; [|discriminate]. destruct (run s1 l) as [[tr1 s2]|] eqn:Er; [|discriminate]. injection H as <- <-.
  eapply exec_cat; [|apply IH; exact Er]. econstructor; [constructor|apply (fire_step _ _ _ _ Ef)].
Qed.
(** A schedule of a pool with n workers and capacity c *)
Definition schedule (n c : nat) (l : list act) : option (list label * st) := match construct n c with Ok s0 => run s0 l | _ => None end.
Definition events (n c : nat) (l : list act) : list label := match schedule n c l with Some (tr, _) => tr | None => [] end.
