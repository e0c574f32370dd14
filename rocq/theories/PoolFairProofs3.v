(** Thread pool: a thread that is able to go on has a next step. *)
From Coq Require Import ZArith List Bool Lia PeanoNat.
From Verif Require Import Base PoolModel PoolSpec PoolProofs PoolProofs2 PoolProofs3 PoolProofs4 PoolProofs5 PoolProofs6 PoolProofs7 PoolFairSpec.
Import ListNotations.
Local Open Scope nat_scope.

(** * lock_pool_or_throw is the last thing a handle does *)
Definition is_weak (f : frame) : bool := match f with HWeak _ => true | _ => false end.
Definition weak_last (l : list frame) : Prop := cnt is_weak l = 0 \/ (exists o, l = [HWeak o]) \/ exists id o, l = [HDrop id; HWeak o].
Definition weaks_ok (s : st) : Prop := forall t, weak_last (stk s t).
Lemma weaks_step s l s' : step s l s' -> weaks_ok s -> weaks_ok s'.
Proof.
  intros Hs HI th. pose proof (HI th) as Hx. destruct Hs; try body_facts; unfold release, disown; projs; unfold upd; try rewrite B10; try exact Hx.
  all: repeat match goal with |- context [Nat.eqb ?a ?b] => destruct (Nat.eqb_spec a b); [subst|] end; try exact Hx.
  all: use_eqs; unfold weak_last in *; cbn [cnt is_weak b2n Nat.add] in *.
  all: try (left; reflexivity).
  all: try (left; destruct Hx as [Hx|[(?o & Hx)|(?id & ?o & Hx)]]; [exact Hx|discriminate Hx|discriminate Hx]).
  all: try (right; right; eexists _, _; reflexivity).
  all: try (right; left; eexists; reflexivity).
  - destruct r; left; destruct Hx as [Hx|[(?o & Hx)|(?id & ?o & Hx)]]; first [exact Hx|discriminate Hx].
  - assert (Hr : cnt is_weak rest = 0) by (destruct Hx as [Hx|[(?o & Hx)|(?id & ?o & Hx)]]; first [exact Hx|discriminate Hx]).
    left. destruct x; try exact Hr. rewrite cnt_app, Hr. reflexivity.
  - destruct Hx as [Hx|[(?o & Hx)|(?id & ?o & Hx)]]; [left; exact Hx|discriminate Hx|injection Hx as -> ->; right; left; eexists; reflexivity].
  - destruct Hx as [Hx|[(?o & Hx)|(?id & ?o & Hx)]]; [discriminate Hx|injection Hx as -> ->; left; reflexivity|discriminate Hx].
Qed.
Lemma weaks_exec n c s0 tr s : construct n c = Ok s0 -> exec s0 tr s -> weaks_ok s.
Proof.
  intros H E. induction E as [|tr s l s' E IH Hs]; [destruct (construct_ok _ _ _ H) as (_ & _ & ->); intros t; left; reflexivity|]. eapply weaks_step; eassumption.
Qed.

Definition is_ready (f : frame) : bool := match f with HReady _ => true | _ => false end.
Lemma longer {A} (x : A) l : x :: l <> l.
Proof. intros H. apply (f_equal (@length A)) in H. cbn in H. lia. Qed.
Lemma able_step n c s0 tr s t : construct n c = Ok s0 -> exec s0 tr s -> able s t ->
  exists l s', step s l s' /\ advances s s' t.
Proof.
  intros H E Ha. pose proof (good_exec _ _ _ _ _ H E) as HG. pose proof (v_scan _ (g_inv _ HG)) as HS.
  pose proof (call_exec _ _ _ _ _ H E) as HC. pose proof (weaks_exec _ _ _ _ _ H E t) as HW.
  assert (FS : forall l s' fs, step s l s' -> stk s' t = fs -> fs <> stk s t -> exists l s', step s l s' /\ advances s s' t).
  { intros l s' fs H1 H2 H3. exists l, s'. split; [exact H1|]. left. rewrite H2. exact H3. }
  assert (FW : forall l s' p, step s l s' -> wk s' t = p -> p <> wk s t -> exists l s', step s l s' /\ advances s s' t).
  { intros l s' p H1 H2 H3. exists l, s'. split; [exact H1|]. right. rewrite H2. exact H3. }
  assert (U1 : forall l, upd (stk s) t l t = l) by (intros l; unfold upd; rewrite Nat.eqb_refl; reflexivity).
  unfold able in Ha. destruct (stk s t) as [|f rest] eqn:Et.
  - destruct Ha as [Hw Ha]. specialize (HS t Hw). destruct (wk s t) eqn:Ep; try (now destruct Ha).
    all: try (eapply FW; [apply w_lock; [exact Hw| |exact Ha]|apply upd_same|discriminate]; auto; fail).
    + eapply FW; [eapply w_test; eassumption|apply upd_same|destruct (shut s); discriminate].
    + destruct (pending s) as [|k q] eqn:Eq.
      * eapply FW; [eapply w_wait; eassumption|apply upd_same|discriminate].
      * eapply FW; [eapply w_check; [exact Hw|exact Ep|rewrite Eq; discriminate]|apply upd_same|discriminate].
    + eapply FW; [eapply w_look; eassumption|apply upd_same|destruct (find_ready _ _); discriminate].
    + eapply FW; [eapply w_timed; eassumption|apply upd_same|discriminate].
    + destruct HS as [_ HS]. assert (exists k, nth_error (pending s) i = Some k) as (k & Hk).
      { clear - HS. revert i HS. induction (pending s) as [|a q IH]; intros i HS; [discriminate HS|]. cbn [find_ready] in HS.
        destruct (t_start a <=? now)%Z; [injection HS as <-; exists a; reflexivity|].
        destruct (find_ready now q) as [i'|]; [|discriminate HS]. injection HS as <-. apply (IH i' eq_refl). }
      eapply FW; [eapply w_take; eassumption|apply upd_same|discriminate].
    + eapply FW; [eapply w_reg; eassumption|apply upd_same|discriminate].
    + eapply FW; [eapply w_rel; eassumption|apply upd_same|discriminate].
    + eapply FW; [eapply w_call; eassumption|apply upd_same|discriminate].
    + eapply FW; [eapply w_done; eassumption|apply upd_same|discriminate].
    + eapply FW; [eapply w_dereg; eassumption|apply upd_same|discriminate].
    + eapply FW; [eapply w_drop; eassumption|apply upd_same|discriminate].
    + destruct until as [d|]; [|destruct Ha]. eapply FW; [eapply w_wake; eassumption|apply upd_same|discriminate].
    + eapply FW; [eapply w_quit; eassumption|apply upd_same|discriminate].
  - destruct f.
    + eapply FS; [eapply c_lock; eassumption|apply U1|discriminate].
    + destruct o.
      { destruct (Nat.le_gt_cases (cap s) (length (pending s))) as [Hc|Hc].
        - eapply FS; [eapply c_full; eassumption|apply U1|discriminate].
        - eapply FS; [eapply c_room; eassumption|apply U1|discriminate]. }
      all: match goal with E : stk ?s ?t = CBody ?o :: _ |- _ => destruct (body t o s) as [[s1 r1] l1] eqn:Eb; pose proof (body_same _ _ _ _ _ _ Eb) as (B1 & B2 & B3 & B4 & B5 & B6 & B7 & B8 & B9 & B10 & _);
        eapply FS; [eapply c_body; [exact E|discriminate|exact Eb]|projs; unfold upd; rewrite Nat.eqb_refl; reflexivity|discriminate] end.
    + destruct (Nat.eq_dec (strong s) 0) as [Hz|Hz].
      * eapply FS; [eapply c_bad_weak; eassumption|apply U1|discriminate].
      * eapply FS; [eapply c_share; [eassumption|lia]|apply U1|discriminate].
    + eapply FS; [eapply c_unshare; eassumption|unfold release; projs; apply U1|]. destruct (strong _ =? 0); discriminate.
    + eapply FS; [eapply c_push; [eassumption|reflexivity]|apply U1|discriminate].
    + eapply FS; [eapply c_rel; eassumption|apply U1|destruct r; discriminate].
    + destruct (blocked_dec s) as [Hb|(w & Hw & Hb)].
      * eapply FS; [eapply c_note_none; eassumption|apply U1|discriminate].
      * eapply FS; [eapply c_note; eassumption|apply U1|discriminate].
    + destruct (HC t) as [_ C2]. specialize (C2 (CRet o r)). rewrite Et in C2. specialize (C2 (or_introl eq_refl)). cbn [fr_ok] in C2. destruct C2 as (_ & _ & C3).
      assert (D : (exists id, o = OState id) \/ forall id, o <> OState id) by (destruct o; first [left; eexists; reflexivity|right; discriminate]). destruct D as [(id & ->)|D].
      * assert (exists x, r = RState x) as (x & ->) by (destruct (C3 id eq_refl) as [-> |[-> | ->]]; eexists; reflexivity).
        eapply FS; [eapply c_ret_state; exact Et|apply U1|]. destruct x; try (intros Q; symmetry in Q; exact (longer _ _ Q)).
        intros Q. apply (f_equal (cnt is_ready)) in Q. rewrite cnt_app in Q. cbn [cnt is_ready b2n] in Q. lia.
      * eapply FS; [eapply c_ret; [exact Et|exact D]|apply U1|]. intros Q. symmetry in Q. exact (longer _ _ Q).
    + eapply FS; [eapply c_drop; exact Et|unfold release; projs; apply U1|]. destruct (strong _ =? 0); [discriminate|intros Q; symmetry in Q; exact (longer _ _ Q)].
    + eapply FS; [eapply h_drop; exact Et|apply U1|intros Q; symmetry in Q; exact (longer _ _ Q)].
    + destruct (Nat.eq_dec (strong s) 0) as [Hz|Hz].
      * destruct HW as [HW|[(o' & HW)|(id & o' & HW)]]; [discriminate HW| |discriminate HW]. injection HW as <- ->.
        eapply FS; [eapply h_no_pool; eassumption|apply U1|discriminate].
      * eapply FS; [eapply h_lock; [exact Et|lia]|apply U1|discriminate].
    + eapply FS; [eapply h_ready; exact Et|apply U1|intros Q; symmetry in Q; exact (longer _ _ Q)].
    + eapply FS; [eapply d_lock; eassumption|apply U1|discriminate].
    + eapply FS; [eapply d_set; eassumption|apply U1|discriminate].
    + eapply FS; [eapply d_rel; eassumption|apply U1|discriminate].
    + eapply FS; [eapply d_note; eassumption|apply U1|discriminate].
    + destruct (Nat.le_gt_cases (nw s) k) as [Hk|Hk].
      * eapply FS; [eapply d_joined; eassumption|apply U1|discriminate].
      * destruct (Nat.eq_dec k t) as [->|Hkt].
        -- eapply FS; [eapply d_join_self; eassumption|apply U1|discriminate].
        -- eapply FS; [eapply d_join; [eassumption|exact Hk|exact Hkt|]|apply U1|]. { destruct Ha as [Ha|[Ha|Ha]]; [lia|contradiction|exact Ha]. } intros Q. injection Q as Q. lia.
    + eapply FS; [eapply d_free; eassumption|apply U1|intros Q; symmetry in Q; exact (longer _ _ Q)].
    + destruct Ha.
Qed.
