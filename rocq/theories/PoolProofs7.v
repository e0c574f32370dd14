(** Thread pool: as long as the pool has an owner, a pending task can always be picked up. *)
From Coq Require Import ZArith List Bool Lia PeanoNat Permutation.
From Verif Require Import Base PoolModel PoolSpec PoolProofs PoolProofs2 PoolProofs3 PoolProofs4 PoolProofs5 PoolProofs6.
Import ListNotations.

(** * The order of the frames *)
Definition accret (f : frame) : bool := accesses f || match f with CRet _ _ => true | _ => false end.
Fixpoint top_ok (l : list frame) : Prop := match l with [] => True | f :: l' => (is_dtor f = false -> cnt accret l' = 0) /\ top_ok l' end.
Lemma top_app a b : top_ok a -> top_ok b -> cnt accret b = 0 -> top_ok (a ++ b).
Proof. induction a as [|f a IH]; intros Ha Hb Hc; [exact Hb|]. cbn [top_ok app] in *. destruct Ha as [H1 H2]. split; [intros Hd; rewrite cnt_app; rewrite (H1 Hd); lia|apply IH; assumption]. Qed.
Definition tops_ok (s : st) : Prop := forall t, top_ok (stk s t).
Lemma tops_step tr s l s' : step s l s' -> call_ok tr s -> tops_ok s -> tops_ok s'.
Proof.
  intros Hs HC HI th. pose proof (HI th) as Hx. destruct Hs; try body_facts; unfold release, disown; projs; unfold upd; try rewrite B10; try exact Hx.
  all: repeat match goal with |- context [Nat.eqb ?a ?b] => destruct (Nat.eqb_spec a b); [subst|] end; try exact Hx.
  all: use_eqs; cbn [top_ok is_dtor cnt accret accesses orb b2n] in *; try tauto.
  all: try (split; [intros _; apply Hx; reflexivity|tauto]).
  - split; [discriminate|exact Hx].
  - split; [discriminate|]. split; [discriminate + tauto|tauto].
  - destruct x; try tauto. apply top_app; [tauto|cbn; tauto|reflexivity].
Qed.
Lemma tops_exec n c s0 tr s : construct n c = Ok s0 -> exec s0 tr s -> tops_ok s.
Proof.
  intros H E. induction E as [|tr s l s' E IH Hs]; [destruct (construct_ok _ _ _ H) as (_ & _ & ->); intros t; exact I|]. eapply tops_step; [exact Hs|eapply call_exec; eassumption|exact IH].
Qed.

(** * A thread with a call in progress can make a step *)
Definition weight1 (f : frame) : nat :=
  match f with HWeak _ => 13 | CLock _ => 10 | CBody _ => 9 | CShare _ _ => 8 | CUnshare _ _ => 7 | CPush _ _ => 6 | CRel _ _ => 5 | CNote _ _ => 4 | CRet _ _ => 3 | _ => 1 end.
Fixpoint weight (l : list frame) : nat := match l with [] => 0 | f :: l' => weight1 f + weight l' end.
Lemma weight_app a b : weight (a ++ b) = weight a + weight b.
Proof. induction a; cbn [app weight]; lia. Qed.
Lemma blocked_dec s : (forall w, w < nw s -> is_blocked (wk s w) = false) \/ exists w, w < nw s /\ is_blocked (wk s w) = true.
Proof.
  induction (nw s) as [|n IH]; [left; intros; lia|]. destruct IH as [IH|(w & H1 & H2)]; [|right; exists w; split; [lia|exact H2]].
  destruct (is_blocked (wk s n)) eqn:D.
  - right. exists n. split; [lia|exact D].
  - left. intros w Hw. destruct (Nat.eq_dec w n) as [->|]; [exact D|apply IH; lia].
Qed.
(** the conditions under which progress is shown *)
Record alive (s : st) : Prop := { a_reach : exists n c s0 tr, construct n c = Ok s0 /\ exec s0 tr s; a_own : 0 < owners s }.
Lemma alive_facts s : alive s -> good s /\ drop_ok s /\ tops_ok s /\ (forall t f, In f (stk s t) -> is_dtor f = false) /\ shut s = false /\ 0 < strong s.
Proof.
  intros [(n & c & s0 & tr & H & E) Ho]. pose proof (good_exec _ _ _ _ _ H E) as HG. assert (Hs : 0 < strong s) by (unfold strong; lia).
  destruct (dt_alive s (v_dt _ (g_inv _ HG)) Hs) as [HA HF].
  assert (Hd : forall t f, In f (stk s t) -> is_dtor f = false) by (intros t f Hf; eapply cnt_zero; [apply HA|exact Hf]).
  split; [exact HG|]. split; [eapply drop_exec; eassumption|]. split; [eapply tops_exec; eassumption|]. split; [exact Hd|]. split; [|exact Hs].
  destruct (shut s) eqn:Es; [|reflexivity]. exfalso. destruct (g_shut _ HG) as (_ & _ & _ & S4 & _). destruct (S4 Es) as [Hf|(t & f & Hf & Hp)]; [congruence|]. specialize (Hd t f Hf). destruct f; discriminate.
Qed.
Lemma alive_step s l s' : alive s -> step s l s' -> 0 < owners s' -> alive s'.
Proof. intros [(n & c & s0 & tr & H & E) _] Hs Ho. split; [exists n, c, s0, (l :: tr); split; [exact H|econstructor; eassumption]|exact Ho]. Qed.
Lemma frame_step s t f rest : alive s -> stk s t = f :: rest -> (forall o, f = CLock o -> mtx s = None) ->
  exists l s', step s l s' /\ (forall s0, calm s0 l) /\ alive s' /\ weight (stk s' t) < weight (stk s t) /\ (mtx s' = None \/ mtx s' = Some t \/ mtx s' = mtx s) /\
    (forall w, is_blocked (wk s w) = false -> wk s' w = wk s w) /\ (forall u, u <> t -> stk s' u = stk s u) /\ nw s' = nw s /\ (fholds f = true -> mtx s' = None \/ mtx s' = mtx s).
Proof.
  intros HA Ht Hl. destruct (alive_facts s HA) as (HG & HD & HTo & Hnd & Hsh & Hst). pose proof (a_own _ HA) as Ho.
  assert (Hd : is_dtor f = false) by (apply (Hnd t); rewrite Ht; left; reflexivity).
  assert (Hfr : exists tr, call_ok tr s) by (destruct HA as [(n & c & s0 & tr & H & E) _]; exists tr; eapply call_exec; eassumption). destruct Hfr as [tr HC].
  assert (Fin : forall l s', step s l s' -> (forall s0, calm s0 l) -> 0 < owners s' -> weight (stk s' t) < weight (f :: rest) -> (mtx s' = None \/ mtx s' = Some t \/ mtx s' = mtx s) ->
    (forall w, is_blocked (wk s w) = false -> wk s' w = wk s w) -> (forall u, u <> t -> stk s' u = stk s u) -> nw s' = nw s -> (fholds f = true -> mtx s' = None \/ mtx s' = mtx s) ->
    exists l s', step s l s' /\ (forall s0, calm s0 l) /\ alive s' /\ weight (stk s' t) < weight (stk s t) /\ (mtx s' = None \/ mtx s' = Some t \/ mtx s' = mtx s) /\
    (forall w, is_blocked (wk s w) = false -> wk s' w = wk s w) /\ (forall u, u <> t -> stk s' u = stk s u) /\ nw s' = nw s /\ (fholds f = true -> mtx s' = None \/ mtx s' = mtx s)).
  { intros l s' H1 H2 H3 H4 H5 H6 H7 H8 H9. exists l, s'. rewrite Ht. pose proof (alive_step _ _ _ HA H1 H3). tauto. }
  assert (U1 : forall l, upd (stk s) t l t = l) by (intros l; unfold upd; rewrite Nat.eqb_refl; reflexivity).
  assert (U2 : forall (l : list frame) u, u <> t -> upd (stk s) t l u = stk s u) by (intros l u Hu; unfold upd; destruct (Nat.eqb_spec u t); [contradiction|reflexivity]).
  Local Ltac fin U1 U2 := projs; first [assumption|reflexivity|exact U1|apply U2|rewrite U1; cbn [weight weight1]; lia|tauto|intros; apply U2; assumption|lia|intros; discriminate|idtac].
  destruct f; try discriminate Hd.
  - eapply Fin; [apply c_lock; [exact Ht|exact (Hl o eq_refl)]|..]; try reflexivity; fin U1 U2.
  - destruct o.
    { destruct (Nat.le_gt_cases (cap s) (length (pending s))) as [Hc|Hc].
      - eapply Fin; [eapply c_full; [exact Ht|exact Hc]|..]; try reflexivity; fin U1 U2.
      - eapply Fin; [eapply c_room; [exact Ht|exact Hc]|..]; try reflexivity; fin U1 U2. }
    all: match goal with E : stk ?s ?t = CBody ?o :: _ |- _ => destruct (body t o s) as [[s1 r1] l1] eqn:Eb; assert (Ho' : forall a nm, o <> OAdd a nm) by discriminate; pose proof (body_same _ _ _ _ _ _ Eb) as (B1 & B2 & B3 & B4 & B5 & B6 & B7 & B8 & B9 & B10 & B11 & B12 & B13 & B14); destruct (body_label _ _ _ _ _ _ Eb Ho') as [El _]; eapply Fin; [eapply c_body; [exact Ht|exact Ho'|exact Eb]|..]; projs; rewrite ?B1, ?B7, ?B9, ?B10, ?B11; try rewrite U1; try assumption; try reflexivity; try tauto; try (cbn [weight weight1]; lia); try (intros; apply U2; assumption); rewrite El; destruct r1; reflexivity end.
  - eapply Fin; [eapply c_share; [exact Ht|exact Hst]|..]; try reflexivity; fin U1 U2.
  - eapply Fin; [eapply c_unshare; exact Ht|..]; unfold release; projs; try reflexivity; try assumption; try tauto; try (intros; apply U2; assumption).
    rewrite U1. unfold strong; projs. destruct (Nat.eqb_spec (owners s + length (remove_one t (refs s))) 0); [lia|]. cbn [weight weight1]. lia.
  - eapply Fin; [eapply c_push; [exact Ht|reflexivity]|..]; try reflexivity; fin U1 U2.
  - eapply Fin; [eapply c_rel; exact Ht|..]; try reflexivity; fin U1 U2. rewrite U1. destruct r; cbn [weight weight1]; lia.
  - destruct (blocked_dec s) as [Hb|(w & Hw & Hb)].
    + eapply Fin; [eapply c_note_none; [exact Ht|exact Hb]|..]; try reflexivity; fin U1 U2.
    + eapply Fin; [eapply c_note; [exact Ht|exact Hw|exact Hb]|..]; try reflexivity; fin U1 U2.
      intros v Hv. unfold upd. destruct (Nat.eqb_spec v w); [subst; congruence|reflexivity].
  - destruct (HC t) as [_ C2]. specialize (C2 (CRet o r)). rewrite Ht in C2. specialize (C2 (or_introl eq_refl)). cbn [fr_ok] in C2. destruct C2 as (_ & _ & C3).
    assert (D : (exists id, o = OState id) \/ forall id, o <> OState id) by (destruct o; first [left; eexists; reflexivity|right; discriminate]). destruct D as [(id & ->)|D].
    + assert (exists x, r = RState x) as (x & ->) by (destruct (C3 id eq_refl) as [-> |[-> | ->]]; eexists; reflexivity).
      eapply Fin; [eapply c_ret_state; exact Ht|..]; fin U1 U2; [destruct x; reflexivity|]. rewrite U1. destruct x; rewrite ?weight_app; cbn [weight weight1]; lia.
    + eapply Fin; [eapply c_ret; [exact Ht|exact D]|..]; try reflexivity; fin U1 U2.
  - eapply Fin; [eapply c_drop; exact Ht|..]; unfold release; projs; try reflexivity; try assumption; try tauto; try (intros; apply U2; assumption).
    rewrite U1. unfold strong; projs. destruct (Nat.eqb_spec (owners s + length (remove_one t (refs s))) 0); [lia|]. cbn [weight weight1]. lia.
  - eapply Fin; [eapply h_drop; exact Ht|..]; try reflexivity; fin U1 U2.
  - eapply Fin; [eapply h_lock; [exact Ht|exact Hst]|..]; try reflexivity; fin U1 U2.
  - eapply Fin; [eapply h_ready; exact Ht|..]; try reflexivity; fin U1 U2.
Qed.

(** * Pending tasks are picked up *)
Lemma cont_cons s l s' tr' s2 : step s l s' -> calm s l -> continues s' tr' s2 -> continues s (tr' ++ [l]) s2.
Proof. intros Hs Hc E. induction E as [|tr s1 l1 s1' E IH Hs1 Hc1]; cbn; [econstructor; [constructor|exact Hs|exact Hc]|econstructor; eassumption]. Qed.
Lemma rt_step s l s' : step s l s' -> calm s l -> reach_take s' -> reach_take s.
Proof.
  intros Hs Hc (tr' & s2 & E & H). exists (tr' ++ [l]), s2. split; [exact (cont_cons _ _ _ _ _ Hs Hc E)|].
  destruct H as [(w & id & now & tr'' & ->)|H]; [left; exists w, id, now, (tr'' ++ [l]); reflexivity|right; exact H].
Qed.
Lemma rt_empty s : pending s = [] -> reach_take s.
Proof. intros H. exists [], s. split; [constructor|right; exact H]. Qed.
Lemma find_ready_min l z : l <> [] -> (min_start l <= z)%Z -> exists i k, find_ready z l = Some i /\ nth_error l i = Some k.
Proof.
  intros H Hz. destruct (min_start_in l H) as (k & Hk & E). rewrite E in Hz. clear - Hk Hz. induction l as [|a l IH]; [destruct Hk|]. cbn [find_ready].
  destruct (Z.leb_spec (t_start a) z) as [Ha|Ha]; [exists 0, a; split; reflexivity|]. destruct Hk as [->|Hk]; [lia|]. destruct (IH Hk) as (i & k' & H1 & H2). rewrite H1. exists (S i), k'. split; [reflexivity|exact H2].
Qed.
Lemma upd_same {A} (f : nat -> A) k v : upd f k v k = v.
Proof. unfold upd. rewrite Nat.eqb_refl. reflexivity. Qed.
Lemma rt_look s w : w < nw s -> wk s w = WLook -> pending s <> [] -> reach_take s.
Proof.
  intros Hw Hp Hpe. set (z := Z.max (clock s) (min_start (pending s))). destruct (find_ready_min _ z Hpe) as (i & k & Hf & Hk); [unfold z; lia|].
  eapply rt_step; [apply (tick s z)|cbn; unfold z; lia|]. set (s1 := with_clock _ s).
  eapply rt_step; [apply (w_look s1 w); [exact Hw|exact Hp]|exact I|]. change (clock s1) with z. change (pending s1) with (pending s). rewrite Hf. set (s2 := goto w _ _).
  assert (S : step s2 (LTake w (t_id k) z) (goto w (WReg k) (with_pending (remove_nth i (pending s2)) s2))).
  { apply (w_take s2 w i); [exact Hw|unfold s2; projs; apply upd_same|exact Hk]. }
  eexists _, _. split; [econstructor; [constructor|exact S|exact I]|]. left. eexists _, _, _, []. reflexivity.
Qed.
Lemma rt_test s w : w < nw s -> wk s w = WTest -> shut s = false -> reach_take s.
Proof.
  intros Hw Hp Hsh. destruct (pending s) as [|k q] eqn:Hpe; [apply rt_empty; exact Hpe|].
  eapply rt_step; [apply (w_test s w Hw Hp)|exact I|]. rewrite Hsh. set (s1 := goto w WCheck s).
  eapply rt_step; [apply (w_check s1 w); [exact Hw|unfold s1; projs; apply upd_same|unfold s1; projs; rewrite Hpe; discriminate]|exact I|].
  apply (rt_look _ w); [exact Hw|projs; apply upd_same|unfold s1; projs; rewrite Hpe; discriminate].
Qed.
Lemma rt_drop s w : w < nw s -> wk s w = WDrop -> stk s w = [] -> shut s = false -> reach_take s.
Proof. intros Hw Hp Hk Hsh. eapply rt_step; [apply (w_drop s w Hw Hp Hk)|exact I|]. apply (rt_test _ w); [exact Hw|projs; apply upd_same|exact Hsh]. Qed.
Lemma rt_dereg s w id : w < nw s -> wk s w = WDereg id -> stk s w = [] -> shut s = false -> reach_take s.
Proof. intros Hw Hp Hk Hsh. eapply rt_step; [apply (w_dereg s w id Hw Hp)|exact I|]. apply (rt_drop _ w); [exact Hw|projs; apply upd_same|exact Hk|exact Hsh]. Qed.
Lemma rt_done s w id : w < nw s -> wk s w = WDone id -> mtx s = None -> stk s w = [] -> shut s = false -> reach_take s.
Proof. intros Hw Hp Hm Hk Hsh. eapply rt_step; [apply (w_done s w id Hw Hp Hm)|exact I|]. apply (rt_dereg _ w id); [exact Hw|projs; apply upd_same|exact Hk|exact Hsh]. Qed.
Lemma rt_lock s w : w < nw s -> wk s w = WInit \/ wk s w = WWake -> mtx s = None -> shut s = false -> reach_take s.
Proof. intros Hw Hp Hm Hsh. eapply rt_step; [apply (w_lock s w Hw Hp Hm)|exact I|]. apply (rt_test _ w); [exact Hw|projs; apply upd_same|exact Hsh]. Qed.
Lemma held_head s t f rest : alive s -> stk s t = f :: rest -> (exists g, In g (stk s t) /\ accret g = true) -> accret f = true.
Proof.
  intros HA Ht (g & Hg & Ha). destruct (alive_facts s HA) as (_ & _ & HT & Hnd & _). specialize (HT t). rewrite Ht in *. destruct HT as [H1 _]. destruct Hg as [->|Hg]; [exact Ha|]. exfalso.
  assert (Hd : is_dtor f = false) by (apply (Hnd t); rewrite Ht; left; reflexivity). specialize (H1 Hd). pose proof (cnt_pos accret g rest Hg Ha). lia.
Qed.
Lemma fholds_ex s t : 0 < cnt fholds (stk s t) -> exists f, In f (stk s t) /\ fholds f = true.
Proof.
  intros Hc. induction (stk s t) as [|a l IH]; cbn [cnt] in Hc; [lia|]. destruct (fholds a) eqn:E; [exists a; split; [left; reflexivity|exact E]|].
  destruct IH as (f & H1 & H2); [cbn in Hc; lia|]. exists f. split; [right; exact H1|exact H2].
Qed.
(** a CLock frame on top: the thread does not hold the mutex *)
Lemma lock_head s t o rest : alive s -> stk s t = CLock o :: rest -> cnt fholds (stk s t) = 0.
Proof.
  intros HA Ht. destruct (alive_facts s HA) as (_ & _ & HT & Hnd & _). specialize (HT t). rewrite Ht in *. destruct HT as [H1 _]. specialize (H1 eq_refl). cbn [cnt fholds b2n].
  assert (Hz : forall l, (forall g, In g l -> is_dtor g = false) -> cnt accret l = 0 -> cnt fholds l = 0).
  { induction l as [|a l IH]; intros Hd Hc; [reflexivity|]. cbn [cnt] in *. rewrite IH; [|intros; apply Hd; right; assumption|lia]. specialize (Hd a (or_introl eq_refl)). destruct a; cbn in *; try discriminate; lia. }
  apply Hz; [|exact H1]. intros g Hg. apply (Hnd t). rewrite Ht. right. exact Hg.
Qed.
Lemma rt_run s w id : alive s -> w < nw s -> wk s w = WRun id -> mtx s = None \/ mtx s = Some w -> reach_take s.
Proof.
  remember (weight (stk s w)) as m eqn:Em. revert s Em. induction m as [m IH] using lt_wf_ind. intros s Em HA Hw Hp Hm.
  destruct (alive_facts s HA) as (HG & HD & HT & Hnd & Hsh & Hst). pose proof (v_mtx _ (g_inv _ HG) w) as HM. unfold nh in HM. rewrite Hp in HM. cbn [wholds] in HM. rewrite andb_false_r in HM. cbn [b2n Nat.add] in HM.
  destruct (stk s w) as [|f rest] eqn:Ek.
  - assert (Hn : mtx s = None) by (destruct Hm as [Hm|Hm]; [exact Hm|rewrite Hm in HM; unfold own in HM; rewrite Nat.eqb_refl in HM; discriminate HM]).
    eapply rt_step; [apply (w_finish s w id Hw Hp Ek)|exact I|]. apply (rt_done _ w id); [exact Hw|projs; apply upd_same|exact Hn|exact Ek|exact Hsh].
  - destruct (frame_step s w f rest HA Ek) as (l & s' & S & Ca & HA' & Hwt & Hmx & Hwk & _ & En & _).
    { intros o ->. destruct Hm as [Hm|Hm]; [exact Hm|]. rewrite <- Ek in HM. rewrite (lock_head s w o rest HA Ek) in HM. rewrite Hm in HM. unfold own in HM. rewrite Nat.eqb_refl in HM. discriminate HM. }
    eapply rt_step; [exact S|apply Ca|]. rewrite Ek in Hwt. apply (IH (weight (stk s' w)) ltac:(lia) s' eq_refl HA'); [rewrite En; exact Hw|rewrite Hwk; [exact Hp|rewrite Hp; reflexivity]|].
    destruct Hmx as [H|[H|H]]; [tauto|tauto|rewrite H; tauto].
Qed.
Lemma rt_awake s w : alive s -> mtx s = None -> w < nw s -> is_blocked (wk s w) = false -> reach_take s.
Proof.
  intros HA Hm Hw Hb. destruct (alive_facts s HA) as (HG & HD & HT & Hnd & Hsh & Hst). pose proof (free_none s w (v_mtx _ (g_inv _ HG)) Hm Hw) as Hf. pose proof (g_exit _ HG w Hw) as Hx. pose proof (v_wst _ (g_inv _ HG) w Hw) as Hws.
  destruct (wk s w) eqn:Ep; try discriminate Hf; try discriminate Hb.
  - apply (rt_lock s w); tauto.
  - eapply rt_step; [apply (w_call s w id Hw Ep)|exact I|]. assert (S : step s (LStart w id) (goto w (WRun id) s)) by (apply w_call; assumption).
    apply (rt_run _ w id); [eapply alive_step; [exact HA|exact S|apply (a_own _ HA)]|exact Hw|projs; apply upd_same|left; exact Hm].
  - apply (rt_run s w id); tauto.
  - apply (rt_done s w id); try assumption. destruct (stk s w); [reflexivity|]. assert (Hc : in_task (WDone id) = true) by (apply Hws; discriminate). discriminate Hc.
  - apply (rt_lock s w); tauto.
  - specialize (Hx (or_intror eq_refl)). congruence.
Qed.
Lemma rt_free s : alive s -> mtx s = None -> reach_take s.
Proof.
  intros HA Hm. destruct (alive_facts s HA) as (HG & HD & HT & Hnd & Hsh & Hst). destruct (pending s) as [|k q] eqn:Hpe; [apply rt_empty; exact Hpe|].
  destruct (g_wake _ HG ltac:(rewrite Hpe; discriminate) Hsh) as [(w & Hw & Hb)|[(t & f & Hf & Hn)|(w & d & Hw & Hp & _)]].
  - eapply rt_awake; eassumption.
  - assert (Hno : cnt fholds (stk s t) = 0). { pose proof (v_mtx _ (g_inv _ HG) t) as HM. unfold nh in HM. rewrite Hm in HM. cbn in HM. lia. }
    assert (Hff : fholds f = false) by (eapply cnt_zero; eassumption). destruct (stk s t) as [|g rest] eqn:Ek; [destruct Hf|].
    assert (Hg : g = f). { destruct Hf as [Hf|Hf]; [exact Hf|]. exfalso. specialize (HT t). rewrite Ek in HT. destruct HT as [H1 _]. assert (Hd : is_dtor g = false) by (apply (Hnd t); rewrite Ek; left; reflexivity).
      specialize (H1 Hd). pose proof (cnt_pos accret f rest Hf). destruct f; try discriminate Hn; cbn in *; try lia. }
    subst g. destruct f; try discriminate Hn; try discriminate Hff. destruct (blocked_dec s) as [Hb|(w & Hw & Hb)].
    + eapply (rt_awake s 0); [exact HA|exact Hm|apply (g_nw _ HG)|apply Hb; apply (g_nw _ HG)].
    + pose proof (c_note s t o r rest w Ek Hw Hb) as S. eapply rt_step; [exact S|exact I|]. eapply (rt_awake _ w); [eapply alive_step; [exact HA|exact S|apply (a_own _ HA)]|exact Hm|exact Hw|projs; rewrite upd_same; reflexivity].
  - set (z := Z.max (clock s) d). pose proof (tick s z) as S0. eapply rt_step; [exact S0|cbn; unfold z; lia|]. assert (HA' : alive (with_clock z s)) by (eapply alive_step; [exact HA|exact S0|apply (a_own _ HA)]). clear HA. rename HA' into HA.
    assert (S : step (with_clock z s) (LWake w) (goto w WWake (with_clock z s))) by (eapply w_wake; [exact Hw|exact Hp]). eapply rt_step; [exact S|exists d; split; [exact Hp|cbn; unfold z; lia]|]. eapply (rt_awake _ w); [eapply alive_step; [exact HA|exact S|apply (a_own _ HA)]|exact Hm|exact Hw|projs; rewrite upd_same; reflexivity].
Qed.
Lemma rt_frames s t : alive s -> mtx s = Some t -> 0 < cnt fholds (stk s t) -> reach_take s.
Proof.
  remember (weight (stk s t)) as m eqn:Em. revert s Em. induction m as [m IH] using lt_wf_ind. intros s Em HA Hm Hc.
  destruct (alive_facts s HA) as (HG & HD & HT & Hnd & Hsh & Hst). destruct (stk s t) as [|f rest] eqn:Ek; [cbn in Hc; lia|].
  assert (Hf : fholds f = true).
  { destruct (fholds f) eqn:E; [reflexivity|]. exfalso. specialize (HT t). rewrite Ek in HT. destruct HT as [H1 _]. assert (Hd : is_dtor f = false) by (apply (Hnd t); rewrite Ek; left; reflexivity). specialize (H1 Hd).
    cbn [cnt] in Hc. rewrite E in Hc. cbn in Hc. assert (Hg : exists g, In g rest /\ fholds g = true). { clear - Hc. induction rest as [|a l IH]; cbn [cnt] in Hc; [lia|]. destruct (fholds a) eqn:E; [exists a; split; [left; reflexivity|exact E]|]. destruct IH as (g & H1 & H2); [cbn in Hc; lia|]. exists g. split; [right; exact H1|exact H2]. }
    destruct Hg as (g & Hg & Hh). assert (Hd' : is_dtor g = false) by (apply (Hnd t); rewrite Ek; right; exact Hg). pose proof (cnt_pos accret g rest Hg). destruct g; try discriminate Hh; try discriminate Hd'; cbn in *; lia. }
  destruct (frame_step s t f rest HA Ek) as (l & s' & S & Ca & HA' & Hwt & _ & Hwk & _ & _ & Hmx); [intros o ->; discriminate Hf|].
  eapply rt_step; [exact S|apply Ca|]. destruct (Hmx Hf) as [H|H]; [apply rt_free; assumption|]. rewrite Hm in H.
  destruct (alive_facts s' HA') as (HG' & _). pose proof (v_mtx _ (g_inv _ HG') t) as HM'. unfold nh, own in HM'. rewrite H, Nat.eqb_refl in HM'. cbn [b2n] in HM'.
  rewrite Ek in Hwt. apply (IH (weight (stk s' t)) ltac:(lia) s' eq_refl HA' H).
  destruct (Nat.ltb t (nw s') && wholds (wk s' t)) eqn:Ew; cbn [b2n] in HM'; [|lia]. exfalso.
  (* a worker inside a call is not at a point where its loop holds the mutex *)
  apply andb_true_iff in Ew. destruct Ew as [E1 E2]. apply Nat.ltb_lt in E1.
  destruct (const_step _ _ _ S) as [En _]. rewrite En in E1. assert (Hi : in_task (wk s t) = true) by (apply (v_wst _ (g_inv _ HG) t E1); rewrite Ek; discriminate).
  assert (Hr : exists id, wk s t = WRun id). { destruct (wk s t) eqn:Ep; try discriminate Hi; [eexists; reflexivity|]. exfalso. assert (Hd : is_dtor f = true) by (apply (HD t E1 Ep); rewrite Ek; left; reflexivity). assert (Hd' : is_dtor f = false) by (apply (Hnd t); rewrite Ek; left; reflexivity). congruence. }
  destruct Hr as (id & Hr). rewrite Hwk in E2 by (rewrite Hr; reflexivity). rewrite Hr in E2. discriminate E2.
Qed.
Lemma rt_all s : alive s -> reach_take s.
Proof.
  intros HA. destruct (alive_facts s HA) as (HG & HD & HT & Hnd & Hsh & Hst). destruct (mtx s) as [m|] eqn:Em; [|apply rt_free; assumption].
  pose proof (v_mtx _ (g_inv _ HG) m) as HM. unfold nh, own in HM. rewrite Em, Nat.eqb_refl in HM. cbn [b2n] in HM.
  destruct (Nat.ltb m (nw s) && wholds (wk s m)) eqn:Ew; cbn [b2n] in HM; [|apply (rt_frames s m); [exact HA|exact Em|lia]].
  apply andb_true_iff in Ew. destruct Ew as [E1 E2]. apply Nat.ltb_lt in E1. pose proof (v_scan _ (g_inv _ HG) m E1) as HS.
  assert (Hempty : in_task (wk s m) = false -> stk s m = []). { intros Hi. destruct (stk s m) eqn:Ek; [reflexivity|]. rewrite (v_wst _ (g_inv _ HG) m E1) in Hi by (rewrite Ek; discriminate). discriminate. }
  destruct (pending s) as [|k0 q0] eqn:Hpe; [apply rt_empty; exact Hpe|]. rewrite <- Hpe in *. assert (Hne : pending s <> []) by (rewrite Hpe; discriminate). clear Hpe.
  destruct (wk s m) eqn:Ep; try discriminate E2.
  - apply (rt_test s m); assumption.
  - eapply rt_step; [apply (w_check s m E1 Ep Hne)|exact I|]. apply (rt_look _ m); [exact E1|projs; apply upd_same|exact Hne].
  - apply (rt_look s m); assumption.
  - pose proof (w_timed s m until E1 Ep) as S. eapply rt_step; [exact S|exact I|]. apply rt_free; [eapply alive_step; [exact HA|exact S|apply (a_own _ HA)]|reflexivity].
  - destruct HS as [_ HS]. destruct (nth_error (pending s) i) as [k|] eqn:Ek.
    + eexists _, _. split; [econstructor; [constructor|apply (w_take s m i now k E1 Ep Ek)|exact I]|]. left. eexists _, _, _, []. reflexivity.
    + exfalso. clear - HS Ek. revert i HS Ek. induction (pending s) as [|a l IH]; intros i; cbn [find_ready]; [discriminate|]. destruct (Z.leb _ _); [intros [= <-]; discriminate|]. destruct (find_ready now l) as [j|]; [|discriminate]. intros [= <-]. cbn. apply IH. reflexivity.
  - pose proof (w_reg s m k E1 Ep) as S. eapply rt_step; [exact S|exact I|]. match type of S with step _ _ ?x => set (s1 := x) in * end.
    assert (S2 : step s1 LTau (goto m (WCall (t_id k)) (with_mtx None s1))) by (apply w_rel; [exact E1|unfold s1; projs; apply upd_same]). eapply rt_step; [exact S2|exact I|].
    apply rt_free; [eapply alive_step; [eapply alive_step; [exact HA|exact S|apply (a_own _ HA)]|exact S2|apply (a_own _ HA)]|reflexivity].
  - pose proof (w_rel s m id E1 Ep) as S. eapply rt_step; [exact S|exact I|]. apply rt_free; [eapply alive_step; [exact HA|exact S|apply (a_own _ HA)]|reflexivity].
  - apply (rt_dereg s m id); try assumption. apply Hempty. reflexivity.
  - apply (rt_drop s m); try assumption. destruct (stk s m) as [|f l] eqn:Ek; [reflexivity|]. exfalso. assert (Hd : is_dtor f = true) by (apply (HD m E1 Ep); rewrite Ek; left; reflexivity). assert (Hd' : is_dtor f = false) by (apply (Hnd m); rewrite Ek; left; reflexivity). congruence.
  - pose proof (g_exit _ HG m E1 (or_introl Ep)). congruence.
Qed.
