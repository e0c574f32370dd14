(** Thread pool: progress.  The destructor gets through; pending tasks are picked up. *)
From Coq Require Import ZArith List Bool Lia PeanoNat Permutation.
From Verif Require Import Base PoolModel PoolSpec PoolProofs PoolProofs2 PoolProofs3 PoolProofs4 PoolProofs5.
Import ListNotations.

Lemma exec_trans s0 a s1 b s2 : exec s0 a s1 -> exec s1 b s2 -> exec s0 (b ++ a) s2.
Proof. intros H1 H2. induction H2; [exact H1|]. cbn [app]. econstructor; eassumption. Qed.
Lemma exec_one s l s' : step s l s' -> exec s [l] s'.
Proof. intros H. econstructor; [constructor|exact H]. Qed.

(** At the end of an iteration, when the function object dies, nothing but the destructor of the pool runs *)
Definition drop_ok (s : st) : Prop := forall w, w < nw s -> wk s w = WDrop -> forall f, In f (stk s w) -> is_dtor f = true.
Lemma drop_step s l s' : step s l s' -> wstack_ok s -> drop_ok s -> drop_ok s'.
Proof.
  intros Hs HW HI v Hv Hp f. destruct Hs; try body_facts; unfold release, disown in *; projs; unfold upd in *.
  all: try rewrite B10; try rewrite B9 in Hp; try rewrite B1 in Hv.
  all: try (exact (HI v Hv Hp f)).
  all: repeat match goal with H : context [Nat.eqb ?a ?b] |- _ => destruct (Nat.eqb_spec a b); [subst|] | |- context [Nat.eqb ?a ?b] => destruct (Nat.eqb_spec a b); [subst|] end.
  all: try discriminate Hp; try (exact (HI _ Hv Hp f)).
  all: try (match goal with E : stk ?s ?t = _ |- _ => pose proof (HI t Hv Hp) as Hx; rewrite E in Hx end; cbn [In]; intros Hf; repeat match goal with H : _ \/ _ |- _ => destruct H end; subst; try contradiction; try reflexivity;
     try (apply Hx; right; assumption); try discriminate (Hx _ (or_introl eq_refl))).
  all: try (use_eqs; intros []).
  all: try (exfalso; unfold user_code in *; match goal with H : if Nat.ltb ?a ?b then _ else _ |- _ => apply Nat.ltb_lt in Hv; rewrite Hv in H; destruct H as [? H]; congruence end).
  all: try (destruct (shut s); discriminate Hp). all: try (destruct (find_ready _ _); discriminate Hp).
  all: try (match goal with H : wk ?s ?w = WDereg _ |- _ => intros Hf; exfalso; assert (Hne : stk s w <> []) by (intros E; rewrite E in Hf; destruct Hf); specialize (HW w Hv Hne); rewrite H in HW; discriminate HW end).
  all: try (intros Hf; apply (HI _ Hv); [|exact Hf]; unfold wake_all in Hp; destruct (wk s v); try discriminate Hp; reflexivity).
  all: repeat match goal with H : context [if ?b then _ else _] |- _ => destruct b end; cbn [In] in *; repeat match goal with H : _ \/ _ |- _ => destruct H end; subst; try reflexivity; try (apply (HI _ Hv Hp); assumption); try (apply Hx; right; assumption).
  all: try discriminate (Hx _ (or_introl eq_refl)).
  apply (HI t Hv); [unfold wake_all in Hp; destruct (wk s t); try discriminate Hp; reflexivity|rewrite H; right; exact H0].
Qed.
Lemma drop_exec n c s0 tr s : construct n c = Ok s0 -> exec s0 tr s -> drop_ok s.
Proof.
  intros H E. induction E as [|tr s l s' E IH Hs]; [destruct (construct_ok _ _ _ H) as (_ & _ & ->); intros w _ Hw; discriminate Hw|].
  eapply drop_step; [exact Hs|apply (v_wst _ (inv_exec _ _ _ _ _ H E))|exact IH].
Qed.

(** * The end of the workers *)
Lemma total_ext f g n : (forall w, w < n -> f w = g w) -> total f n = total g n.
Proof. induction n as [|n IH]; intros H; cbn [total]; [reflexivity|]. rewrite (H n), IH; [reflexivity| |]; intros; try apply H; lia. Qed.
Lemma total_upd f g n w : w < n -> (forall v, v < n -> v <> w -> f v = g v) -> total f n + g w = total g n + f w.
Proof.
  induction n as [|n IH]; intros Hw H; [lia|]. cbn [total]. destruct (Nat.eq_dec w n) as [->|Hn].
  - rewrite (total_ext f g n); [lia|]. intros; apply H; lia.
  - rewrite (H n) by lia. specialize (IH ltac:(lia)). rewrite (Nat.add_comm (g n)), (Nat.add_comm (g n)), <- !Nat.add_assoc, (Nat.add_comm (g n)), (Nat.add_comm (g n)), !Nat.add_assoc. f_equal. apply IH. intros; apply H; lia.
Qed.
Lemma left_goto s s' w : w < nw s -> nw s' = nw s -> (forall v, v <> w -> wk s' v = wk s v) -> wrank (wk s' w) < wrank (wk s w) -> left_over s' < left_over s.
Proof.
  intros Hw En Ho Hr. unfold left_over. rewrite En. pose proof (total_upd (fun w => wrank (wk s' w)) (fun w => wrank (wk s w)) (nw s) w Hw) as H. cbn beta in H.
  assert (total (fun w0 => wrank (wk s' w0)) (nw s) + wrank (wk s w) = total (fun w0 => wrank (wk s w0)) (nw s) + wrank (wk s' w)); [|lia]. apply H. intros v _ Hv. rewrite Ho by exact Hv. reflexivity.
Qed.
Lemma joining_facts s : good s -> joining s -> shut s = true /\ (forall w, w < nw s -> is_blocked (wk s w) = false) /\ strong s = 0.
Proof.
  intros HG (t & k & Hj). destruct (g_shut _ HG) as (S1 & S2 & _). split; [apply (S1 t _ Hj); reflexivity|]. split; [apply (S2 t _ Hj); reflexivity|].
  destruct (v_dt _ (g_inv _ HG)) as (d & D1 & D2). specialize (D1 t). pose proof (cnt_pos is_dtor _ _ Hj eq_refl). destruct d; [tauto|cbn in D1; lia].
Qed.
(** Once the destructor waits for the workers, every step of a worker brings its end nearer and no other step delays it *)
Lemma join_rank s l s' : good s -> joining s -> step s l s' -> left_over s' <= left_over s /\ ((exists w, w < nw s /\ wk s' w <> wk s w) -> left_over s' < left_over s).
Proof.
  intros HG HJ Hs. destruct (joining_facts s HG HJ) as (Hsh & Hb & Hst). pose proof (v_scan _ (g_inv _ HG)) as HS.
  assert (Hsame : (forall v, wk s' v = wk s v) -> nw s' = nw s -> left_over s' <= left_over s /\ ((exists w, w < nw s /\ wk s' w <> wk s w) -> left_over s' < left_over s)).
  { intros E En. split; [|intros (w & _ & Hw); exfalso; apply Hw; apply E]. unfold left_over. rewrite En. rewrite (total_ext _ (fun w => wrank (wk s w))); [lia|]. intros. rewrite E. reflexivity. }
  assert (Hone : forall w, w < nw s -> nw s' = nw s -> (forall v, v <> w -> wk s' v = wk s v) -> wrank (wk s' w) < wrank (wk s w) -> left_over s' <= left_over s /\ ((exists w, w < nw s /\ wk s' w <> wk s w) -> left_over s' < left_over s)).
  { intros w Hw En Ho Hr. pose proof (left_goto s s' w Hw En Ho Hr). split; [lia|intros _; assumption]. }
  destruct Hs; try body_facts.
  all: try (apply Hsame; [unfold release, disown; projs; first [reflexivity|intros; rewrite B9; reflexivity]|unfold release, disown; projs; first [reflexivity|assumption]]; fail).
  all: try (match goal with H : wk ?s ?w = _, H' : ?w < nw ?s |- _ => pose proof (HS w H') as HSw; rewrite H in HSw; first [congruence|destruct HSw; congruence] end).
  all: try (match goal with H : ?w < nw ?s |- _ => apply (Hone w H); [reflexivity|intros v Hv; projs; unfold upd; destruct (Nat.eqb_spec v w); [contradiction|reflexivity]|projs; unfold upd; rewrite Nat.eqb_refl; use_eqs; cbn; lia] end; fail).
  - apply (Hone w H); [reflexivity|intros v Hv; projs; unfold upd; destruct (Nat.eqb_spec v w); [contradiction|reflexivity]|projs; unfold upd; rewrite Nat.eqb_refl]. destruct H0 as [-> | ->]; cbn; lia.
  - apply (Hone w H); [reflexivity|intros v Hv; projs; unfold upd; destruct (Nat.eqb_spec v w); [contradiction|reflexivity]|projs; unfold upd; rewrite Nat.eqb_refl]. rewrite Hsh, H0. cbn. lia.
  - specialize (Hb w H). rewrite H0 in Hb. discriminate.
  - rewrite Hb in H1 by assumption. discriminate.
  - destruct HJ as (t' & k & Hj). destruct (dtor_unique s t DNote (DJoin k) rest t' (v_dt _ (g_inv _ HG)) H eq_refl Hj eq_refl) as (_ & E & _). discriminate E.
Qed.
Lemma goto_changed w p s : wk s w <> p -> wk (goto w p s) w <> wk s w.
Proof. projs. unfold upd. rewrite Nat.eqb_refl. congruence. Qed.
Lemma join_enabled s t k rest w : good s -> drop_ok s -> stk s t = DJoin k :: rest -> nw s <= t -> (forall v id, v < nw s -> wk s v = WRun id -> stk s v = []) ->
  w < nw s -> wk s w <> WExit -> exists v l s', v < nw s /\ step s l s' /\ wk s' v <> wk s v /\ stk s' = stk s.
Proof.
  intros HG HD Ht Hnt Hrun Hw Hne. assert (HJ : joining s) by (exists t, k; rewrite Ht; left; reflexivity). destruct (joining_facts s HG HJ) as (Hsh & Hb & Hst).
  pose proof (g_inv _ HG) as HV. pose proof (v_scan _ HV) as HS. pose proof (v_mtx _ HV) as HM. pose proof (v_dt _ HV) as HDT.
  assert (Huniq : forall t' f, In f (stk s t') -> is_dtor f = true -> t' = t /\ f = DJoin k). { intros t' f Hf Hd. destruct (dtor_unique s t (DJoin k) f rest t' HDT Ht eq_refl Hf Hd) as (H1 & H2 & _). split; assumption. }
  assert (Hdrop : forall v, v < nw s -> wk s v = WDrop -> stk s v = []).
  { intros v Hv Hp. destruct (stk s v) as [|f l] eqn:E; [reflexivity|]. exfalso. destruct (Huniq v f) as [-> _]; [rewrite E; left; reflexivity| |lia]. apply (HD v Hv Hp). rewrite E. left. reflexivity. }
  assert (Go : forall v p s1, v < nw s -> wk s v <> p -> (exists l, step s l (goto v p s1)) -> wk s1 = wk s -> stk s1 = stk s -> exists v l s', v < nw s /\ step s l s' /\ wk s' v <> wk s v /\ stk s' = stk s).
  { intros v p s1 Hv Hp (l & Hl) E1 E2. exists v, l, (goto v p s1). split; [exact Hv|]. split; [exact Hl|]. projs. unfold upd. rewrite Nat.eqb_refl. split; [congruence|exact E2]. }
  destruct (mtx s) as [m|] eqn:Em.
  - pose proof (HM m) as Hm. unfold nh, own in Hm. rewrite Em, Nat.eqb_refl in Hm. cbn [b2n] in Hm. destruct (Nat.ltb_spec m (nw s)) as [Hmw|Hmw]; cbn [andb b2n] in Hm.
    + assert (Hno : cnt fholds (stk s m) = 0).
      { destruct (stk s m) as [|f l] eqn:E; [reflexivity|]. exfalso. assert (Hne' : stk s m <> []) by (rewrite E; discriminate). pose proof (v_wst _ HV m Hmw Hne') as Hi. destruct (wk s m) eqn:Ep; try discriminate Hi; [specialize (Hrun m id Hmw Ep)|specialize (Hdrop m Hmw Ep)]; congruence. }
      rewrite Hno in Hm. specialize (HS m Hmw). destruct (wk s m) eqn:Ep; cbn in Hm; try lia; try (exfalso; first [congruence|destruct HS; congruence]).
      * eapply (Go m); [exact Hmw|rewrite Ep|eexists; apply w_test; [exact Hmw|exact Ep]|reflexivity|reflexivity]. destruct (shut s); discriminate.
      * eapply (Go m); [exact Hmw|rewrite Ep|eexists; apply w_reg; [exact Hmw|exact Ep]|reflexivity|reflexivity]. discriminate.
      * eapply (Go m); [exact Hmw|rewrite Ep|eexists; eapply w_rel; [exact Hmw|exact Ep]|reflexivity|reflexivity]. discriminate.
      * eapply (Go m); [exact Hmw|rewrite Ep|eexists; eapply w_dereg; [exact Hmw|exact Ep]|reflexivity|reflexivity]. discriminate.
      * eapply (Go m); [exact Hmw|rewrite Ep|eexists; eapply w_drop; [exact Hmw|exact Ep|apply Hdrop; assumption]|reflexivity|reflexivity]. discriminate.
      * eapply (Go m); [exact Hmw|rewrite Ep|eexists; eapply w_quit; [exact Hmw|exact Ep]|reflexivity|reflexivity]. discriminate.
    + exfalso. assert (Hc : 0 < cnt fholds (stk s m)) by lia.
      assert (exists f, In f (stk s m) /\ fholds f = true) as (f & Hf & Hh). { clear - Hc. induction (stk s m) as [|a l IH]; cbn [cnt] in Hc; [lia|]. destruct (fholds a) eqn:E; [exists a; split; [left; reflexivity|exact E]|]. destruct IH as (f & H1 & H2); [cbn in Hc; lia|]. exists f. split; [right; exact H1|exact H2]. }
      destruct (is_dtor f) eqn:Ed; [destruct (Huniq m f Hf Ed) as [_ ->]; discriminate Hh|].
      assert (Ha : accesses f = true) by (destruct f; try discriminate Hh; try discriminate Ed; reflexivity).
      assert (Hcd : In CDrop (stk s m)). { pose proof (v_cov _ HV m Hmw) as Hcov. clear - Hcov Hf Ha. induction (stk s m) as [|a l IH]; [destruct Hf|]. cbn [covered] in Hcov. destruct Hcov as [H1 H2]. destruct Hf as [->|Hf]; [right; apply H1; exact Ha|right; apply IH; assumption]. }
      pose proof (cnt_pos holds_ref _ _ Hcd eq_refl) as Hp. rewrite <- (v_refs _ HV m) in Hp. unfold strong in Hst. destruct (refs s); [cbn in Hp; lia|cbn in Hst; lia].
  - pose proof (free_none s w HM Em Hw) as Hf. specialize (Hb w Hw). destruct (wk s w) eqn:Ep; try discriminate Hf; try discriminate Hb; try congruence.
    + eapply (Go w); [exact Hw|rewrite Ep|eexists; apply w_lock; [exact Hw|left; exact Ep|exact Em]|reflexivity|reflexivity]. discriminate.
    + eapply (Go w); [exact Hw|rewrite Ep|eexists; apply w_call; [exact Hw|exact Ep]|reflexivity|reflexivity]. discriminate.
    + eapply (Go w); [exact Hw|rewrite Ep|eexists; apply w_finish; [exact Hw|exact Ep|eapply Hrun; eassumption]|reflexivity|reflexivity]. discriminate.
    + eapply (Go w); [exact Hw|rewrite Ep|eexists; apply w_done; [exact Hw|exact Ep|exact Em]|reflexivity|reflexivity]. discriminate.
    + eapply (Go w); [exact Hw|rewrite Ep|eexists; apply w_lock; [exact Hw|right; exact Ep|exact Em]|reflexivity|reflexivity]. discriminate.
Qed.
Lemma all_exit_dec s : (forall w, w < nw s -> wk s w = WExit) \/ exists w, w < nw s /\ wk s w <> WExit.
Proof.
  induction (nw s) as [|n IH]; [left; intros; lia|]. destruct IH as [IH|(w & H1 & H2)]; [|right; exists w; split; [lia|exact H2]].
  assert (D : wk s n = WExit \/ wk s n <> WExit) by (destruct (wk s n); first [left; reflexivity|right; discriminate]). destruct D as [D|D].
  - left. intros w Hw. destruct (Nat.eq_dec w n) as [->|]; [exact D|apply IH; lia].
  - right. exists n. split; [lia|exact D].
Qed.
(** The destructor, executed outside of the pool, runs to its end once the tasks that are being executed make no further calls *)
Lemma join_terminates n c s0 tr s t k rest : construct n c = Ok s0 -> exec s0 tr s -> stk s t = DJoin k :: rest -> nw s <= t -> (forall v id, v < nw s -> wk s v = WRun id -> stk s v = []) ->
  exists tr' s', exec s (LFree t :: tr') s' /\ stk s' t = rest.
Proof.
  intros H. remember (left_over s) as m eqn:Em. revert tr s Em k. induction m as [m IH] using lt_wf_ind. intros tr s Em k E Ht Hn Hrun.
  pose proof (good_exec _ _ _ _ _ H E) as HG. destruct (all_exit_dec s) as [Hall|(w & Hw & Hne)].
  - (* all workers have returned *) clear IH Em m Hrun. remember (nw s - k) as j eqn:Ej. revert tr s k E Ht Hn HG Hall Ej. induction j as [|j IH]; intros tr s k E Ht Hn HG Hall Ej.
    + pose proof (d_joined s t k rest Ht ltac:(lia)) as S1. set (s1 := with_stk t (DFree :: rest) s) in *.
      assert (H1 : stk s1 t = DFree :: rest) by (unfold s1; projs; unfold upd; rewrite Nat.eqb_refl; reflexivity). pose proof (d_free s1 t rest H1) as S2. eexists _, _. split; [econstructor; [apply exec_one; exact S1|exact S2]|].
      projs. unfold upd. rewrite Nat.eqb_refl. reflexivity.
    + pose proof (d_join s t k rest Ht ltac:(lia) ltac:(lia) ltac:(apply Hall; lia)) as S1. set (s1 := with_stk t (DJoin (S k) :: rest) s) in *.
      assert (H1 : stk s1 t = DJoin (S k) :: rest) by (unfold s1; projs; unfold upd; rewrite Nat.eqb_refl; reflexivity).
      assert (E1 : exec s0 (LTau :: tr) s1) by (econstructor; eassumption).
      destruct (IH _ s1 (S k) E1 H1 Hn (good_exec _ _ _ _ _ H E1) Hall) as (tr' & s' & E' & Hs'); [unfold s1; projs; lia|]. exists (tr' ++ [LTau]), s'. split; [|exact Hs']. exact (exec_trans _ _ _ _ _ (exec_one _ _ _ S1) E').
  - pose proof (drop_exec _ _ _ _ _ H E) as HD. destruct (join_enabled s t k rest w HG HD Ht Hn Hrun Hw Hne) as (v & l & s1 & Hv & S1 & Hc & Hk).
    assert (HJ : joining s) by (exists t, k; rewrite Ht; left; reflexivity). pose proof (proj2 (join_rank s l s1 HG HJ S1) (ex_intro _ v (conj Hv Hc))) as Hlt.
    destruct (const_step _ _ _ S1) as [En _].
    assert (E1 : exec s0 (l :: tr) s1) by (econstructor; eassumption).
    destruct (IH (left_over s1) ltac:(lia) _ s1 eq_refl k E1) as (tr' & s' & E' & Hs').
    + rewrite Hk. exact Ht.
    + rewrite En. exact Hn.
    + intros u id Hu Hp. rewrite En in Hu. rewrite Hk. destruct (stk s u) eqn:Eu; [reflexivity|]. exfalso.
      assert (in_task (wk s u) = true) as Hi by (apply (v_wst _ (g_inv _ HG) u Hu); rewrite Eu; discriminate).
      destruct (wk s u) eqn:Ep; try discriminate Hi; [specialize (Hrun u id0 Hu Ep); congruence|].
      assert (Hd : is_dtor f = true) by (apply (HD u Hu Ep); rewrite Eu; left; reflexivity). destruct (dtor_unique s t (DJoin k) f rest u (v_dt _ (g_inv _ HG)) Ht eq_refl) as (-> & _ & _); [rewrite Eu; left; reflexivity|exact Hd|lia].
    + exists (tr' ++ [l]), s'. split; [exact (exec_trans _ _ _ _ _ (exec_one _ _ _ S1) E')|exact Hs'].
Qed.
