(** Thread pool: every event is legal. *)
From Coq Require Import ZArith List Bool Lia PeanoNat Permutation.
From Verif Require Import Base PoolModel PoolSpec PoolProofs PoolProofs2 PoolProofs3 PoolProofs4.
Import ListNotations.

(** When some thread holds the mutex with a call frame, the list of running tasks is up to date *)
Lemma frame_no_reg tr s t : inv s -> tinv tr s -> 0 < cnt fholds (stk s t) -> filter (shown s) (active tr) = active tr.
Proof.
  intros HV HT Hc. apply filter_all. intros x Hx. unfold shown. apply negb_true_iff. destruct (is_reg (phase (wk s (fst x)))) eqn:E; [|reflexivity]. exfalso.
  refine (proj2 (holder_excl s (fst x) t (v_mtx _ HV) _ _ Hc)); [apply (i_actw _ _ HT); exact Hx|]. destruct (wk s (fst x)); try discriminate E; reflexivity.
Qed.
Lemma active_in tr s w id : tinv tr s -> w < nw s -> pcur (phase (wk s w)) = Some id -> exists k, In (w, k) (active tr) /\ t_id k = id.
Proof.
  intros HT Hw H. apply (i_act _ _ HT) in H; [|exact Hw]. apply in_map_iff in H. destruct H as ([v k] & E & Hx). cbn in E. injection E as <- <-. exists k. split; [exact Hx|reflexivity].
Qed.
(** A call of get_state() that found the task neither pending nor running *)
Definition over (tr : list label) (id : Z) : Prop := In id (finished tr) \/ In id (dropped tr).
Definition st_ok (tr : list label) (f : frame) : Prop :=
  match f with
  | HWeak (OState id) | CLock (OState id) | CBody (OState id) => In id (ids (added tr))
  | CRel (OState id) (RState TUnknown) | CNote (OState id) (RState TUnknown) | CRet (OState id) (RState TUnknown) | HReady id => over tr id
  | _ => True
  end.
Definition state_ok (tr : list label) (s : st) : Prop := forall t f, In f (stk s t) -> st_ok tr f.
Lemma over_mono l tr id : over tr id -> over (l :: tr) id.
Proof. unfold over. intros [H|H]; [left|right]; destruct l; cbn [finished dropped In]; try tauto; try (apply in_or_app; tauto). destruct b; cbn [In]; tauto. Qed.
Lemma added_incl l tr id : In id (ids (added tr)) -> In id (ids (added (l :: tr))).
Proof. intros H. destruct l; cbn [added]; try exact H. unfold ids. rewrite map_app. apply in_or_app. left. exact H. Qed.
Lemma st_mono l tr f : st_ok tr f -> st_ok (l :: tr) f.
Proof.
  destruct f; cbn [st_ok]; try tauto; try (destruct o; try tauto; try apply added_incl); try (destruct r; try tauto; destruct x; try tauto); apply over_mono.
Qed.
Lemma over_cases tr s id : tinv tr s -> In id (ids (added tr)) -> ~ In id (ids (queue tr)) -> ~ In id (map aid (active tr)) -> over tr id.
Proof.
  intros HT Hi Hq Ha. apply (Permutation_in _ (Permutation_sym (i_acc _ _ HT))) in Hi. apply in_app_or in Hi. destruct Hi as [Hi|Hi]; [contradiction|]. apply in_app_or in Hi. destruct Hi as [Hi|Hi]; [|right; exact Hi].
  left. destruct (i_done _ _ HT id Hi); [contradiction|assumption].
Qed.
Lemma state_step tr s l s' : step s l s' -> inv s -> tinv tr s -> state_ok tr s -> state_ok (l :: tr) s'.
Proof.
  intros Hs HV HT HS th f. destruct Hs; try body_facts; unfold release, disown; projs; unfold upd; try rewrite B10.
  all: try (intros Hf; apply st_mono; eapply HS; exact Hf).
  all: repeat match goal with |- context [Nat.eqb ?a ?b] => destruct (Nat.eqb_spec a b); [subst|] end; try (intros Hf; apply st_mono; eapply HS; exact Hf).
  all: try (match goal with E : stk ?ss ?t = _ |- _ => pose proof (HS t) as HSt; rewrite E in HSt end).
  all: cbn [In]; intros Hf; repeat match goal with H : _ \/ _ |- _ => destruct H end; subst; try contradiction; try exact I.
  all: try (apply st_mono; eapply HS; eassumption); try (apply st_mono; apply HSt; right; assumption).
  all: try (apply st_mono; apply HSt; assumption).
  - destruct o; try exact I. discriminate.
  - destruct o; try exact I. discriminate.
  - apply st_mono. exact (HSt _ (or_introl eq_refl)).
  - (* body *) destruct o; try exact I. pose proof (HSt _ (or_introl eq_refl)) as Hi. cbn [st_ok] in Hi. cbn [body] in H1. injection H1 as <- <- <-.
    assert (Hnr : filter (shown s) (active tr) = active tr) by (eapply (frame_no_reg tr s t HV HT); rewrite H; cbn; lia).
    pose proof (i_rids _ _ HT) as Hri. rewrite Hnr in Hri. rewrite (i_pend _ _ HT). rewrite Hri.
    destruct (existsb (Z.eqb id) (map aid (active tr))) eqn:E1; [exact I|]. destruct (existsb (Z.eqb id) (ids (queue tr))) eqn:E2; [exact I|]. cbn [st_ok]. apply over_mono.
    eapply over_cases; [exact HT|exact Hi| |]; intros Hx; apply existsb_in in Hx; congruence.
  - pose proof (HSt _ (or_introl eq_refl)) as Hi. apply st_mono. destruct r; try exact I; destruct o; try exact I; exact Hi.
  - apply st_mono. exact (HSt _ (or_introl eq_refl)).
  - apply st_mono. exact (HSt _ (or_introl eq_refl)).
  - apply st_mono. pose proof (HSt _ (or_introl eq_refl)) as Hi. destruct x; try (apply HSt; right; exact Hf). apply in_app_or in Hf. destruct Hf as [Hf|[<-|[]]]; [apply HSt; right; exact Hf|exact Hi].
  - apply st_mono. cbn [st_ok]. apply (ids_bound _ _ HT). assumption.
  - apply st_mono. pose proof (HSt _ (or_introl eq_refl)) as Hi. destruct o; try exact I; exact Hi.
Qed.
Lemma state_exec n c s0 tr s : construct n c = Ok s0 -> exec s0 tr s -> (Z.of_nat (length (added tr)) < id_mod)%Z -> state_ok tr s.
Proof.
  intros H E. induction E as [|tr s l s' E IH Hs]; intros Hb; [destruct (construct_ok _ _ _ H) as (_ & _ & ->); intros t f []|].
  pose proof (added_mono l tr). eapply state_step; [exact Hs|eapply inv_exec; eassumption|eapply tinv_exec; [exact H|exact E|lia]|apply IH; lia].
Qed.
Lemma fut_over tr s id : tinv tr s -> In id (ids (added tr)) -> (fut s id = FReady -> In id (finished tr)) /\ (fut s id = FBroken -> In id (dropped tr)) /\ (fut s id = FNone -> ~ In id (finished tr) /\ ~ In id (dropped tr)).
Proof.
  intros HT Hi. destruct (i_fut _ _ HT id Hi) as (H1 & H2 & H3). destruct (in_dec Z.eq_dec id (finished tr)) as [F|F]; [rewrite (H1 F); split; [tauto|split; discriminate]|].
  destruct (in_dec Z.eq_dec id (dropped tr)) as [D|D]; [rewrite (H2 D); split; [discriminate|split; [tauto|discriminate]]|]. rewrite (H3 F D). split; [discriminate|split; [discriminate|tauto]].
Qed.
Lemma over_ready tr s id : tinv tr s -> In id (ids (added tr)) -> over tr id -> match fut s id with FNone => false | _ => true end = true.
Proof. intros HT Hi [H|H]; destruct (i_fut _ _ HT id Hi) as (H1 & H2 & _); [rewrite (H1 H)|rewrite (H2 H)]; reflexivity. Qed.
Lemma over_added tr s id : tinv tr s -> over tr id -> In id (ids (added tr)).
Proof.
  intros HT H. eapply Permutation_in; [apply (i_acc _ _ HT)|]. apply in_or_app. right. apply in_or_app. destruct H as [H|H]; [left; apply (i_start _ _ HT), (i_fin _ _ HT); exact H|right; exact H].
Qed.
(** While a worker that looked at the clock goes on to take a task, the queue does not change *)
Lemma take_stable s l s' v j z : inv s -> step s l s' -> v < nw s -> wk s' v = WTake j z -> (wk s v = WTake j z \/ z = clock s) /\ pending s' = pending s.
Proof.
  intros HV Hs Hv Hz.
  assert (Hex : forall t f rest, stk s t = f :: rest -> fholds f = true -> wk s v = WTake j z -> False).
  { intros t f rest Hk Hf Hp. refine (proj2 (holder_excl s v t (v_mtx _ HV) Hv ltac:(rewrite Hp; reflexivity) _)). rewrite Hk. cbn [cnt]. rewrite Hf. cbn. lia. }
  destruct Hs; try body_facts.
  all: try (unfold release, disown in *; projs; unfold upd in Hz; repeat match type of Hz with context [Nat.eqb ?a ?b] => destruct (Nat.eqb_spec a b); [subst|] end; try discriminate Hz; (split; [tauto|reflexivity]); fail).
  - projs. unfold upd in Hz. destruct (Nat.eqb v w); [destruct (shut s); discriminate|split; [tauto|reflexivity]].
  - projs. unfold upd in Hz. destruct (Nat.eqb_spec v w); [|split; [tauto|reflexivity]]. destruct (find_ready _ _); [|discriminate]. injection Hz as _ <-. split; [tauto|reflexivity].
  - projs. unfold upd in Hz. destruct (Nat.eqb_spec v w); [discriminate|]. exfalso. apply n. eapply holder_one; [apply (v_mtx _ HV)|exact H|exact Hv|rewrite H0; reflexivity|rewrite Hz; reflexivity].
  - projs. exfalso. eapply Hex; [eassumption|reflexivity|exact Hz].
  - projs. rewrite B9 in Hz. exfalso. eapply Hex; [eassumption|reflexivity|exact Hz].
  - projs. unfold wake_all in Hz. destruct (wk s v) eqn:Ep; try discriminate Hz; (split; [tauto|reflexivity]).
  - projs. destruct (v_join _ HV) as (_ & J2 & _). exfalso. assert (He : wk s v = WExit) by (apply (J2 t); [rewrite H; left; reflexivity|exact Hv|exact Hv]). congruence.
Qed.
(** the clock was read when the queue was what it is now *)
Definition read_ok (tr : list label) (s : st) : Prop :=
  forall w i now, w < nw s -> wk s w = WTake i now -> exists tr1 tr2, tr = tr1 ++ tr2 /\ clock_of tr2 = now /\ queue tr2 = queue tr.
Lemma read_exec n c s0 tr s : construct n c = Ok s0 -> exec s0 tr s -> (Z.of_nat (length (added tr)) < id_mod)%Z -> read_ok tr s.
Proof.
  intros H E. induction E as [|tr s l s' E IH Hs]; intros Hb w i now Hw Hp.
  - destruct (construct_ok _ _ _ H) as (_ & _ & ->). discriminate Hp.
  - pose proof (added_mono l tr) as Ha. assert (Hb' : (Z.of_nat (length (added tr)) < id_mod)%Z) by lia. specialize (IH Hb').
    destruct (exit_stable _ _ _ Hs) as [En _]. rewrite En in Hw. destruct (take_stable s l s' w i now (inv_exec _ _ _ _ _ H E) Hs Hw Hp) as [Hor Hpe].
    assert (Hq : queue (l :: tr) = queue tr). { rewrite <- (i_pend _ _ (tinv_exec _ _ _ _ _ H E Hb')), <- (i_pend _ _ (tinv_exec _ _ _ _ _ H (exec_step _ _ _ _ _ E Hs) Hb)). exact Hpe. }
    destruct Hor as [Ho| ->].
    + destruct (IH w i now Hw Ho) as (tr1 & tr2 & E1 & E2 & E3). exists (l :: tr1), tr2. rewrite Hq. split; [rewrite E1; reflexivity|]. split; assumption.
    + exists [l], tr. split; [reflexivity|]. split; [symmetry; apply (clk_exec _ _ _ _ _ H E)|symmetry; exact Hq].
Qed.
Lemma legal_step n c tr s l s' : step s l s' -> good s -> tinv tr s -> call_ok tr s -> cap_ok s -> hand_ok tr s -> read_ok tr s -> state_ok tr s -> nw s = n -> cap s = c -> legal n c tr l.
Proof.
  intros Hs HG HT HC HP HH HK HST En Ec. pose proof (g_inv _ HG) as HV. pose proof (i_pend _ _ HT) as Hpe. pose proof (v_scan _ HV) as HS. pose proof (i_shut _ _ HT) as Hsh.
  destruct Hs; try exact I; cbn [legal].
  - (* wait *) specialize (HS w H). rewrite H0 in HS. rewrite <- Hpe, <- Hsh. tauto.
  - (* timed *) specialize (HS w H). rewrite H0 in HS. rewrite <- Hpe, <- Hsh. destruct HS as (S1 & -> & S2). destruct (min_start_in _ S2) as (k & Hk & E). split; [exists k; split; [exact Hk|congruence]|]. split; [|exact S1]. intros. apply min_start_le. assumption.
  - (* take *) specialize (HS w H). rewrite H0 in HS. destruct HS as [S1 S2]. rewrite <- Hpe, <- Hsh, <- En. split; [exact H|]. split; [exact S1|]. split.
    { intros k' Hk'. pose proof (act_fst _ _ w (w, k') HT Hk' eq_refl) as Hx. rewrite H0 in Hx. discriminate Hx. }
    split.
    { exists (firstn i (pending s)), k, (skipn (S i) (pending s)). destruct (find_ready_spec _ _ _ _ S2 H1) as [F1 F2]. split; [apply nth_split; exact H1|]. tauto. }
    destruct (HK _ _ _ H H0) as (ta & tb & Ea & Eb & Eq). exists ta, tb. rewrite Eq, ?Hpe. tauto.
  - (* start *) split; [eapply active_in; [exact HT|exact H|rewrite H0; reflexivity]|]. intros Hi. apply (proj2 (proj2 (i_start _ _ HT)) w id H) in Hi; rewrite H0 in *; [discriminate Hi|reflexivity].
  - split; [eapply active_in; [exact HT|exact H|rewrite H0; reflexivity]|]. split.
    + apply (proj2 (proj2 (i_start _ _ HT)) w id H); rewrite H0; reflexivity.
    + intros Hi. apply (proj2 (proj2 (i_fin _ _ HT)) w id H) in Hi; rewrite H0 in *; [discriminate Hi|reflexivity].
  - split; [eapply active_in; [exact HT|exact H|rewrite H0; reflexivity]|]. apply (proj2 (proj2 (i_fin _ _ HT)) w id H); rewrite H0; reflexivity.
  - (* full *) cbn [answer]. rewrite <- Hpe, <- Ec. exact H0.
  - (* push *) subst k. cbn. rewrite <- Hpe, <- Ec, <- (i_next _ _ HT). split; [|reflexivity]. destruct HP as [_ HP]. apply (HP t (CPush start name)); [rewrite H; left; reflexivity|reflexivity].
  - (* body *)
    assert (Hnr : filter (shown s) (active tr) = active tr) by (eapply (frame_no_reg tr s t HV HT); rewrite H; cbn; lia).
    pose proof (i_rids _ _ HT) as Hri. pose proof (i_rnames _ _ HT) as Hrn. rewrite Hnr in *. pose proof (acc_nodup _ _ HT) as Hnd.
    destruct o; cbn [body] in H1; [exfalso; eapply H0; reflexivity|..].
    + destruct (index_of id (ids (pending s))) as [i|] eqn:Ei; injection H1 as <- <- <-; cbn [legal].
      * destruct (index_of_some _ _ _ Ei) as (k & Hk & <-). split; [intros _|reflexivity]. rewrite <- Hpe. apply in_map. eapply nth_error_In. exact Hk.
      * split; [discriminate|]. intros Hi. rewrite <- Hpe in Hi. exfalso. exact (index_of_none _ _ Ei Hi).
    + injection H1 as <- <- <-. cbn [legal]. rewrite Hpe. reflexivity.
    + injection H1 as <- <- <-. cbn. rewrite Hpe. reflexivity.
    + injection H1 as <- <- <-. cbn. rewrite Hpe, <- Ec. apply Nat.leb_le.
    + injection H1 as <- <- <-. cbn. rewrite Hpe, Hri. destruct (queue tr), (active tr); cbn; split; intros; try discriminate; try tauto; destruct H1; discriminate.
    + injection H1 as <- <- <-. cbn [legal answer]. rewrite Hpe, Hri. change (map aid (active tr)) with (aids tr). destruct (existsb (Z.eqb id) (aids tr)) eqn:E1.
      * apply existsb_in in E1. right; left. tauto.
      * destruct (existsb (Z.eqb id) (ids (queue tr))) eqn:E2; [apply existsb_in in E2; left; tauto|]. right; right. split; [reflexivity|]. split; intros Hi; apply existsb_in in Hi; congruence.
    + injection H1 as <- <- <-. cbn. exact Hsh.
    + injection H1 as <- <- <-. cbn. rewrite Hpe. reflexivity.
    + injection H1 as <- <- <-. cbn. exact Hrn.
  - (* ret *) right. destruct (HC t) as [_ C2]. specialize (C2 (CRet o r)). rewrite H in C2. specialize (C2 (or_introl eq_refl)). cbn in C2. tauto.
  - (* ret_state *) destruct (HC t) as [_ C2]. specialize (C2 (CRet (OState id) (RState x))). rewrite H in C2. specialize (C2 (or_introl eq_refl)). cbn in C2. destruct C2 as (C2 & C3 & C4).
    specialize (C4 id eq_refl). destruct x; try exact I; try (split; [exact C2|exact C3]); destruct C4 as [C4|[C4|C4]]; discriminate C4.
  - left. reflexivity.
  - (* h_ready *) destruct (HC t) as [_ C2]. specialize (C2 (HReady id)). rewrite H in C2. specialize (C2 (or_introl eq_refl)). cbn in C2. destruct C2 as [C2 C3]. split; [exact C2|].
    pose proof (HST t (HReady id)) as Ho. rewrite H in Ho. specialize (Ho (or_introl eq_refl)). cbn [st_ok] in Ho. pose proof (over_added _ _ _ HT Ho) as Hi.
    rewrite (over_ready _ _ _ HT Hi Ho). destruct (valid s id) eqn:Ev; cbn [andb]; split; try exact C3; [exact Ho|]. exact (h_val _ _ HH id Hi Ev).
  - (* complete *) assert (Hi : In id (ids (added tr))) by (apply (ids_bound _ _ HT); assumption). destruct (fut_over _ _ _ HT Hi) as (F1 & F2 & F3). destruct (valid s id) eqn:Ev; cbn [andb].
    + destruct (fut s id); tauto.
    + left. exact (h_val _ _ HH id Hi Ev).
  - (* result *) assert (Hi : In id (ids (added tr))) by (apply (ids_bound _ _ HT); assumption). destruct (fut_over _ _ _ HT Hi) as (F1 & F2 & F3). split.
    + destruct (fut s id); [congruence|left; tauto|right; tauto].
    + intros t' r' Hr. destruct (h_res _ _ HH t' id r' Hr) as [E _]. congruence.
  - (* shutdown *) rewrite <- Hsh. destruct (shut s) eqn:E; [|reflexivity]. exfalso. destruct (g_shut _ HG) as (_ & _ & _ & S4 & _). destruct (S4 E) as [Hf|(t' & f & Hf & Hp)].
    + destruct (v_dt _ HV) as (d & D1 & D2). specialize (D1 t). rewrite H in D1. cbn [cnt is_dtor b2n] in D1. destruct d; [destruct D2; congruence|cbn in D1; lia].
    + destruct (dtor_unique s t DSet f rest t' (v_dt _ HV) H eq_refl Hf) as (_ & -> & _); [destruct f; try discriminate Hp; reflexivity|discriminate Hp].
  - (* free *) destruct (active tr) as [|[w k] A] eqn:EA; [reflexivity|]. exfalso. assert (Hin : In (w, k) (active tr)) by (rewrite EA; left; reflexivity).
    destruct (i_actw _ _ HT _ Hin) as (W1 & _ & _). destruct (v_join _ HV) as (_ & J2 & _). pose proof (act_fst _ _ w (w, k) HT Hin eq_refl) as Hx.
    rewrite (J2 t) in Hx; [discriminate Hx|rewrite H; left; reflexivity|exact W1|exact W1].
Qed.
(** Every event of every execution is legal *)
Lemma legal_exec n c s0 tr l s : construct n c = Ok s0 -> exec s0 (l :: tr) s -> (Z.of_nat (length (added tr)) < id_mod)%Z -> legal n c tr l.
Proof.
  intros H E Hb. inversion E as [|tr' s1 l' s' E1 Hs]; subst. destruct (const_exec _ _ _ _ _ H E1) as [En Ec].
  eapply legal_step; [exact Hs|eapply good_exec; eassumption|eapply tinv_exec; eassumption|eapply call_exec; eassumption|eapply cap_exec; eassumption|eapply hand_exec; eassumption|eapply read_exec; eassumption|eapply state_exec; eassumption|exact En|exact Ec].
Qed.
