(** Thread pool: wake-ups, shutdown and memory safety. *)
From Coq Require Import ZArith List Bool Lia PeanoNat Permutation.
From Verif Require Import Base PoolModel PoolSpec PoolProofs PoolProofs2.
Import ListNotations.

(** * Earliest start time *)
Lemma min_start_le l k : In k l -> (min_start l <= t_start k)%Z.
Proof.
  induction l as [|a l IH]; [intros []|]. intros [->|H].
  - cbn [min_start]. destruct l; lia.
  - specialize (IH H). cbn [min_start]. destruct l; [destruct H|lia].
Qed.
Lemma min_start_in l : l <> [] -> exists k, In k l /\ min_start l = t_start k.
Proof.
  induction l as [|a l IH]; [congruence|]. intros _. destruct l as [|b l]; [exists a; split; [left; reflexivity|reflexivity]|].
  destruct IH as (k & Hk & E); [discriminate|]. change (min_start (a :: b :: l)) with (Z.min (t_start a) (min_start (b :: l))).
  destruct (Z.min_spec (t_start a) (min_start (b :: l))) as [[_ ->]|[_ ->]]; [exists a; split; [left|]; reflexivity|]. exists k. split; [right; exact Hk|exact E].
Qed.
Lemma min_start_sub l l' : l' <> [] -> incl l' l -> (min_start l <= min_start l')%Z.
Proof. intros H Hi. destruct (min_start_in l' H) as (k & Hk & ->). apply min_start_le. apply Hi. exact Hk. Qed.
Lemma remove_nth_incl {A} i (l : list A) : incl (remove_nth i l) l.
Proof.
  unfold remove_nth. intros x Hx. apply in_app_or in Hx. destruct Hx as [Hx|Hx]; [rewrite <- (firstn_skipn i l)|rewrite <- (firstn_skipn (S i) l)]; apply in_or_app; [left|right]; exact Hx.
Qed.

(** * Wake-ups *)
Definition exit_ok (s : st) : Prop := forall w, w < nw s -> wk s w = WQuit \/ wk s w = WExit -> shut s = true.
Lemma exit_ok_step s l s' : step s l s' -> exit_ok s -> exit_ok s'.
Proof.
  intros Hs HI th Hth He. destruct Hs; try body_facts; unfold release, disown in *; projs.
  all: try rewrite B9 in He; try rewrite B6; try rewrite B1 in Hth; try reflexivity.
  all: try (exact (HI th Hth He)).
  all: unfold upd in *; repeat match goal with H : context [Nat.eqb ?a ?b] |- _ => destruct (Nat.eqb_spec a b); [subst|] end.
  all: try (exact (HI th Hth He)); try (destruct He; discriminate).
  - destruct (shut s); [reflexivity|destruct He; discriminate].
  - destruct (find_ready _ _); destruct He; discriminate.
  - apply (HI w H). left. exact H0.
  - apply (HI th Hth). unfold wake_all in He. destruct (wk s th); try tauto; destruct He; discriminate.
Qed.
Definition no_sleep (s : st) : Prop :=
  (exists w, w < nw s /\ is_blocked (wk s w) = false) \/
  (exists t f, In f (stk s t) /\ notifying f = true) \/
  (exists w d, w < nw s /\ wk s w = WWait (Some d) /\ (d <= min_start (pending s))%Z).
Definition wake_ok (s : st) : Prop := pending s <> [] -> shut s = false -> no_sleep s.
Lemma blocked_wake f w : is_blocked (wake_all f w) = false.
Proof. unfold wake_all. destruct (f w) eqn:E; reflexivity. Qed.
(** a step that keeps every notification and does not put a worker to sleep *)
Lemma no_sleep_mono s s' : nw s' = nw s -> (forall w, w < nw s -> is_blocked (wk s w) = false -> is_blocked (wk s' w) = false) ->
  (forall w, w < nw s -> wk s' w = wk s w \/ is_blocked (wk s' w) = false) ->
  (forall t f, In f (stk s t) -> notifying f = true -> exists f', In f' (stk s' t) /\ notifying f' = true) ->
  (min_start (pending s) <= min_start (pending s'))%Z -> no_sleep s -> no_sleep s'.
Proof.
  intros En Hb Hw Hf Hm [(w & H1 & H2)|[(t & f & H1 & H2)|(w & d & H1 & H2 & H3)]].
  - left. exists w. rewrite En. split; [exact H1|apply Hb; assumption].
  - right; left. destruct (Hf t f H1 H2) as (f' & H3 & H4). exists t, f'. tauto.
  - destruct (Hw w H1) as [E|E].
    + right; right. exists w, d. rewrite En. split; [exact H1|]. split; [congruence|lia].
    + left. exists w. rewrite En. tauto.
Qed.
Lemma wake_step s l s' : 0 < nw s -> step s l s' -> inv s -> exit_ok s -> wake_ok s -> wake_ok s'.
Proof.
  intros Hnw Hs HV HX HI Hpe Hsh. pose proof (v_join _ HV) as HJ. pose proof (v_scan _ HV) as HSc.
  assert (HF : forall t f rest f', stk s t = f :: rest -> (notifying f = true -> notifying f' = true) -> forall t0 g, In g (stk s t0) -> notifying g = true -> exists g', In g' (if Nat.eqb t0 t then f' :: rest else stk s t0) /\ notifying g' = true).
  { intros t f rest f' E Hff t0 g Hg Hn. destruct (Nat.eqb_spec t0 t) as [->|]; [|exists g; tauto]. rewrite E in Hg. destruct Hg as [->|Hg]; [exists f'; split; [left; reflexivity|exact (Hff Hn)]|exists g; split; [right; exact Hg|exact Hn]]. }
  assert (HF2 : forall t f rest, stk s t = f :: rest -> notifying f = false -> forall t0 g, In g (stk s t0) -> notifying g = true -> exists g', In g' (if Nat.eqb t0 t then rest else stk s t0) /\ notifying g' = true).
  { intros t f rest E Hff t0 g Hg Hn. destruct (Nat.eqb_spec t0 t) as [->|]; [|exists g; tauto]. rewrite E in Hg. destruct Hg as [->|Hg]; [congruence|exists g; tauto]. }
  destruct Hs; try body_facts; unfold release, disown in *; projs.
  all: try (apply (no_sleep_mono s); [reflexivity|..|apply HI; assumption]; unfold release, disown; projs; unfold upd; try (intros; first [left; reflexivity|assumption]); try apply Z.le_refl;
    try (intros v Hv; match goal with |- context [Nat.eqb ?a ?b] => destruct (Nat.eqb_spec a b) end; [subst; first [right; reflexivity|reflexivity]|first [left; reflexivity|tauto]]);
    try (intros; eexists; split; eassumption);
    try (eapply HF; [eassumption|cbn; try discriminate; try tauto]); try (eapply HF2; [eassumption|reflexivity]); fail).
  - (* test *) apply (no_sleep_mono s); [reflexivity|..|apply HI; assumption]; projs; unfold upd; try apply Z.le_refl.
    + intros v Hv. destruct (Nat.eqb_spec v w); [destruct (shut s); reflexivity|tauto].
    + intros v Hv. destruct (Nat.eqb_spec v w); [right; destruct (shut s); reflexivity|tauto].
    + intros; eexists; split; eassumption.
  - (* wait *) congruence.
  - (* look *) apply (no_sleep_mono s); [reflexivity|..|apply HI; assumption]; projs; unfold upd; try apply Z.le_refl.
    + intros v Hv. destruct (Nat.eqb_spec v w); [destruct (find_ready _ _); reflexivity|tauto].
    + intros v Hv. destruct (Nat.eqb_spec v w); [right; destruct (find_ready _ _); reflexivity|tauto].
    + intros; eexists; split; eassumption.
  - (* timed *) right; right. exists w, d. projs. split; [assumption|]. unfold upd. rewrite Nat.eqb_refl. split; [reflexivity|]. specialize (HSc w H). rewrite H0 in HSc. destruct HSc as (_ & -> & _). lia.
  - (* take *) left. exists w. projs. unfold upd. rewrite Nat.eqb_refl. split; [assumption|reflexivity].
  - (* drop owner *) apply (no_sleep_mono s); [reflexivity|..|apply HI; assumption]; projs; unfold upd; try apply Z.le_refl; try tauto.
    intros v f Hf Hn. destruct (Nat.eqb_spec v w); [subst; rewrite H1 in Hf; destruct Hf|eexists; split; eassumption].
  - (* call *) apply (no_sleep_mono s); [reflexivity|..|apply HI; assumption]; projs; unfold upd; try apply Z.le_refl; try tauto.
    intros v f Hf Hn. destruct (Nat.eqb_spec v t); [subst; rewrite H0 in Hf; destruct Hf|eexists; split; eassumption].
  - apply (no_sleep_mono s); [reflexivity|..|apply HI; assumption]; projs; unfold upd; try apply Z.le_refl; try tauto.
    intros v f Hf Hn. destruct (Nat.eqb_spec v t); [subst; rewrite H1 in Hf; destruct Hf|eexists; split; eassumption].
  - (* unshare *) apply (no_sleep_mono s); [reflexivity|..|apply HI; assumption]; projs; unfold upd; try apply Z.le_refl; try tauto.
    destruct (Nat.eqb (strong _) 0); [|eapply HF; [eassumption|discriminate]].
    intros v g Hg Hn. destruct (Nat.eqb_spec v t); [subst|eexists; split; eassumption]. rewrite H in Hg. destruct Hg as [<-|Hg]; [discriminate Hn|]. exists g. split; [right; right; exact Hg|exact Hn].
  - (* push *) right; left. exists t, (CRel (OAdd start name) (RId (next s))). projs. unfold upd. rewrite Nat.eqb_refl. split; [left; reflexivity|reflexivity].
  - (* body *)
    assert (Hm : (min_start (pending s) <= min_start (pending s'))%Z /\ (pending s' <> [] -> pending s <> [])).
    { destruct o; cbn [body] in H1; try (destruct (index_of _ _) as [i|]); injection H1 as <- <- <-; projs; try (split; [apply Z.le_refl|tauto]).
      - split; [apply min_start_sub; [exact Hpe|apply remove_nth_incl]|]. intros H1 E. rewrite E in H1. destruct i; apply H1; reflexivity.
      - congruence. }
    apply (no_sleep_mono s); [exact B1|..|apply HI; [apply Hm; exact Hpe|congruence]]; projs; unfold upd; rewrite ?B9, ?B10; try tauto.
    intros v g Hg Hn. eapply HF; [exact H|intros; discriminate|eassumption|eassumption].
  - (* rel *) apply (no_sleep_mono s); [reflexivity|..|apply HI; assumption]; projs; unfold upd; try apply Z.le_refl; try tauto.
    eapply HF; [eassumption|]. destruct r; cbn; try discriminate; tauto.
  - (* drop owner *) apply (no_sleep_mono s); [reflexivity|..|apply HI; assumption]; projs; unfold upd; try apply Z.le_refl; try tauto.
    intros v f Hf Hn. destruct (Nat.eqb_spec v t); [subst|eexists; split; eassumption]. exists f. split; [destruct (Nat.eqb _ 0); [right|]; exact Hf|exact Hn].
  - (* note none *) left. exists 0. projs. split; [assumption|]. apply H0. assumption.
  - (* note *) left. exists w. projs. split; [assumption|]. unfold upd. rewrite Nat.eqb_refl. reflexivity.
  - (* ret_state *) apply (no_sleep_mono s); [reflexivity|..|apply HI; assumption]; projs; unfold upd; try apply Z.le_refl; try tauto.
    intros v g Hg Hn. destruct (Nat.eqb_spec v t); [subst|eexists; split; eassumption]. rewrite H in Hg. destruct Hg as [<-|Hg]; [discriminate Hn|]. exists g. split; [|exact Hn].
    destruct x; try exact Hg. apply in_or_app. left. exact Hg.
  - (* drop *) apply (no_sleep_mono s); [reflexivity|..|apply HI; assumption]; projs; unfold upd; try apply Z.le_refl; try tauto.
    destruct (Nat.eqb (strong _) 0); [eapply HF; [eassumption|discriminate]|eapply HF2; [eassumption|reflexivity]].
  - (* own_drop *) apply (no_sleep_mono s); [reflexivity|..|apply HI; assumption]; projs; unfold upd; try apply Z.le_refl; try tauto.
    intros v f Hf Hn. destruct (Nat.eqb_spec v t); [subst; rewrite H0 in Hf; destruct Hf|eexists; split; eassumption].
  - apply (no_sleep_mono s); [reflexivity|..|apply HI; assumption]; projs; unfold upd; try apply Z.le_refl; try tauto.
    intros v f Hf Hn. destruct (Nat.eqb_spec v t); [subst; rewrite H0 in Hf; destruct Hf|eexists; split; eassumption].
  - apply (no_sleep_mono s); [reflexivity|..|apply HI; assumption]; projs; unfold upd; try apply Z.le_refl; try tauto.
    intros v f Hf Hn. destruct (Nat.eqb_spec v t); [subst; rewrite H0 in Hf; destruct Hf|eexists; split; eassumption].
  - (* h_lock *) apply (no_sleep_mono s); [reflexivity|..|apply HI; assumption]; projs; unfold upd; try apply Z.le_refl; try tauto.
    intros v g Hg Hn. destruct (Nat.eqb_spec v t); [subst|eexists; split; eassumption]. rewrite H in Hg. destruct Hg as [<-|Hg]; [discriminate Hn|]. exists g. split; [right; right; exact Hg|exact Hn].
  - discriminate Hsh.
  - (* d_note *) left. exists 0. projs. split; [assumption|]. apply blocked_wake.
  - congruence.
Qed.

(** * Shutdown *)
Definition past_set (f : frame) : bool := match f with DRel | DNote | DJoin _ | DFree | DTerm => true | _ => false end.
Definition past_note (f : frame) : bool := match f with DJoin _ | DFree | DTerm => true | _ => false end.
Definition shut_ok (s : st) : Prop :=
  (forall t f, In f (stk s t) -> past_set f = true -> shut s = true) /\
  (forall t f, In f (stk s t) -> past_note f = true -> forall w, w < nw s -> is_blocked (wk s w) = false) /\
  (freed s = true -> shut s = true) /\
  (shut s = true -> freed s = true \/ exists t f, In f (stk s t) /\ past_set f = true) /\
  (forall w, w < nw s -> shut s = true -> is_blocked (wk s w) = true -> exists t f, In f (stk s t) /\ past_set f = true /\ past_note f = false).
Lemma dtor_unique s t f g rest t' : dt_ok s -> stk s t = f :: rest -> is_dtor f = true -> In g (stk s t') -> is_dtor g = true -> t' = t /\ g = f /\ ~ In g rest.
Proof.
  intros (d & H1 & _) Hs Hf Hg Hd. pose proof (H1 t) as Ht. rewrite Hs in Ht. cbn [cnt] in Ht. rewrite Hf in Ht. cbn [b2n] in Ht.
  unfold own in *. destruct d as [d|]; [|lia]. destruct (Nat.eqb_spec t d); [|cbn in Ht; lia]. subst d. cbn in Ht.
  assert (Hc : forall l, In g l -> 0 < cnt is_dtor l). { induction l as [|a l IH]; [intros []|]. cbn [cnt]. intros [->|H]; [rewrite Hd; cbn; lia|specialize (IH H); lia]. }
  specialize (H1 t'). pose proof (Hc _ Hg). destruct (Nat.eqb_spec t' t); [subst t'|cbn in H1; lia].
  rewrite Hs in Hg. destruct Hg as [->|Hg]; [|specialize (Hc _ Hg); lia]. split; [reflexivity|]. split; [reflexivity|]. intros Hi. specialize (Hc _ Hi). lia.
Qed.
Lemma shut_frame s s' : shut_ok s -> nw s' = nw s -> shut s' = shut s -> freed s' = freed s ->
  (forall t f, past_set f = true -> (In f (stk s' t) <-> In f (stk s t))) ->
  (forall w, w < nw s -> is_blocked (wk s' w) = true -> is_blocked (wk s w) = true \/ shut s = false) -> shut_ok s'.
Proof.
  intros (S1 & S2 & S3 & S4 & S5) En Es Ef Hk Hb. unfold shut_ok. rewrite En, Es, Ef. split; [|split; [|split; [|split]]].
  - intros t f Hf Hp. apply (S1 t f); [apply Hk; assumption|exact Hp].
  - intros t f Hf Hp w Hw. assert (Hp' : past_set f = true) by (destruct f; try discriminate Hp; reflexivity). apply Hk in Hf; [|exact Hp'].
    destruct (is_blocked (wk s' w)) eqn:E; [|reflexivity]. destruct (Hb w Hw E) as [E'|E']; [rewrite (S2 t f Hf Hp w Hw) in E'; discriminate|]. rewrite (S1 t f Hf Hp') in E'. discriminate.
  - exact S3.
  - intros H. destruct (S4 H) as [H'|(t & f & H1 & H2)]; [left; exact H'|]. right. exists t, f. split; [apply Hk; assumption|exact H2].
  - intros w Hw H E. destruct (Hb w Hw E) as [E'|E']; [|congruence]. destruct (S5 w Hw H E') as (t & f & H1 & H2 & H3). exists t, f. split; [apply Hk; assumption|tauto].
Qed.
Lemma shut_step s l s' : step s l s' -> inv s -> shut_ok s -> shut_ok s'.
Proof.
  intros Hs HV HI. pose proof (v_scan _ HV) as HSc. pose proof (v_dt _ HV) as HD.
  destruct Hs; try body_facts.
  all: try (apply (shut_frame s); [exact HI|unfold release, disown; projs; first [reflexivity|assumption]..| |]; unfold release, disown; projs;
    [intros v g Hg; unfold upd; try rewrite B10; repeat match goal with |- context [Nat.eqb ?a ?b] => destruct (Nat.eqb_spec a b); [subst|] end; use_eqs; try tauto;
      rewrite ?in_app_iff; cbn [In]; try (destruct r); intuition (subst; try discriminate; try contradiction)
    |intros v Hv; unfold upd; try rewrite B9; repeat match goal with |- context [Nat.eqb ?a ?b] => destruct (Nat.eqb_spec a b); [subst|] end; use_eqs; try tauto; try discriminate]; fail).
  - (* test *) apply (shut_frame s); [exact HI|projs; reflexivity..|projs; tauto|projs]. intros v Hv. unfold upd. destruct (Nat.eqb v w); [destruct (shut s); discriminate|tauto].
  - apply (shut_frame s); [exact HI|projs; reflexivity..|projs; tauto|projs]. intros v Hv. specialize (HSc w H). rewrite H0 in HSc. tauto.
  - apply (shut_frame s); [exact HI|projs; reflexivity..|projs; tauto|projs]. intros v Hv. unfold upd. destruct (Nat.eqb v w); [destruct (find_ready _ _); discriminate|tauto].
  - apply (shut_frame s); [exact HI|projs; reflexivity..|projs; tauto|projs]. intros v Hv. specialize (HSc w H). rewrite H0 in HSc. tauto.
  - (* ret_state *) apply (shut_frame s); [exact HI|projs; reflexivity..|projs|projs; tauto]. intros v g Hg. unfold upd. destruct (Nat.eqb_spec v t); [subst|tauto]. rewrite H. destruct x; rewrite ?in_app_iff; cbn [In]; intuition (subst; try discriminate).
  - (* d_set *) destruct HI as (S1 & S2 & S3 & S4 & S5). unfold shut_ok. projs. split; [tauto|]. split; [|split; [tauto|split]].
    + intros v f Hf Hp w Hw. exfalso. unfold upd in Hf. destruct (Nat.eqb_spec v t); [subst|].
      * destruct Hf as [<-|Hf]; [discriminate|]. destruct (dtor_unique s t DSet f rest t HD H eq_refl) as (_ & -> & _); [rewrite H; right; exact Hf|destruct f; try discriminate Hp; reflexivity|discriminate].
      * destruct (dtor_unique s t DSet f rest v HD H eq_refl) as (_ & -> & _); [exact Hf|destruct f; try discriminate Hp; reflexivity|discriminate].
    + intros _. right. exists t, DRel. unfold upd. rewrite Nat.eqb_refl. split; [left; reflexivity|reflexivity].
    + intros _ _ _ _. exists t, DRel. unfold upd. rewrite Nat.eqb_refl. split; [left; reflexivity|split; reflexivity].
  - (* d_rel *) destruct HI as (S1 & S2 & S3 & S4 & S5). assert (Hsh : shut s = true) by (apply (S1 t DRel); [rewrite H; left; reflexivity|reflexivity]). unfold shut_ok. projs. rewrite Hsh. split; [tauto|]. split; [|split; [tauto|split]].
    + intros v f Hf Hp w Hw. exfalso. unfold upd in Hf. destruct (Nat.eqb_spec v t); [subst|].
      * destruct Hf as [<-|Hf]; [discriminate|]. destruct (dtor_unique s t DRel f rest t HD H eq_refl) as (_ & -> & _); [rewrite H; right; exact Hf|destruct f; try discriminate Hp; reflexivity|discriminate].
      * destruct (dtor_unique s t DRel f rest v HD H eq_refl) as (_ & -> & _); [exact Hf|destruct f; try discriminate Hp; reflexivity|discriminate].
    + intros _. right. exists t, DNote. unfold upd. rewrite Nat.eqb_refl. split; [left; reflexivity|reflexivity].
    + intros _ _ _ _. exists t, DNote. unfold upd. rewrite Nat.eqb_refl. split; [left; reflexivity|split; reflexivity].
  - (* d_note *) destruct HI as (S1 & S2 & S3 & S4 & S5). assert (Hsh : shut s = true) by (apply (S1 t DNote); [rewrite H; left; reflexivity|reflexivity]). unfold shut_ok. projs. rewrite Hsh. split; [tauto|]. split; [|split; [tauto|split]].
    + intros. apply blocked_wake.
    + intros _. right. exists t, (DJoin 0). unfold upd. rewrite Nat.eqb_refl. split; [left; reflexivity|reflexivity].
    + intros w _ _ E. rewrite blocked_wake in E. discriminate.
  - (* d_join *) destruct HI as (S1 & S2 & S3 & S4 & S5). assert (Hsh : shut s = true) by (apply (S1 t (DJoin k)); [rewrite H; left; reflexivity|reflexivity]).
    assert (Hb : forall w, w < nw s -> is_blocked (wk s w) = false) by (apply (S2 t (DJoin k)); [rewrite H; left; reflexivity|reflexivity]). unfold shut_ok. projs. rewrite Hsh. split; [tauto|]. split; [|split; [tauto|split]].
    + intros; apply Hb; assumption.
    + intros _. right. exists t, (DJoin (S k)). unfold upd. rewrite Nat.eqb_refl. split; [left; reflexivity|reflexivity].
    + intros w Hw _ E. rewrite Hb in E by exact Hw. discriminate.
  - destruct HI as (S1 & S2 & S3 & S4 & S5). assert (Hsh : shut s = true) by (apply (S1 t (DJoin t)); [rewrite H; left; reflexivity|reflexivity]).
    assert (Hb : forall w, w < nw s -> is_blocked (wk s w) = false) by (apply (S2 t (DJoin t)); [rewrite H; left; reflexivity|reflexivity]). unfold shut_ok. projs. rewrite Hsh. split; [tauto|]. split; [|split; [tauto|split]].
    + intros; apply Hb; assumption.
    + intros _. right. exists t, DTerm. unfold upd. rewrite Nat.eqb_refl. split; [left; reflexivity|reflexivity].
    + intros w Hw _ E. rewrite Hb in E by exact Hw. discriminate.
  - destruct HI as (S1 & S2 & S3 & S4 & S5). assert (Hsh : shut s = true) by (apply (S1 t (DJoin k)); [rewrite H; left; reflexivity|reflexivity]).
    assert (Hb : forall w, w < nw s -> is_blocked (wk s w) = false) by (apply (S2 t (DJoin k)); [rewrite H; left; reflexivity|reflexivity]). unfold shut_ok. projs. rewrite Hsh. split; [tauto|]. split; [|split; [tauto|split]].
    + intros; apply Hb; assumption.
    + intros _. right. exists t, DFree. unfold upd. rewrite Nat.eqb_refl. split; [left; reflexivity|reflexivity].
    + intros w Hw _ E. rewrite Hb in E by exact Hw. discriminate.
  - destruct HI as (S1 & S2 & S3 & S4 & S5). assert (Hsh : shut s = true) by (apply (S1 t DFree); [rewrite H; left; reflexivity|reflexivity]).
    assert (Hb : forall w, w < nw s -> is_blocked (wk s w) = false) by (apply (S2 t DFree); [rewrite H; left; reflexivity|reflexivity]). unfold shut_ok. projs. rewrite Hsh. split; [tauto|]. split; [|split; [tauto|split]].
    + intros; apply Hb; assumption.
    + intros _. left. reflexivity.
    + intros w Hw _ E. rewrite Hb in E by exact Hw. discriminate.
Qed.

(** * All invariants of the state and of the events *)
Record good (s : st) : Prop := { g_inv : inv s; g_nw : 0 < nw s; g_exit : exit_ok s; g_wake : wake_ok s; g_shut : shut_ok s }.
Lemma good_exec n c s0 tr s : construct n c = Ok s0 -> exec s0 tr s -> good s.
Proof.
  intros H E. induction E as [|tr s l s' E IH Hs].
  - pose proof (inv_init _ _ _ H) as Hi. destruct (construct_ok _ _ _ H) as (H1 & H2 & ->). constructor; [exact Hi|exact H1|..].
    + intros w _ [Hw|Hw]; discriminate Hw.
    + intros Hp. exfalso. apply Hp. reflexivity.
    + unfold shut_ok. cbn. repeat split; try contradiction; try discriminate; intros; discriminate.
  - destruct IH. constructor.
    + eapply inv_step; eassumption.
    + destruct (exit_stable _ _ _ Hs) as [-> _]. assumption.
    + eapply exit_ok_step; eassumption.
    + eapply wake_step; eassumption.
    + eapply shut_step; eassumption.
Qed.
Lemma const_step s l s' : step s l s' -> nw s' = nw s /\ cap s' = cap s.
Proof. intros Hs. destruct Hs; try body_facts; unfold release, disown; projs; split; congruence. Qed.
Lemma const_exec n c s0 tr s : construct n c = Ok s0 -> exec s0 tr s -> nw s = n /\ cap s = c.
Proof.
  intros H E. induction E as [|tr s l s' E IH Hs]; [destruct (construct_ok _ _ _ H) as (_ & _ & ->); split; reflexivity|]. destruct (const_step _ _ _ Hs). intuition congruence.
Qed.
