(** Thread pool: the state of the pool is determined by the events of the execution. *)
From Coq Require Import ZArith List Bool Lia PeanoNat Permutation.
From Verif Require Import Base PoolModel PoolSpec PoolProofs.
Import ListNotations.

(** * The scan of the queue by a worker *)
Definition scan_ok (s : st) : Prop := forall w, w < nw s ->
  match wk s w with
  | WCheck => shut s = false
  | WLook => shut s = false /\ pending s <> []
  | WTimed d => shut s = false /\ d = min_start (pending s) /\ pending s <> []
  | WTake i now => shut s = false /\ find_ready now (pending s) = Some i
  | _ => True
  end.
Lemma holder_excl s w t : mutex_ok s -> w < nw s -> wholds (wk s w) = true -> 0 < cnt fholds (stk s t) -> t = w /\ False.
Proof.
  intros HM Hw Hh Hc. pose proof (HM w) as H1. pose proof (HM t) as H2. unfold nh in *. apply Nat.ltb_lt in Hw. rewrite Hw, Hh in H1. cbn [andb b2n] in H1.
  unfold own in *. destruct (mtx s) as [m|]; [|lia]. destruct (Nat.eqb_spec w m); [|cbn in H1; lia]. subst m. destruct (Nat.eqb_spec t w); [|cbn in H2; lia]. subst t. cbn in *. lia.
Qed.
Lemma holder_one s w v : mutex_ok s -> w < nw s -> v < nw s -> wholds (wk s w) = true -> wholds (wk s v) = true -> v = w.
Proof.
  intros HM Hw Hv Hh Hh'. pose proof (HM w) as H1. pose proof (HM v) as H2. unfold nh in *. apply Nat.ltb_lt in Hw, Hv. rewrite Hw, Hh in H1. rewrite Hv, Hh' in H2. cbn [andb b2n] in *.
  unfold own in *. destruct (mtx s) as [m|]; [|lia]. destruct (Nat.eqb_spec w m); [|cbn in H1; lia]. destruct (Nat.eqb_spec v m); [|cbn in H2; lia]. congruence.
Qed.
Lemma free_none s w : mutex_ok s -> mtx s = None -> w < nw s -> wholds (wk s w) = false.
Proof.
  intros HM Hm Hw. pose proof (HM w) as H1. unfold nh in *. apply Nat.ltb_lt in Hw. rewrite Hw, Hm in H1. destruct (wholds (wk s w)); [cbn in H1; lia|reflexivity].
Qed.
Lemma find_ready_nonempty now l i : find_ready now l = Some i -> l <> [].
Proof. intros H ->. discriminate. Qed.
Lemma scan_step s l s' : step s l s' -> mutex_ok s -> joined_ok s -> scan_ok s -> scan_ok s'.
Proof.
  intros Hs HM HJ HI th Hth. destruct Hs; try body_facts; unfold release, disown in *; projs.
  all: try rewrite B9; try rewrite B6; try rewrite B1 in Hth.
  all: try (exact (HI th Hth)).
  all: unfold upd in *; repeat match goal with |- context [Nat.eqb ?a ?b] => destruct (Nat.eqb_spec a b); [subst|] end; try exact I.
  all: try (exact (HI th Hth)).
  - (* test *) destruct (shut s) eqn:E; [exact I|reflexivity].
  - specialize (HI w Hth). rewrite H0 in HI. tauto.
  - specialize (HI w Hth). rewrite H0 in HI. destruct (find_ready _ _) eqn:E; tauto.
  - (* take by another worker *) pose proof (HI th Hth) as Hx.
    assert (wholds (wk s th) = false) as Hf. { destruct (wholds (wk s th)) eqn:E; [|reflexivity]. exfalso. apply n. eapply holder_one; [exact HM|exact H|exact Hth|rewrite H0; reflexivity|exact E]. }
    destruct (wk s th); try discriminate Hf; exact I.
  - (* push *)
    assert (wholds (wk s th) = false) as Hf. { destruct (wholds (wk s th)) eqn:E; [|reflexivity]. exfalso. refine (proj2 (holder_excl s th t HM Hth E _)). rewrite H. cbn. lia. }
    destruct (wk s th); try discriminate Hf; exact I.
  - assert (wholds (wk s th) = false) as Hf. { destruct (wholds (wk s th)) eqn:E; [|reflexivity]. exfalso. refine (proj2 (holder_excl s th t HM Hth E _)). rewrite H. cbn. lia. }
    destruct (wk s th); try discriminate Hf; exact I.
  - assert (wholds (wk s th) = false) as Hf. { destruct (wholds (wk s th)) eqn:E; [|reflexivity]. exfalso. refine (proj2 (holder_excl s th t HM Hth E _)). rewrite H. cbn. lia. }
    destruct (wk s th); try discriminate Hf; exact I.
  - specialize (HI th Hth). unfold wake_all. destruct (wk s th); try exact I; exact HI.
  - destruct HJ as (_ & J2 & _). rewrite (J2 t) by (first [rewrite H; left; reflexivity|assumption]). exact I.
Qed.

(** All the invariants of the state *)
Record inv (s : st) : Prop := { v_mtx : mutex_ok s; v_refs : refs_ok s; v_dt : dt_ok s; v_wst : wstack_ok s; v_cov : covered_ok s; v_join : joined_ok s; v_scan : scan_ok s }.
Lemma inv_step s l s' : step s l s' -> inv s -> inv s'.
Proof.
  intros Hs []. constructor.
  - eapply mutex_step; eassumption.
  - eapply refs_step; eassumption.
  - eapply dt_step; eassumption.
  - eapply wstack_step; eassumption.
  - eapply covered_step; eassumption.
  - eapply joined_step; eassumption.
  - eapply scan_step; eassumption.
Qed.
Lemma construct_ok n c s : construct n c = Ok s -> 0 < n /\ 0 < c /\
  s = St n c [] [] [] 0%Z false None 0%Z (fun _ => WInit) (fun _ => []) 1 [] (fun _ => FNone) (fun _ => false) false.
Proof.
  unfold construct. destruct (Nat.eqb_spec n 0); [discriminate|]. destruct (Nat.eqb_spec c 0); [destruct (_ || _); discriminate|].
  cbn [orb]. destruct (_ <? _)%Z; [discriminate|]. destruct (_ <? _)%Z; [discriminate|]. intros [= <-]. split; [lia|]. split; [lia|]. reflexivity.
Qed.
Lemma inv_init n c s : construct n c = Ok s -> inv s.
Proof.
  intros H. destruct (construct_ok _ _ _ H) as (_ & _ & ->). constructor; unfold mutex_ok, refs_ok, dt_ok, wstack_ok, covered_ok, joined_ok, scan_ok, nh, strong; cbn.
  - intros t. rewrite andb_false_r. reflexivity.
  - reflexivity.
  - exists None. split; [reflexivity|]. split; [lia|discriminate].
  - intros t _ []. reflexivity.
  - tauto.
  - repeat split; try contradiction. discriminate.
  - tauto.
Qed.
Lemma inv_exec n c s0 tr s : construct n c = Ok s0 -> exec s0 tr s -> inv s.
Proof. intros H E. induction E; [eapply inv_init; exact H|eapply inv_step; eassumption]. Qed.

(** * Lists *)
Lemma remove_nth_ids i l : ids (remove_nth i l) = remove_nth i (ids l).
Proof. unfold remove_nth, ids. rewrite map_app, firstn_map, skipn_map. reflexivity. Qed.
Lemma nth_split {A} i (l : list A) k : nth_error l i = Some k -> l = firstn i l ++ k :: skipn (S i) l.
Proof.
  revert i. induction l as [|a l IH]; intros [|i] H; cbn in *; try discriminate; [congruence|]. f_equal. apply IH. exact H.
Qed.
Lemma filter_all {A} (f : A -> bool) l : (forall x, In x l -> f x = true) -> filter f l = l.
Proof. induction l as [|a l IH]; intros H; cbn [filter]; [reflexivity|]. rewrite (H a (or_introl eq_refl)). f_equal. apply IH. intros x Hx. apply H. right. exact Hx. Qed.
Lemma filter_none {A} (f : A -> bool) l : (forall x, In x l -> f x = false) -> filter f l = [].
Proof. induction l as [|a l IH]; intros H; cbn [filter]; [reflexivity|]. rewrite (H a (or_introl eq_refl)). apply IH. intros x Hx. apply H. right. exact Hx. Qed.
Lemma NoDup_mid_notin a (x : Z) b : NoDup (a ++ x :: b) -> ~ In x a /\ ~ In x b.
Proof. intros H. apply NoDup_remove_2 in H. split; intros Hi; apply H; apply in_or_app; tauto. Qed.
Lemma remove_without i l k : NoDup (ids l) -> nth_error l i = Some k -> remove_nth i l = without (t_id k) l /\ filter (fun x => (t_id x =? t_id k)%Z) l = [k].
Proof.
  intros Hn Hk. pose proof (nth_split _ _ _ Hk) as E. unfold remove_nth, without. set (a := firstn i l) in *. set (b := skipn (S i) l) in *. clearbody a b. subst l.
  unfold ids in Hn. rewrite map_app in Hn. cbn [map] in Hn. destruct (NoDup_mid_notin _ _ _ Hn) as [H1 H2].
  assert (Ha : forall x, In x a -> (t_id x =? t_id k)%Z = false). { intros x Hx. apply Z.eqb_neq. intros E. apply H1. rewrite <- E. apply in_map. exact Hx. }
  assert (Hb : forall x, In x b -> (t_id x =? t_id k)%Z = false). { intros x Hx. apply Z.eqb_neq. intros E. apply H2. rewrite <- E. apply in_map. exact Hx. }
  rewrite !filter_app. cbn [filter]. rewrite Z.eqb_refl. cbn [negb]. split.
  - rewrite !filter_all; [reflexivity| |]; intros x Hx; [rewrite (Hb x Hx)|rewrite (Ha x Hx)]; reflexivity.
  - rewrite !filter_none; [reflexivity|exact Hb|exact Ha].
Qed.
Lemma without_perm l k : NoDup (ids l) -> In k l -> Permutation (ids l) (t_id k :: ids (without (t_id k) l)).
Proof.
  intros Hn Hk. destruct (In_nth_error _ _ Hk) as [i Hi]. destruct (remove_without _ _ _ Hn Hi) as [<- _].
  rewrite (nth_split _ _ _ Hi) at 1. unfold remove_nth, ids. rewrite !map_app. cbn [map]. symmetry. apply Permutation_middle.
Qed.
Lemma index_of_some id l i : index_of id (ids l) = Some i -> exists k, nth_error l i = Some k /\ t_id k = id.
Proof.
  revert i. induction l as [|a l IH]; intros i; cbn [ids map index_of]; [discriminate|]. destruct (Z.eqb_spec (t_id a) id) as [E|E].
  - intros [= <-]. exists a. split; [reflexivity|exact E].
  - change (map t_id l) with (ids l). destruct (index_of id (ids l)) as [j|] eqn:Ej; [|discriminate]. cbn [option_map]. intros [= <-]. destruct (IH j eq_refl) as (k & H1 & H2). exists k. split; assumption.
Qed.
Lemma index_of_none id (l : list Z) : index_of id l = None -> ~ In id l.
Proof.
  induction l as [|a l IH]; cbn [index_of]; [intros _ []|]. destruct (Z.eqb_spec a id) as [E|E]; [discriminate|]. destruct (index_of id l); [discriminate|]. intros _ [H|H]; [congruence|]. exact (IH eq_refl H).
Qed.
Lemma find_ready_spec now l i k : find_ready now l = Some i -> nth_error l i = Some k -> (t_start k <= now)%Z /\ forall x, In x (firstn i l) -> (now < t_start x)%Z.
Proof.
  revert i. induction l as [|a l IH]; intros i; cbn [find_ready]; [discriminate|]. destruct (Z.leb_spec (t_start a) now) as [E|E].
  - intros [= <-] [= ->]. split; [exact E|]. intros x [].
  - destruct (find_ready now l) as [j|] eqn:Ej; [|discriminate]. intros [= <-] Hk. cbn in Hk. destruct (IH j eq_refl Hk) as [H1 H2]. split; [exact H1|]. cbn [firstn]. intros x [->|Hx]; [exact E|exact (H2 x Hx)].
Qed.

(** * The trace invariant *)
Inductive ph := PNone | PReg (k : task) | PPre (id : Z) | PRun (id : Z) | PFin (id : Z).
Definition phase (p : wpc) : ph :=
  match p with WReg k => PReg k | WRel id | WCall id => PPre id | WRun id => PRun id | WDone id | WDereg id => PFin id | _ => PNone end.
Definition pcur (h : ph) : option Z := match h with PNone => None | PReg k => Some (t_id k) | PPre id | PRun id | PFin id => Some id end.
Definition is_reg (h : ph) : bool := match h with PReg _ => true | _ => false end.
Definition aid (x : nat * task) : Z := t_id (snd x).
Definition shown (s : st) (x : nat * task) : bool := negb (is_reg (phase (wk s (fst x)))).
Definition unstarted (h : ph) : bool := match h with PReg _ | PPre _ => true | _ => false end.
Definition unfinished (h : ph) : bool := match h with PReg _ | PPre _ | PRun _ => true | _ => false end.
Record tinv (tr : list label) (s : st) : Prop := {
  i_next : next s = Z.of_nat (length (added tr));
  i_ids : ids (added tr) = map Z.of_nat (seq 0 (length (added tr)));
  i_pend : pending s = queue tr;
  i_sub : incl (queue tr) (added tr);
  i_acc : Permutation (ids (queue tr) ++ taken tr ++ dropped tr) (ids (added tr));
  i_act : forall w id, w < nw s -> (pcur (phase (wk s w)) = Some id <-> In (w, id) (map (fun x => (fst x, aid x)) (active tr)));
  i_actw : forall x, In x (active tr) -> fst x < nw s /\ In (snd x) (added tr) /\ In (aid x) (taken tr);
  i_actnd : NoDup (map aid (active tr));
  i_reg : forall w k, w < nw s -> phase (wk s w) = PReg k -> exists A, active tr = A ++ [(w, k)];
  i_rids : rids s = map aid (filter (shown s) (active tr));
  i_rnames : rnames s = map (fun x => t_name (snd x)) (filter (shown s) (active tr));
  i_start : NoDup (started tr) /\ incl (started tr) (taken tr) /\
    forall w id, w < nw s -> pcur (phase (wk s w)) = Some id -> (In id (started tr) <-> unstarted (phase (wk s w)) = false);
  i_fin : NoDup (finished tr) /\ incl (finished tr) (started tr) /\
    forall w id, w < nw s -> pcur (phase (wk s w)) = Some id -> (In id (finished tr) <-> unfinished (phase (wk s w)) = false);
  i_done : forall id, In id (taken tr) -> In id (map aid (active tr)) \/ In id (finished tr);
  i_fut : forall id, In id (ids (added tr)) -> (In id (finished tr) -> fut s id = FReady) /\ (In id (dropped tr) -> fut s id = FBroken) /\
    (~ In id (finished tr) -> ~ In id (dropped tr) -> fut s id = FNone);
  i_shut : shut s = shutdown_requested tr }.

Definition quiet (l : label) : bool :=
  match l with
  | LTau | LCall _ _ | LQuery _ _ _ | LReturn _ _ _ | LState _ _ _ | LComplete _ _ _ | LResult _ _ _ | LBlock _ _ | LNotify _ | LWake _ | LTick _ | LTerminate _ | LCancel _ _ false => true
  | _ => false end.
Lemma tinv_frame tr l s s' : tinv tr s -> quiet l = true ->
  nw s' = nw s -> next s' = next s -> pending s' = pending s -> rids s' = rids s -> rnames s' = rnames s -> fut s' = fut s -> shut s' = shut s ->
  (forall w, w < nw s -> phase (wk s' w) = phase (wk s w)) -> tinv (l :: tr) s'.
Proof.
  intros [] Hq E1 E2 E3 E4 E5 E6 E7 Hp.
  assert (Ea : added (l :: tr) = added tr /\ queue (l :: tr) = queue tr /\ taken (l :: tr) = taken tr /\ dropped (l :: tr) = dropped tr /\ active (l :: tr) = active tr
    /\ started (l :: tr) = started tr /\ finished (l :: tr) = finished tr /\ shutdown_requested (l :: tr) = shutdown_requested tr)
    by (destruct l; try discriminate Hq; try (repeat split; fail); destruct b; try discriminate Hq; repeat split).
  destruct Ea as (A1 & A2 & A3 & A4 & A5 & A6 & A7 & A8).
  assert (Hsh : forall l0, (forall x, In x l0 -> fst x < nw s) -> filter (shown s') l0 = filter (shown s) l0).
  { intros l0 Hl. apply filter_ext_in. intros x Hx. unfold shown. rewrite Hp by (apply Hl; exact Hx). reflexivity. }
  constructor; rewrite ?A1, ?A2, ?A3, ?A4, ?A5, ?A6, ?A7, ?A8, ?E1, ?E2, ?E3, ?E4, ?E5, ?E6, ?E7; try assumption.
  - intros w id Hw. rewrite Hp by exact Hw. apply i_act0. exact Hw.
  - intros w k Hw. rewrite Hp by exact Hw. apply i_reg0. exact Hw.
  - rewrite Hsh; [exact i_rids0|]. intros x Hx. apply i_actw0. exact Hx.
  - rewrite Hsh; [exact i_rnames0|]. intros x Hx. apply i_actw0. exact Hx.
  - destruct i_start0 as (H1 & H2 & H3). split; [exact H1|]. split; [exact H2|]. intros w id Hw. rewrite Hp by exact Hw. apply H3. exact Hw.
  - destruct i_fin0 as (H1 & H2 & H3). split; [exact H1|]. split; [exact H2|]. intros w id Hw. rewrite Hp by exact Hw. apply H3. exact Hw.
Qed.
Lemma phase_wake f w : phase (wake_all f w) = phase (f w).
Proof. unfold wake_all. destruct (f w); reflexivity. Qed.
Lemma ids_bound tr s : tinv tr s -> forall id, In id (ids (added tr)) <-> (0 <= id < next s)%Z.
Proof.
  intros HT id. rewrite (i_ids _ _ HT), (i_next _ _ HT). rewrite in_map_iff. split.
  - intros (n & <- & Hn). apply in_seq in Hn. lia.
  - intros H. exists (Z.to_nat id). split; [lia|]. apply in_seq. lia.
Qed.
Lemma added_nodup tr s : tinv tr s -> NoDup (ids (added tr)).
Proof. intros HT. rewrite (i_ids _ _ HT). apply FinFun.Injective_map_NoDup; [intros x y; apply Nat2Z.inj|apply seq_NoDup]. Qed.
Lemma acc_nodup tr s : tinv tr s -> NoDup (ids (queue tr) ++ taken tr ++ dropped tr).
Proof. intros HT. eapply Permutation_NoDup; [symmetry; apply (i_acc _ _ HT)|]. eapply added_nodup; exact HT. Qed.
Lemma NoDup_app_l {A} (a b : list A) : NoDup (a ++ b) -> NoDup a.
Proof. induction a as [|x a IH]; intros H; [constructor|]. cbn in H. inversion H; subst. constructor; [|apply IH; assumption]. intros Hi. apply H2. apply in_or_app. left. exact Hi. Qed.
Lemma NoDup_app_r {A} (a b : list A) : NoDup (a ++ b) -> NoDup b.
Proof. induction a as [|x a IH]; intros H; [exact H|]. inversion H; subst. apply IH. assumption. Qed.
Lemma NoDup_app_disj {A} (a b : list A) x : NoDup (a ++ b) -> In x a -> In x b -> False.
Proof. induction a as [|y a IH]; intros H Ha Hb; [contradiction|]. cbn in H. inversion H; subst. destruct Ha as [->|Ha]; [apply H2; apply in_or_app; right; exact Hb|]. exact (IH H3 Ha Hb). Qed.
Lemma queue_nodup tr s : tinv tr s -> NoDup (ids (queue tr)).
Proof. intros HT. eapply NoDup_app_l. eapply acc_nodup; exact HT. Qed.
Lemma tinv_init n c s : construct n c = Ok s -> tinv [] s.
Proof.
  intros H. destruct (construct_ok _ _ _ H) as (_ & _ & ->). constructor; cbn; try reflexivity; try (intros ? []); try (intros; discriminate); try contradiction; try constructor; try constructor.
  all: try discriminate; try contradiction; try (intros ? []); try (intros; discriminate).
Qed.
Lemma erase_filter {B} (g : nat * task -> B) id l : NoDup (map aid l) ->
  erase_at (index_of id (map aid l)) (map g l) = map g (filter (fun x => negb (aid x =? id)%Z) l).
Proof.
  induction l as [|a l IH]; intros Hn; [reflexivity|]. cbn [map] in Hn. inversion Hn as [|? ? H1 H2]; subst. cbn [map index_of filter].
  destruct (Z.eqb_spec (aid a) id) as [E|E]; cbn [negb].
  - cbn. rewrite filter_all; [reflexivity|]. intros x Hx. apply negb_true_iff, Z.eqb_neq. intros E'. apply H1. rewrite E, <- E'. apply in_map. exact Hx.
  - specialize (IH H2). destruct (index_of id (map aid l)) as [j|]; cbn [option_map erase_at] in *.
    + unfold remove_nth in *. cbn [firstn skipn map app]. f_equal. exact IH.
    + cbn [map]. f_equal. exact IH.
Qed.
Lemma act_fst tr s w x : tinv tr s -> In x (active tr) -> fst x = w -> pcur (phase (wk s w)) = Some (aid x).
Proof.
  intros HT Hx Hf. subst w. apply (i_act _ _ HT); [apply (i_actw _ _ HT); exact Hx|]. apply in_map_iff. exists x. split; [reflexivity|exact Hx].
Qed.
Lemma act_inj tr s x y : tinv tr s -> In x (active tr) -> In y (active tr) -> aid x = aid y -> x = y.
Proof.
  intros HT Hx Hy E. pose proof (i_actnd _ _ HT) as Hn. induction (active tr) as [|a l IH]; [contradiction|]. cbn in Hn. inversion Hn; subst.
  destruct Hx as [->|Hx]; destruct Hy as [->|Hy]; [reflexivity| | |apply IH; assumption].
  - exfalso. apply H1. rewrite E. apply in_map. exact Hy.
  - exfalso. apply H1. rewrite <- E. apply in_map. exact Hx.
Qed.
Lemma cur_taken tr s w id : tinv tr s -> w < nw s -> pcur (phase (wk s w)) = Some id -> In id (taken tr).
Proof.
  intros HT Hw H. apply (i_act _ _ HT) in H; [|exact Hw]. apply in_map_iff in H. destruct H as (x & [= _ <-] & Hx). apply (i_actw _ _ HT). exact Hx.
Qed.
Lemma cur_inj tr s v w id : tinv tr s -> v < nw s -> w < nw s -> pcur (phase (wk s v)) = Some id -> pcur (phase (wk s w)) = Some id -> v = w.
Proof.
  intros HT Hv Hw H1 H2. apply (i_act _ _ HT) in H1; [|exact Hv]. apply (i_act _ _ HT) in H2; [|exact Hw].
  apply in_map_iff in H1, H2. destruct H1 as (x & [= E1 E2] & Hx). destruct H2 as (y & [= E3 E4] & Hy). assert (x = y) by (eapply act_inj; [exact HT|exact Hx|exact Hy|congruence]). congruence.
Qed.
Lemma no_reg tr s w : inv s -> tinv tr s -> w < nw s -> wholds (wk s w) = true -> is_reg (phase (wk s w)) = false -> filter (shown s) (active tr) = active tr.
Proof.
  intros HV HT Hw Hh Hr. apply filter_all. intros x Hx. unfold shown. apply negb_true_iff. destruct (is_reg (phase (wk s (fst x)))) eqn:E; [|reflexivity].
  assert (fst x = w); [|subst; congruence]. eapply holder_one; [apply (v_mtx _ HV)|exact Hw|apply (i_actw _ _ HT); exact Hx|exact Hh|].
  destruct (wk s (fst x)); try discriminate E; reflexivity.
Qed.
Ltac upd_cases := unfold upd in *; repeat match goal with |- context [Nat.eqb ?a ?b] => destruct (Nat.eqb_spec a b); [subst|] end.

Lemma tinv_take tr s w i now k : inv s -> tinv tr s -> w < nw s -> wk s w = WTake i now -> nth_error (pending s) i = Some k ->
  tinv (LTake w (t_id k) now :: tr) (goto w (WReg k) (with_pending (remove_nth i (pending s)) s)).
Proof.
  intros HV HT Hw Hp Hk. pose proof (queue_nodup _ _ HT) as Hq. rewrite (i_pend _ _ HT) in *. destruct (remove_without _ _ _ Hq Hk) as [Hr Hf].
  assert (Hin : In k (queue tr)) by (eapply nth_error_In; exact Hk).
  assert (Hnt : ~ In (t_id k) (taken tr)). { intros Hi. eapply NoDup_app_disj; [eapply acc_nodup; exact HT|apply in_map; exact Hin|]. apply in_or_app. left. exact Hi. }
  assert (Hact : active (LTake w (t_id k) now :: tr) = active tr ++ [(w, k)]) by (cbn [active]; rewrite Hf; reflexivity).
  assert (Hnw : forall x, In x (active tr) -> fst x <> w). { intros x Hx E. pose proof (act_fst _ _ _ _ HT Hx E) as Hc. rewrite Hp in Hc. discriminate Hc. }
  assert (Hother : forall v, v < nw s -> v <> w -> is_reg (phase (wk s v)) = false).
  { intros v Hv Hne. destruct (is_reg (phase (wk s v))) eqn:E; [|reflexivity]. exfalso. apply Hne. eapply holder_one; [apply (v_mtx _ HV)|exact Hw|exact Hv|rewrite Hp; reflexivity|].
    destruct (wk s v); try discriminate E; reflexivity. }
  assert (Hfil : filter (shown (goto w (WReg k) (with_pending (remove_nth i (queue tr)) s))) (active tr ++ [(w, k)]) = filter (shown s) (active tr)).
  { rewrite filter_app. cbn [filter]. unfold shown at 2. projs. unfold upd at 1. cbn [fst]. rewrite Nat.eqb_refl. cbn [phase is_reg negb]. rewrite app_nil_r.
    apply filter_ext_in. intros x Hx. unfold shown. projs. unfold upd. destruct (Nat.eqb_spec (fst x) w); [exfalso; exact (Hnw x Hx e)|reflexivity]. }
  destruct HT. constructor; try rewrite Hact; projs; cbn [queue taken dropped added started finished shutdown_requested]; try assumption.
  - intros x Hx. apply filter_In in Hx. apply i_sub0. tauto.
  - rewrite <- i_acc0. cbn [app]. rewrite (without_perm (queue tr) k Hq Hin). cbn [app]. symmetry. apply Permutation_middle.
  - intros v id Hv. rewrite map_app, in_app_iff. cbn [map In fst]. unfold aid at 2. cbn [snd]. upd_cases.
    + cbn [phase pcur]. split; [intros [= <-]; right; left; reflexivity|]. intros [Hi|[[= <-]|[]]]; [|reflexivity].
      exfalso. apply in_map_iff in Hi. destruct Hi as (x & [= E1 _] & Hx). exact (Hnw x Hx E1).
    + rewrite i_act0 by exact Hv. split; [tauto|]. intros [Hi|[[= E _]|[]]]; [exact Hi|congruence].
  - intros x Hx. apply in_app_or in Hx. destruct Hx as [Hx|[<-|[]]].
    + destruct (i_actw0 x Hx) as (H1 & H2 & H3). split; [exact H1|]. split; [exact H2|right; exact H3].
    + cbn. split; [exact Hw|]. split; [apply i_sub0; exact Hin|left; reflexivity].
  - rewrite map_app. cbn [map]. apply (Permutation_NoDup (Permutation_cons_append _ _)). constructor; [|exact i_actnd0].
    intros Hi. apply in_map_iff in Hi. destruct Hi as (x & E & Hx). apply Hnt. unfold aid at 2 in E. cbn [snd] in E. rewrite <- E. apply i_actw0. exact Hx.
  - intros v k' Hv. upd_cases; [intros [= <-]; exists (active tr); reflexivity|]. intros E. exfalso. specialize (Hother v Hv n). rewrite E in Hother. discriminate.
  - rewrite Hfil. exact i_rids0.
  - rewrite Hfil. exact i_rnames0.
  - destruct i_start0 as (H1 & H2 & H3). split; [exact H1|]. split; [apply incl_tl; exact H2|]. intros v id Hv. upd_cases; [|apply H3; exact Hv].
    cbn. intros [= <-]. split; [|discriminate]. intros Hi. exfalso. exact (Hnt (H2 _ Hi)).
  - destruct i_fin0 as (H1 & H2 & H3). split; [exact H1|]. split; [exact H2|]. intros v id Hv. upd_cases; [|apply H3; exact Hv].
    cbn. intros [= <-]. split; [|discriminate]. intros Hi. exfalso. apply Hnt. apply i_start0. apply H2. exact Hi.
  - intros id [<-|Hi].
    + left. rewrite map_app. apply in_or_app. right. left. reflexivity.
    + destruct (i_done0 id Hi) as [H|H]; [left; rewrite map_app; apply in_or_app; left; exact H|right; exact H].
Qed.
Lemma tinv_reg tr s w k : inv s -> tinv tr s -> w < nw s -> wk s w = WReg k ->
  tinv (LTau :: tr) (goto w (WRel (t_id k)) (with_running (rids s ++ [t_id k]) (rnames s ++ [t_name k]) s)).
Proof.
  intros HV HT Hw Hp. destruct (i_reg _ _ HT w k Hw) as [A HA]; [rewrite Hp; reflexivity|].
  assert (Hn : forall x, In x A -> fst x <> w).
  { intros x Hx E. assert (Hx' : In x (active tr)) by (rewrite HA; apply in_or_app; left; exact Hx). pose proof (act_fst _ _ _ _ HT Hx' E) as Hc. rewrite Hp in Hc. cbn in Hc.
    pose proof (i_actnd _ _ HT) as Hd. rewrite HA, map_app in Hd. cbn [map] in Hd. destruct (NoDup_mid_notin _ _ _ Hd) as [H _]. apply H. change (aid (w, k)) with (t_id k). injection Hc as ->. apply in_map. exact Hx. }
  set (s' := goto w _ _).
  assert (Hfil : filter (shown s') (active tr) = filter (shown s) (active tr) ++ [(w, k)]).
  { rewrite HA, !filter_app. cbn [filter]. unfold shown at 2. unfold s'. projs. unfold upd at 1. cbn [fst]. rewrite Nat.eqb_refl. cbn [phase is_reg negb]. 
    unfold shown at 3. cbn [fst]. rewrite Hp. cbn [phase is_reg negb]. rewrite app_nil_r. f_equal. apply filter_ext_in. intros x Hx. unfold shown. projs. unfold upd. destruct (Nat.eqb_spec (fst x) w); [exfalso; exact (Hn x Hx e)|reflexivity]. }
  destruct HT. constructor; cbn [queue taken dropped added started finished shutdown_requested active]; try assumption.
  - intros v id Hv. rewrite <- i_act0 by exact Hv. unfold s'; projs; upd_cases; [rewrite Hp; cbn; tauto|tauto].
  - intros v k' Hv. unfold s'; projs; upd_cases; [discriminate|apply i_reg0; exact Hv].
  - rewrite Hfil, map_app. unfold s'; projs. rewrite <- i_rids0. reflexivity.
  - rewrite Hfil, map_app. unfold s'; projs. rewrite <- i_rnames0. reflexivity.
  - destruct i_start0 as (H1 & H2 & H3). split; [exact H1|]. split; [exact H2|]. intros v id Hv Hc. specialize (H3 v id Hv). unfold s' in *; projs; upd_cases; [|tauto].
    rewrite Hp in H3. cbn in *. tauto.
  - destruct i_fin0 as (H1 & H2 & H3). split; [exact H1|]. split; [exact H2|]. intros v id Hv Hc. specialize (H3 v id Hv). unfold s' in *; projs; upd_cases; [|tauto].
    rewrite Hp in H3. cbn in *. tauto.
Qed.
Lemma shown_same s w p0 : is_reg (phase p0) = is_reg (phase (wk s w)) -> forall x, shown (goto w p0 s) x = shown s x.
Proof. intros H x. unfold shown. projs. unfold upd. destruct (Nat.eqb_spec (fst x) w) as [E|E]; [rewrite E, H; reflexivity|reflexivity]. Qed.
Lemma tinv_call tr s w id : tinv tr s -> w < nw s -> wk s w = WCall id -> tinv (LStart w id :: tr) (goto w (WRun id) s).
Proof.
  intros HT Hw Hp. assert (Hsh : forall x, shown (goto w (WRun id) s) x = shown s x) by (apply shown_same; rewrite Hp; reflexivity).
  pose proof (cur_taken _ _ w id HT Hw) as Ht. rewrite Hp in Ht. specialize (Ht eq_refl).
  pose proof (fun v => cur_inj _ _ v w id HT) as Hci. rewrite Hp in Hci.
  destruct HT. constructor; cbn [queue taken dropped added started finished shutdown_requested active]; try assumption.
  - intros v i Hv. rewrite <- i_act0 by exact Hv. projs; upd_cases; [rewrite Hp; cbn; tauto|tauto].
  - intros v k' Hv. projs; upd_cases; [discriminate|apply i_reg0; exact Hv].
  - rewrite (filter_ext _ _ Hsh). exact i_rids0.
  - rewrite (filter_ext _ _ Hsh). exact i_rnames0.
  - destruct i_start0 as (H1 & H2 & H3). pose proof (H3 w id Hw) as Hx. rewrite Hp in Hx. specialize (Hx eq_refl). cbn in Hx. split; [constructor; [|exact H1]; intuition discriminate|].
    split; [intros x [<-|Hi]; [exact Ht|exact (H2 x Hi)]|]. intros v i Hv Hc. projs. upd_cases; cbn in *.
    + injection Hc as <-. intuition.
    + rewrite <- (H3 v i Hv Hc). split; [|tauto]. intros [<-|]; [|assumption]. exfalso. apply n. apply Hci; [exact Hv|exact Hw|exact Hc|reflexivity].
  - destruct i_fin0 as (H1 & H2 & H3). split; [exact H1|]. split; [apply incl_tl; exact H2|]. intros v i Hv Hc. specialize (H3 v i Hv). projs; upd_cases; [|tauto].
    rewrite Hp in H3. cbn in *. tauto.
Qed.
Lemma tinv_finish tr s w id : tinv tr s -> w < nw s -> wk s w = WRun id -> tinv (LFinish w id :: tr) (goto w (WDone id) (with_fut (updz (fut s) id FReady) s)).
Proof.
  intros HT Hw Hp. assert (Hsh : forall x, shown (goto w (WDone id) s) x = shown s x) by (apply shown_same; rewrite Hp; reflexivity).
  pose proof (cur_taken _ _ w id HT Hw) as Ht. rewrite Hp in Ht. specialize (Ht eq_refl).
  pose proof (fun v => cur_inj _ _ v w id HT) as Hci. rewrite Hp in Hci. pose proof (acc_nodup _ _ HT) as Hnd.
  destruct HT. constructor; cbn [queue taken dropped added started finished shutdown_requested active]; try assumption.
  - intros v i Hv. rewrite <- i_act0 by exact Hv. projs; upd_cases; [rewrite Hp; cbn; tauto|tauto].
  - intros v k' Hv. projs; upd_cases; [discriminate|apply i_reg0; exact Hv].
  - rewrite (filter_ext (shown (goto w (WDone id) (with_fut (updz (fut s) id FReady) s))) _ Hsh). exact i_rids0.
  - rewrite (filter_ext (shown (goto w (WDone id) (with_fut (updz (fut s) id FReady) s))) _ Hsh). exact i_rnames0.
  - destruct i_start0 as (H1 & H2 & H3). split; [exact H1|]. split; [exact H2|]. intros v i Hv Hc. specialize (H3 v i Hv). projs; upd_cases; [|tauto].
    rewrite Hp in H3. cbn in *. tauto.
  - destruct i_fin0 as (H1 & H2 & H3). destruct i_start0 as (K1 & K2 & K3). pose proof (H3 w id Hw) as Hx. rewrite Hp in Hx. specialize (Hx eq_refl). cbn in Hx. split; [constructor; [|exact H1]; intuition discriminate|].
    split; [intros x [<-|Hi]; [|exact (H2 x Hi)]|].
    { apply (K3 w id Hw); rewrite Hp; reflexivity. }
    intros v i Hv Hc. projs. upd_cases; cbn in *.
    + injection Hc as <-. intuition.
    + rewrite <- (H3 v i Hv Hc). split; [|tauto]. intros [<-|]; [|assumption]. exfalso. apply n. apply Hci; [exact Hv|exact Hw|exact Hc|reflexivity].
  - intros i Hi. destruct (i_done0 i Hi) as [H|H]; [left; exact H|right; right; exact H].
  - intros i Hi. projs. destruct (i_fut0 i Hi) as (H1 & H2 & H3). unfold updz. destruct (Z.eqb_spec i id) as [->|E].
    + split; [reflexivity|]. split; [|intros H _; exfalso; apply H; left; reflexivity].
      intros Hd. exfalso. apply NoDup_app_r in Hnd. eapply NoDup_app_disj; eassumption.
    + split; [intros [|]; [congruence|apply H1; assumption]|]. split; [exact H2|]. intros H HH. apply H3; [intros Hx; apply H; right; exact Hx|exact HH].
Qed.

Lemma tinv_dereg tr s w id : inv s -> tinv tr s -> w < nw s -> wk s w = WDereg id ->
  tinv (LDereg w id :: tr) (goto w WDrop (with_running (erase_at (index_of id (rids s)) (rids s)) (erase_at (index_of id (rids s)) (rnames s)) s)).
Proof.
  intros HV HT Hw Hp.
  assert (Hno : forall v, v < nw s -> is_reg (phase (wk s v)) = false).
  { intros v Hv. destruct (is_reg (phase (wk s v))) eqn:E; [|reflexivity]. assert (v = w); [|subst v; rewrite Hp in E; discriminate E].
    eapply holder_one; [apply (v_mtx _ HV)|exact Hw|exact Hv|rewrite Hp; reflexivity|]. destruct (wk s v); try discriminate E; reflexivity. }
  assert (Hf : filter (shown s) (active tr) = active tr) by (eapply no_reg; [exact HV|exact HT|exact Hw|rewrite Hp; reflexivity|rewrite Hp; reflexivity]).
  pose proof (fun v => cur_inj _ _ v w id HT) as Hci. rewrite Hp in Hci. pose proof (fun x => act_fst _ _ w x HT) as Haf. rewrite Hp in Haf.
  pose proof (fun v => cur_taken _ _ v id HT) as Hct.
  set (act' := filter (fun x => negb (aid x =? id)%Z) (active tr)).
  assert (Hact : active (LDereg w id :: tr) = act') by reflexivity.
  set (s' := goto w _ _).
  assert (Hf' : filter (shown s') act' = act').
  { apply filter_all. intros x Hx. unfold act' in Hx. apply filter_In in Hx. destruct Hx as [Hx Hn]. unfold shown, s'. projs. upd_cases; [reflexivity|]. rewrite Hno; [reflexivity|]. apply (i_actw _ _ HT). exact Hx. }
  destruct HT. rewrite Hf in *. constructor; try rewrite Hact; cbn [queue taken dropped added started finished shutdown_requested]; try assumption.
  - intros v i Hv. transitivity (v <> w /\ In (v, i) (map (fun x => (fst x, aid x)) (active tr))).
    + rewrite <- i_act0 by exact Hv. unfold s'. projs. upd_cases; [cbn; intuition discriminate|tauto].
    + unfold act'. rewrite !in_map_iff. split.
      * intros (Hne & x & [= E1 E2] & Hx). exists x. split; [congruence|]. apply filter_In. split; [exact Hx|]. apply negb_true_iff, Z.eqb_neq. intros E. apply Hne. apply Hci; [exact Hv|exact Hw| |reflexivity].
        subst v. rewrite <- E. apply i_act0; [exact Hv|]. apply in_map_iff. exists x. tauto.
      * intros (x & [= E1 E2] & Hx). apply filter_In in Hx. destruct Hx as [Hx Hn]. apply negb_true_iff, Z.eqb_neq in Hn. split; [|exists x; split; [congruence|exact Hx]].
        intros E. specialize (Haf x Hx). rewrite E1 in Haf. specialize (Haf E). cbn in Haf. congruence.
  - intros x Hx. apply i_actw0. unfold act' in Hx. apply filter_In in Hx. tauto.
  - unfold act'. clear - i_actnd0. induction (active tr) as [|a l IH]; [constructor|]. cbn [map filter] in *. inversion i_actnd0; subst. destruct (negb _); [|apply IH; assumption]. cbn [map]. constructor; [|apply IH; assumption].
    intros Hi. apply H1. apply in_map_iff in Hi. destruct Hi as (x & E & Hx). apply filter_In in Hx. rewrite <- E. apply in_map. tauto.
  - intros v k' Hv. unfold s'; projs; upd_cases; [discriminate|]. intros E. specialize (Hno v Hv). rewrite E in Hno. discriminate.
  - rewrite Hf'. unfold s'; projs. rewrite i_rids0. apply erase_filter. exact i_actnd0.
  - rewrite Hf'. unfold s'; projs. rewrite i_rids0, i_rnames0. apply erase_filter. exact i_actnd0.
  - destruct i_start0 as (H1 & H2 & H3). split; [exact H1|]. split; [exact H2|]. intros v i Hv Hc. specialize (H3 v i Hv). unfold s' in *; projs; upd_cases; [discriminate|tauto].
  - destruct i_fin0 as (H1 & H2 & H3). split; [exact H1|]. split; [exact H2|]. intros v i Hv Hc. specialize (H3 v i Hv). unfold s' in *; projs; upd_cases; [discriminate|tauto].
  - intros i Hi. destruct (i_done0 i Hi) as [H|H]; [|right; exact H]. destruct (Z.eq_dec i id) as [->|E].
    + right. apply (proj2 (proj2 i_fin0) w id Hw); rewrite Hp; reflexivity.
    + left. apply in_map_iff in H. destruct H as (x & <- & Hx). apply in_map. unfold act'. apply filter_In. split; [exact Hx|]. apply negb_true_iff, Z.eqb_neq. exact E.
Qed.
Lemma tinv_push tr s t k f : tinv tr s -> (Z.of_nat (length (added tr)) + 1 < id_mod)%Z -> t_id k = next s ->
  tinv (LAdd t k :: tr) (with_stk t f (with_pending (pending s ++ [k]) (with_next ((next s + 1) mod id_mod)%Z
          (with_fut (updz (fut s) (next s) FNone) (with_valid (updz (valid s) (next s) true) s))))).
Proof.
  intros HT Hb Hk. pose proof (ids_bound _ _ HT) as Hin. pose proof (i_acc _ _ HT) as Hacc.
  assert (Hnew : forall l, incl l (ids (queue tr) ++ taken tr ++ dropped tr) -> ~ In (next s) l).
  { intros l Hl Hi. apply Hl in Hi. apply (Permutation_in _ Hacc) in Hi. apply Hin in Hi. lia. }
  destruct HT. constructor; projs; cbn [queue taken dropped added started finished shutdown_requested active]; try assumption.
  - rewrite app_length. cbn [length]. rewrite Z.mod_small by lia. lia.
  - unfold ids in *. rewrite map_app, app_length, i_ids0. cbn [map length]. rewrite Hk, i_next0, Nat.add_1_r, seq_S, map_app. reflexivity.
  - rewrite i_pend0. reflexivity.
  - intros x Hx. apply in_app_or in Hx. apply in_or_app. destruct Hx as [Hx|Hx]; [left; apply i_sub0; exact Hx|right; exact Hx].
  - unfold ids in *. rewrite !map_app. cbn [map]. rewrite <- app_assoc. cbn [app]. rewrite <- Permutation_middle. rewrite <- Permutation_cons_append. constructor. exact i_acc0.
  - intros x Hx. destruct (i_actw0 x Hx) as (H1 & H2 & H3). split; [exact H1|]. split; [apply in_or_app; left; exact H2|exact H3].
  - intros i Hi. unfold updz. destruct (Z.eqb_spec i (next s)) as [->|E].
    + split; [|split; [|reflexivity]]; intros H; exfalso.
      * apply (Hnew [next s]); [|left; reflexivity]. intros x [<-|[]]. apply in_or_app. right. apply in_or_app. left. apply i_start0, i_fin0. exact H.
      * apply (Hnew [next s]); [|left; reflexivity]. intros x [<-|[]]. apply in_or_app. right. apply in_or_app. right. exact H.
    + apply i_fut0. unfold ids in *. rewrite map_app in Hi. apply in_app_or in Hi. destruct Hi as [Hi|[Hi|[]]]; [exact Hi|congruence].
Qed.
(** Tasks that leave the queue without being taken: one task *)
Lemma tinv_cancel tr s t i k f : tinv tr s -> nth_error (pending s) i = Some k ->
  tinv (LCancel t (t_id k) true :: tr) (with_stk t f (with_pending (remove_nth i (pending s)) (with_fut (updz (fut s) (t_id k) FBroken) s))).
Proof.
  intros HT Hk. pose proof (queue_nodup _ _ HT) as Hq. rewrite (i_pend _ _ HT) in *. destruct (remove_without _ _ _ Hq Hk) as [Hr Hf].
  assert (Hin : In k (queue tr)) by (eapply nth_error_In; exact Hk).
  assert (Hnt : ~ In (t_id k) (taken tr)). { intros Hi. eapply NoDup_app_disj; [eapply acc_nodup; exact HT|apply in_map; exact Hin|]. apply in_or_app. left. exact Hi. }
  destruct HT. constructor; projs; cbn [queue taken dropped added started finished shutdown_requested active]; try assumption.
  - intros x Hx. apply filter_In in Hx. apply i_sub0. tauto.
  - rewrite <- i_acc0. rewrite (without_perm (queue tr) k Hq Hin). cbn [app]. rewrite !app_assoc. symmetry. apply Permutation_middle.
  - intros j Hj. destruct (i_fut0 j Hj) as (H1 & H2 & H3). unfold updz. destruct (Z.eqb_spec j (t_id k)) as [->|E].
    + split; [intros H; exfalso; apply Hnt; apply i_start0, i_fin0; exact H|]. split; [reflexivity|]. intros _ H. exfalso. apply H. left. reflexivity.
    + split; [exact H1|]. split; [intros [|]; [congruence|apply H2; assumption]|]. intros H H'. apply H3; [exact H|intros Hx; apply H'; right; exact Hx].
Qed.
(** all tasks *)
Lemma existsb_in id l : existsb (Z.eqb id) l = true <-> In id l.
Proof. rewrite existsb_exists. split; [intros (x & Hx & E); apply Z.eqb_eq in E; congruence|]. intros H. exists id. split; [exact H|apply Z.eqb_refl]. Qed.
Lemma tinv_clear tr s s' l : tinv tr s -> queue (l :: tr) = [] -> dropped (l :: tr) = ids (queue tr) ++ dropped tr ->
  added (l :: tr) = added tr -> taken (l :: tr) = taken tr -> active (l :: tr) = active tr -> started (l :: tr) = started tr -> finished (l :: tr) = finished tr -> shutdown_requested (l :: tr) = shutdown_requested tr ->
  nw s' = nw s -> next s' = next s -> pending s' = [] -> rids s' = rids s -> rnames s' = rnames s -> shut s' = shut s -> wk s' = wk s -> fut s' = break_all (pending s) (fut s) ->
  tinv (l :: tr) s'.
Proof.
  intros HT A2 A4 A1 A3 A5 A6 A7 A8 E1 E2 E3 E4 E5 E6 E7 E8.
  assert (Hnt : forall id, In id (ids (queue tr)) -> ~ In id (finished tr)).
  { intros id Hi Hf. eapply NoDup_app_disj; [eapply acc_nodup; exact HT|exact Hi|]. apply in_or_app. left. apply (i_start _ _ HT), (i_fin _ _ HT). exact Hf. }
  assert (Hsh : forall x, shown s' x = shown s x) by (intros x; unfold shown; rewrite E7; reflexivity).
  destruct HT. constructor; rewrite ?A1, ?A2, ?A3, ?A4, ?A5, ?A6, ?A7, ?A8, ?E1, ?E2, ?E3, ?E4, ?E5, ?E6, ?E7, ?E8; rewrite ?(filter_ext _ _ Hsh); try assumption.
  - reflexivity.
  - intros x [].
  - rewrite <- i_acc0. cbn [ids map app]. rewrite !app_assoc. apply Permutation_app_tail. apply Permutation_app_comm.
  - intros j Hj. destruct (i_fut0 j Hj) as (H1 & H2 & H3). unfold break_all. rewrite i_pend0. destruct (existsb (Z.eqb j) (ids (queue tr))) eqn:E.
    + apply existsb_in in E. split; [intros H; exfalso; exact (Hnt j E H)|]. split; [reflexivity|]. intros _ H. exfalso. apply H. apply in_or_app. left. exact E.
    + assert (~ In j (ids (queue tr))) as Hq by (intros H; apply existsb_in in H; congruence). split; [exact H1|]. split.
      * intros H. apply in_app_or in H. destruct H; [contradiction|apply H2; assumption].
      * intros H H'. apply H3; [exact H|]. intros Hd. apply H'. apply in_or_app. right. exact Hd.
Qed.
Lemma tinv_shut tr s t f : tinv tr s -> tinv (LShutdown t :: tr) (with_stk t f (with_shut true s)).
Proof. intros []. constructor; projs; cbn [queue taken dropped added started finished shutdown_requested active]; try assumption. reflexivity. Qed.

Lemma tinv_step tr s l s' : step s l s' -> inv s -> tinv tr s -> (Z.of_nat (length (added (l :: tr))) < id_mod)%Z -> tinv (l :: tr) s'.
Proof.
  intros Hs HV HT Hb. destruct Hs; try body_facts.
  all: try (apply (tinv_frame tr _ s); [exact HT|reflexivity|unfold release, disown; projs; reflexivity..|]; unfold release, disown; projs; intros v Hv; rewrite ?phase_wake; unfold upd;
    repeat match goal with |- context [Nat.eqb ?a ?b] => destruct (Nat.eqb_spec a b); [subst|] end; try reflexivity; use_eqs; try reflexivity).
  all: repeat match goal with H : _ \/ _ |- _ => destruct H; use_eqs; try reflexivity end.
  all: try (destruct (shut s); reflexivity).
  all: try (destruct (find_ready _ _); reflexivity).
  all: try (match goal with H : is_blocked (wk ?s ?w) = true |- _ => destruct (wk s w); try discriminate H; reflexivity end).
  - eapply tinv_take; eassumption.
  - eapply tinv_reg; eassumption.
  - eapply tinv_call; eassumption.
  - eapply tinv_finish; eassumption.
  - eapply tinv_dereg; eassumption.
  - apply tinv_push; [exact HT| |subst k; reflexivity]. cbn [added] in Hb. rewrite app_length in Hb. cbn [length] in Hb. lia.
  - (* body *) destruct o; cbn [body] in H1.
    all: try (injection H1 as <- <- <-; apply (tinv_frame tr _ s); [exact HT|reflexivity|projs; reflexivity..]).
    + destruct (index_of id (ids (pending s))) as [i|] eqn:Ei; injection H1 as <- <- <-.
      * destruct (index_of_some _ _ _ Ei) as (k & Hk & <-). apply tinv_cancel; assumption.
      * apply (tinv_frame tr _ s); [exact HT|reflexivity|projs; reflexivity..].
    + injection H1 as <- <- <-. eapply tinv_clear; [exact HT|reflexivity..].
  - destruct x; (apply (tinv_frame tr _ s); [exact HT|reflexivity|projs; reflexivity..]).
  - apply tinv_shut. exact HT.
  - eapply tinv_clear; [exact HT|reflexivity..].
Qed.
Lemma added_mono l tr : length (added tr) <= length (added (l :: tr)).
Proof. destruct l; cbn [added]; try lia. rewrite app_length. lia. Qed.
Lemma tinv_exec n c s0 tr s : construct n c = Ok s0 -> exec s0 tr s -> (Z.of_nat (length (added tr)) < id_mod)%Z -> tinv tr s.
Proof.
  intros H E. induction E as [|tr s l s' E IH Hs]; intros Hb; [eapply tinv_init; exact H|].
  pose proof (added_mono l tr). eapply tinv_step; [exact Hs|eapply inv_exec; eassumption|apply IH; lia|exact Hb].
Qed.
