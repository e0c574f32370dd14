(** Lemmas about fair executions of Trigger *)
From Coq Require Import ZArith List Bool Lia Arith.
From Verif Require Import TrigModel TrigSpec TrigProofs TrigFairSpec.
Import ListNotations.
Local Open Scope nat_scope.

Lemma point_dec (p q : point) : {p = q} + {p <> q}.
Proof. repeat decide equality. Qed.
Lemma first_change (f : nat -> point) i : forall j, i <= j -> f j <> f i -> exists m, i <= m < j /\ f m = f i /\ f (S m) <> f m.
Proof.
  induction j as [|j IH]; intros Hj Hn; [replace i with 0 in Hn by lia; congruence|].
  destruct (Nat.eq_dec i (S j)) as [->|Hij]; [congruence|]. destruct (point_dec (f j) (f i)) as [E|E].
  - exists j. split; [lia|]. split; [exact E|congruence].
  - destruct (IH ltac:(lia) E) as (m & H1 & H2). exists m. split; [lia|exact H2].
Qed.
Definition nxt (s : st) (l : label) (t : nat) (p' : point) : Prop :=
  match pc s t with
  | PIdle => exists o, l = LCall t o /\ p' = first o
  | SLock o b => p' = SWrite o b
  | SWrite o b => p' = SRel o b
  | SRel o b => p' = if b then SNote o else SRet o
  | SNote o => p' = SRet o
  | SRet o => p' = PIdle /\ l = LRet t o None
  | GLock => p' = GRead
  | GRead => exists r, p' = GRel r
  | GRel r => p' = GRet r
  | GRet r => p' = PIdle /\ l = LRet t OGet (Some r)
  | WLock o => p' = match duration o with Some _ => WClock o | None => WTest o (deadline o) end
  | WClock o => exists dur, duration o = Some dur /\ p' = WTest o (Some (Steady, steady s + dur)%Z)
  | WTest o k => p' = WRel o true \/ p' = WBlock o k /\ trig s = false
  | WBlock o k => p' = WBlocked o k
  | WBlocked o k => p' = WWake o k
  | WWake o k => p' = WCheck o k
  | WCheck o k => p' = WTest o k \/ p' = WLast o
  | WLast o => exists r, p' = WRel o r
  | WRel o r => p' = WRet o r
  | WRet o r => p' = PIdle /\ l = LRet t o (value_of o r)
  end.
Lemma next_pc s l s' t : step s l s' -> pc s' t = pc s t \/ nxt s l t (pc s' t).
Proof.
  intros Hs. destruct Hs; try destruct c; projs; try (left; reflexivity).
  all: unfold upd; destruct (Nat.eqb_spec t t0) as [->|Hn]; try (left; reflexivity).
  all: try (right; unfold nxt; match goal with H : pc _ _ = _ |- _ => rewrite H end; eauto; fail).
  - unfold nxt. destruct (pc s t); cbn [wake]; try (left; reflexivity). right. reflexivity.
  - right. unfold nxt. rewrite H. destruct (trig s); tauto.
Qed.

Lemma mtx_next s l s' u : step s l s' -> mtx s = Some u -> mtx s' = Some u \/ mtx s' = None.
Proof. intros Hs Hm. destruct Hs; try destruct c; projs; try (left; assumption); try (right; reflexivity); congruence. Qed.
Lemma hold_next s l s' u : step s l s' -> hold (pc s u) = true -> pc s' u = pc s u \/ hold (pc s' u) = false \/ hr (pc s' u) < hr (pc s u).
Proof.
  intros Hs Hh. destruct (next_pc _ _ _ u Hs) as [E|E]; [left; exact E|right]. unfold nxt in E. destruct (pc s u); try discriminate Hh.
  - rewrite E. right. cbn. lia.
  - rewrite E. left. destruct b; reflexivity.
  - destruct E as (x & ->). right. cbn. lia.
  - rewrite E. left. reflexivity.
  - destruct E as (d & _ & ->). right. cbn. lia.
  - right. destruct E as [->|[-> _]]; cbn; lia.
  - rewrite E. left. reflexivity.
  - right. destruct E as [->| ->]; cbn; lia.
  - destruct E as (x & ->). right. cbn. lia.
  - rewrite E. left. reflexivity.
Qed.
Lemma note_wakes s l s' u t o : step s l s' -> pc s u = SNote o -> pc s' u <> pc s u -> isblocked (pc s t) = true -> pc s' t <> pc s t.
Proof.
  intros Hs Hu Hc Hb. destruct Hs; try destruct c; projs; try congruence.
  all: unfold upd in Hc; destruct (Nat.eqb_spec u t0) as [<-|Hn]; try congruence.
  - unfold upd. destruct (Nat.eqb_spec t u) as [->|Hn]; [rewrite Hu in Hb; discriminate Hb|]. destruct (pc s t); try discriminate Hb. discriminate.
  - rewrite Hu in Hc. cbn in Hc. congruence.
Qed.

Section Fair.
Variables (b0 : bool) (r : nat -> st) (ev : nat -> label).
Hypotheses (Hr : runs b0 r ev) (Hf : fair r) (Hd : lasting r).

Lemma exec_upto i : exec (initial b0) (upto ev i) (r i).
Proof. destruct Hr as [H0 H1]. induction i as [|i IH]; [rewrite H0; constructor|]. cbn [upto]. econstructor; [exact IH|apply H1]. Qed.
Lemma inv_at i : inv (r i).
Proof. eapply inv_exec, exec_upto. Qed.
Lemma tinv_at i : tinv b0 (upto ev i) (r i).
Proof. apply tinv_exec, exec_upto. Qed.
Lemma stp i : step (r i) (ev i) (r (S i)).
Proof. apply Hr. Qed.
Definition moving (i t : nat) : Prop := exists m, i <= m /\ pc (r m) t = pc (r i) t /\ pc (r (S m)) t <> pc (r m) t.
Lemma moving_if i j t : i <= j -> pc (r j) t <> pc (r i) t -> moving i t.
Proof. intros Hj Hn. destruct (first_change (fun n => pc (r n) t) i j Hj Hn) as (m & A & B & C). exists m. split; [lia|]. tauto. Qed.
(** a thread at p moves on, if at every later time at which it is still there it is able to go on at some later time *)
Lemma moves_on i t : (forall j, i <= j -> pc (r j) t = pc (r i) t -> exists k, j <= k /\ (pc (r k) t = pc (r i) t -> match pc (r i) t with PIdle => False | SLock _ _ | GLock | WLock _ | WWake _ _ => mtx (r k) = None | WBlocked _ (Some (c, d)) => (d <= now c (r k))%Z | WBlocked _ None => False | _ => True end)) -> moving i t.
Proof.
  intros H. destruct (Hf t i) as (j & Hj & [Hc|Hn]).
  - destruct (point_dec (pc (r j) t) (pc (r i) t)) as [E|E]; [exists j; tauto|apply (moving_if i j t Hj E)].
  - destruct (point_dec (pc (r j) t) (pc (r i) t)) as [E|E]; [|apply (moving_if i j t Hj E)].
    destruct (H j Hj E) as (k & Hk & Ha). destruct (point_dec (pc (r k) t) (pc (r i) t)) as [E'|E']; [exfalso; apply (Hn k Hk); split; [apply Hd|rewrite E'; apply Ha; exact E']|apply (moving_if i k t ltac:(lia) E')].
Qed.
Lemma free_mover i t : match pc (r i) t with PIdle | SLock _ _ | GLock | WLock _ | WWake _ _ | WBlocked _ _ => False | _ => True end -> moving i t.
Proof. intros H. apply moves_on. intros j Hj E. exists j. split; [lia|]. intros _. destruct (pc (r i) t); try destruct H; exact I. Qed.
Lemma mutex_free : forall n i, (forall u, mtx (r i) = Some u -> hr (pc (r i) u) <= n) -> exists j, i <= j /\ mtx (r j) = None.
Proof.
  induction n as [|n IH]; intros i Hn.
  - destruct (mtx (r i)) as [u|] eqn:E; [|exists i; split; [lia|exact E]]. specialize (Hn u eq_refl). pose proof (proj2 (i_mtx _ (inv_at i) u) E) as Hh. destruct (pc (r i) u); try discriminate Hh; cbn [hr] in Hn; lia.
  - destruct (mtx (r i)) as [u|] eqn:E; [|exists i; split; [lia|exact E]]. specialize (Hn u eq_refl). pose proof (proj2 (i_mtx _ (inv_at i) u) E) as Hh.
    destruct (free_mover i u) as (m & Hm & E1 & E2); [destruct (pc (r i) u); try discriminate Hh; exact I|]. rewrite <- E1 in Hh. pose proof (proj1 (i_mtx _ (inv_at m) u) Hh) as Em.
    destruct (hold_next _ _ _ u (stp m) Hh) as [C|[C|C]]; [congruence| |].
    + destruct (mtx_next _ _ _ _ (stp m) Em) as [F|F]; [|exists (S m); split; [lia|exact F]]. apply (proj2 (i_mtx _ (inv_at (S m)) u)) in F. congruence.
    + destruct (IH (S m)) as (j & Hj & Ej); [|exists j; split; [lia|exact Ej]]. intros v Ev. destruct (mtx_next _ _ _ _ (stp m) Em) as [F|F]; [|congruence]. rewrite F in Ev. injection Ev as <-. rewrite E1 in C. lia.
Qed.
Lemma hr_bound p : hr p <= 6.
Proof. destruct p; cbn; lia. Qed.
Lemma mutex_later i : exists j, i <= j /\ mtx (r j) = None.
Proof. apply (mutex_free 6). intros u _. apply hr_bound. Qed.
(** every thread in a call moves on, unless it is blocked on the condition variable *)
Lemma unblocked_moves i t : pc (r i) t <> PIdle -> isblocked (pc (r i) t) = false -> moving i t.
Proof.
  intros Hp Hb. apply moves_on. intros j Hj E. destruct (mutex_later j) as (k & Hk & Em). exists k. split; [exact Hk|]. intros E'. destruct (pc (r i) t); try discriminate Hb; try congruence; exact I.
Qed.
(** a blocked thread moves on when the trigger is set *)
Lemma notified i t : isblocked (pc (r i) t) = true -> trig (r i) = true -> moving i t.
Proof.
  intros Hb Ht. destruct (i_wake _ (inv_at i) t Hb Ht) as (u & Hu).
  assert (K : forall i', i <= i' -> (exists o, pc (r i') u = SNote o) -> moving i t).
  { intros i' Hi (o & Ho). destruct (free_mover i' u) as (m & Hm & E1 & E2); [rewrite Ho; exact I|].
    rewrite Ho in E1. destruct (point_dec (pc (r m) t) (pc (r i) t)) as [E|E]; [|apply (moving_if i m t ltac:(lia) E)].
    exists m. split; [lia|]. split; [exact E|]. rewrite <- E in Hb. apply (note_wakes _ _ _ _ _ _ (stp m) E1 E2 Hb). }
  destruct (pc (r i) u) as [|o b|o b|o b|o| | | | | | | | | | | | | | |] eqn:Eu; try discriminate Hu; [|apply (K i); [lia|exists o; exact Eu]]. destruct b; [|discriminate Hu].
  destruct (free_mover i u) as (m & Hm & E1 & E2); [rewrite Eu; exact I|].
  apply (K (S m)); [lia|]. destruct (next_pc _ _ _ u (stp m)) as [C|C]; [congruence|]. unfold nxt in C. rewrite E1, Eu in C. exists o. exact C.
Qed.

(** * Calls return *)
Definition rk (timed : bool) (p : point) : nat :=
  match p with
  | PIdle => 0
  | SLock _ _ => 5 | SWrite _ _ => 4 | SRel _ _ => 3 | SNote _ => 2 | SRet _ => 1
  | GLock => 4 | GRead => 3 | GRel _ => 2 | GRet _ => 1
  | WLock _ => 13 | WClock _ => 12 | WBlock _ _ => 10 | WBlocked _ _ => 9 | WWake _ _ => 8 | WCheck _ _ => 7
  | WTest _ _ => if timed then 11 else 6
  | WLast _ => 5 | WRel _ _ => 4 | WRet _ _ => 3
  end.
Lemma descends m s l s' t o : step s l s' -> opof (pc s t) = Some o -> (m = false -> forall k, pc s t = WTest o k -> trig s = true) -> (m = true -> forall k, pc s t = WCheck o k -> pc s' t <> WTest o k) ->
  pc s' t = pc s t \/ (exists x, l = LRet t o x) \/ rk m (pc s' t) < rk m (pc s t) /\ opof (pc s' t) = Some o.
Proof.
  intros Hs Ho H1 H2. destruct (next_pc _ _ _ t Hs) as [E|E]; [left; exact E|right]. unfold nxt in E. destruct (pc s t) as [|o' b|o' b|o' b|o'|o'| | |x|x|o'|o'|o' k|o' k|o' k|o' k|o' k|o'|o' x|o' x] eqn:Ep; cbn [opof] in Ho; try discriminate Ho; try (injection Ho as ->).
  all: try (right; rewrite E; cbn [rk opof]; split; [lia|congruence]).
  - right. rewrite E. destruct b; cbn [rk opof]; split; try lia; reflexivity.
  - left. destruct E as [_ ->]. eexists. reflexivity.
  - right. destruct E as (x & ->). cbn [rk opof]. split; [lia|congruence].
  - left. destruct E as [_ ->]. injection Ho as <-. eexists. reflexivity.
  - right. rewrite E. destruct (duration o); cbn [rk opof]; split; try reflexivity; destruct m; lia.
  - right. destruct E as (d & _ & ->). cbn [rk opof]. split; [destruct m; lia|reflexivity].
  - right. destruct E as [->|[-> E]]; cbn [rk opof]; (split; [|reflexivity]); destruct m; try lia. rewrite (H1 eq_refl k eq_refl) in E. discriminate E.
  - right. destruct E as [E|E]; [|rewrite E; cbn [rk opof]; split; [lia|reflexivity]]. rewrite E. cbn [rk opof]. split; [|reflexivity]. destruct m; [exfalso; exact (H2 eq_refl k eq_refl E)|lia].
  - right. destruct E as (x & ->). cbn [rk opof]. split; [lia|reflexivity].
  - left. destruct E as [_ ->]. eexists. reflexivity.
Qed.
Lemma returns_gen m (Q : point -> Prop) t o i0 :
  (forall p, Q p -> p <> PIdle) ->
  (forall j, i0 <= j -> Q (pc (r j) t) -> pc (r (S j)) t = pc (r j) t \/ (exists x, ev j = LRet t o x) \/ rk m (pc (r (S j)) t) < rk m (pc (r j) t) /\ Q (pc (r (S j)) t)) ->
  (forall j, i0 <= j -> Q (pc (r j) t) -> isblocked (pc (r j) t) = true -> moving j t) ->
  forall n i, i0 <= i -> rk m (pc (r i) t) <= n -> Q (pc (r i) t) -> exists j x, i <= j /\ ev j = LRet t o x.
Proof.
  intros Hi Hdesc Hblk. induction n as [n IH] using (well_founded_induction lt_wf); intros i H0 Hn HQ.
  assert (G : moving i t). { destruct (isblocked (pc (r i) t)) eqn:Eb; [apply Hblk; assumption|apply unblocked_moves; [apply Hi; exact HQ|exact Eb]]. }
  destruct G as (k & Hk & E1 & E2). rewrite <- E1 in HQ. destruct (Hdesc k ltac:(lia) HQ) as [C|[(x & C)|[C1 C2]]]; [congruence|exists k, x; split; [exact Hk|exact C]|].
  rewrite E1 in C1. destruct (IH (rk m (pc (r (S k)) t)) ltac:(lia) (S k) ltac:(lia) (le_n _) C2) as (j & x & Hj & Ej). exists j, x. split; [lia|exact Ej].
Qed.
Lemma set_returns t o i : in_call t (upto ev i) = Some o -> (is_wait o = true -> forall j, i <= j -> value b0 (upto ev j) = true) -> exists j x, i <= j /\ ev j = LRet t o x.
Proof.
  intros Hc Hv. rewrite (j_call _ _ _ (tinv_at i)) in Hc.
  assert (W : forall j p, pc (r j) t = p -> waiting p = true -> opof p = Some o -> is_wait o = true).
  { intros j p E Hw Ho. pose proof (i_wf _ (inv_at j) t) as F. rewrite E in F. destruct p; try discriminate Hw; cbn [opof] in Ho; injection Ho as ->; try (destruct o; try reflexivity; destruct F; fail). destruct F as (d & F). destruct o; try discriminate F; reflexivity. }
  assert (V : is_wait o = true -> forall j, i <= j -> trig (r j) = true) by (intros Hw j Hj; rewrite <- (j_val _ _ _ (tinv_at j)); apply Hv; assumption).
  apply (returns_gen false (fun p => opof p = Some o) t o i) with (n := rk false (pc (r i) t)); try lia; try exact Hc.
  - intros p Hp ->. discriminate Hp.
  - intros j Hj Ho. apply descends; [apply stp|exact Ho| |discriminate]. intros _ k E. apply V; [|exact Hj]. apply (W j _ E); [reflexivity|]. rewrite <- E. exact Ho.
  - intros j Hj Ho Hb. apply notified; [exact Hb|]. apply V; [|exact Hj]. apply (W j _ eq_refl); [|exact Ho]. destruct (pc (r j) t); try discriminate Hb; reflexivity.
Qed.

(** * Time-outs *)
Hypothesis Ht : timely r.
Definition kn (k : option (clk * Z)) (p : point) : Prop :=
  match p with
  | WTest _ k' | WBlock _ k' | WBlocked _ k' | WWake _ k' | WCheck _ k' => k' = k
  | WLast _ | WRel _ _ | WRet _ _ => True
  | _ => False
  end.
Lemma kn_next s l s' t o k : step s l s' -> opof (pc s t) = Some o -> kn k (pc s t) -> (exists x, l = LRet t o x) \/ opof (pc s' t) = Some o /\ kn k (pc s' t).
Proof.
  intros Hs Ho Hk. destruct (next_pc _ _ _ t Hs) as [E|E]; [right; rewrite E; tauto|]. unfold nxt in E. destruct (pc s t) as [|o' b|o' b|o' b|o'|o'| | |x|x|o'|o'|o' k'|o' k'|o' k'|o' k'|o' k'|o'|o' x|o' x] eqn:Ep; cbn [opof kn] in *; try (destruct Hk; fail); injection Ho as ->.
  all: try (right; rewrite E; cbn [opof kn]; tauto).
  - right. destruct E as [->|[-> _]]; cbn [opof kn]; tauto.
  - right. destruct E as [->| ->]; cbn [opof kn]; tauto.
  - right. destruct E as (x & ->). cbn [opof kn]. tauto.
  - left. destruct E as [_ ->]. eexists. reflexivity.
Qed.
Lemma kn_later t o k i : opof (pc (r i) t) = Some o -> kn k (pc (r i) t) -> forall n, (exists j x, i <= j /\ ev j = LRet t o x) \/ opof (pc (r (i + n)) t) = Some o /\ kn k (pc (r (i + n)) t).
Proof.
  intros Ho Hk. induction n as [|n [IH|[A B]]]; [right; rewrite Nat.add_0_r; tauto|left; exact IH|].
  rewrite Nat.add_succ_r. destruct (kn_next _ _ _ t o k (stp (i + n)) A B) as [(x & E)|G]; [left; exists (i + n), x; split; [lia|exact E]|right; exact G].
Qed.
Lemma kn_returns t o c d i n : opof (pc (r i) t) = Some o -> kn (Some (c, d)) (pc (r i) t) -> (forall j, n <= j -> (d <= now c (r j))%Z) -> exists j x, i <= j /\ ev j = LRet t o x.
Proof.
  intros Ho Hk Hn. destruct (kn_later t o _ i Ho Hk n) as [G|[A B]]; [exact G|].
  destruct (returns_gen true (fun p => opof p = Some o /\ kn (Some (c, d)) p) t o (i + n)) with (n := rk true (pc (r (i + n)) t)) (i := i + n) as (j & x & Hj & E); try lia; try tauto.
  - intros p [Hp _] ->. discriminate Hp.
  - intros j Hj [P1 P2]. destruct (descends true _ _ _ t o (stp j) P1) as [C|[C|[C1 C2]]]; [discriminate| |tauto|tauto|].
    + intros _ k' E. rewrite E in P2. cbn [kn] in P2. subst k'. apply Ht; [exact E|]. apply Hn. lia.
    + destruct (kn_next _ _ _ t o _ (stp j) P1 P2) as [G|G]; tauto.
  - intros j Hj [P1 P2] Hb. apply moves_on. intros k Hk' E. exists k. split; [lia|]. intros _. destruct (pc (r j) t); try discriminate Hb. cbn [kn] in P2. subst k0. apply Hn. lia.
  - exists j, x. split; [lia|exact E].
Qed.
Lemma steady_mono i : forall j, i <= j -> (steady (r i) <= steady (r j))%Z.
Proof.
  induction j as [|j IH]; intros Hj; [replace i with 0 by lia; lia|]. destruct (Nat.eq_dec i (S j)) as [->|]; [lia|]. specialize (IH ltac:(lia)). pose proof (stp j) as Hs.
  assert (G : (steady (r j) <= steady (r (S j)))%Z); [|lia]. destruct Hs; try destruct c; projs; try lia. auto.
Qed.
Lemma time_returns t o i : in_call t (upto ev i) = Some o -> time_passes ev o -> exists j x, i <= j /\ ev j = LRet t o x.
Proof.
  intros Hc Hp. pose proof Hc as Hc0. rewrite (j_call _ _ _ (tinv_at i)) in Hc.
  assert (Hw : waits o) by (destruct o; try destruct Hp; exact I).
  assert (C : forall c j, clock_of c (upto ev j) = now c (r j)) by (intros c j; apply (j_clk _ _ _ (tinv_at j))).
  (* with a known deadline *)
  assert (K : forall i', i <= i' -> opof (pc (r i') t) = Some o -> (exists c d, kn (Some (c, d)) (pc (r i') t) /\ (o = OUntil c d \/ c = Steady /\ exists dur, duration o = Some dur)) -> exists j x, i <= j /\ ev j = LRet t o x).
  { intros i' Hi Ho (c & d & Hk & Hq). assert (N : exists n, forall j, n <= j -> (d <= now c (r j))%Z).
    { destruct Hq as [->|[-> (dur & Hd')]].
      - destruct Hp as (n & Hn). exists n. intros j Hj. rewrite <- C. apply Hn. exact Hj.
      - assert (P : forall x, exists n, (x <= clock_of Steady (upto ev n))%Z) by (destruct o; try discriminate Hd'; exact Hp). destruct (P d) as (n & Hn). exists n. intros j Hj. cbn [now]. rewrite C in Hn. cbn [now] in Hn. pose proof (steady_mono n j Hj). lia. }
    destruct N as (n & Hn). destruct (kn_returns t o c d i' n Ho Hk Hn) as (j & x & Hj & E). exists j, x. split; [lia|exact E]. }
  assert (K2 : forall i', i <= i' -> pc (r i') t = WClock o -> exists j x, i <= j /\ ev j = LRet t o x).
  { intros i' Hi E. destruct (unblocked_moves i' t) as (m & Hm & E1 & E2); [rewrite E; discriminate|rewrite E; reflexivity|].
    destruct (next_pc _ _ _ t (stp m)) as [F|F]; [congruence|]. unfold nxt in F. rewrite E1, E in F. destruct F as (dur & D & F). apply (K (S m)); [lia|rewrite F; reflexivity|]. exists Steady, (steady (r m) + dur)%Z. rewrite F. split; [reflexivity|]. right. split; [reflexivity|exists dur; exact D]. }
  pose proof (j_fact _ _ _ (tinv_at i) t) as Hfact. pose proof (i_wf _ (inv_at i) t) as Hwf.
  destruct (pc (r i) t) as [|o' b|o' b|o' b|o'|o'| | |x|x|o'|o'|o' k'|o' k'|o' k'|o' k'|o' k'|o'|o' x|o' x] eqn:Ep; cbn [opof] in Hc; try discriminate Hc; first [injection Hc as ->|injection Hc as <-; destruct Hw].
  all: try (unfold setter in Hwf; destruct o; try destruct Hw; exfalso; first [destruct Hwf as [Hwf|[Hwf _]]; discriminate Hwf | destruct Hwf as (bb & [Hwf|[Hwf _]]); discriminate Hwf]).
  { destruct (unblocked_moves i t) as (m & Hm & E1 & E2); [rewrite Ep; discriminate|rewrite Ep; reflexivity|].
    destruct (next_pc _ _ _ t (stp m)) as [F|F]; [congruence|]. unfold nxt in F. rewrite E1, Ep in F. destruct (duration o) as [dur|] eqn:D; [apply (K2 (S m)); [lia|exact F]|].
    apply (K (S m)); [lia|rewrite F; reflexivity|]. destruct o; try discriminate D; try (destruct Hp; fail). exists c, d. rewrite F. split; [reflexivity|left; reflexivity]. }
  { apply (K2 i (le_n i) Ep). }
  all: apply (K i (le_n i)); [rewrite Ep; reflexivity|]; rewrite Ep; cbn [kn].
  all: try (cbn [fact] in Hfact; destruct k' as [[c d]|]; cbn [kfact] in Hfact; [|subst o; destruct Hp]; exists c, d; split; [reflexivity|]; destruct Hfact as [F|(F & dur & h1 & D & _)]; [left; exact F|right; split; [exact F|exists dur; exact D]]).
  all: destruct o; try (destruct Hp; fail); try (destruct Hw; fail); first [exists c, d; split; [exact I|left; reflexivity]|exists Steady, 0%Z; split; [exact I|right; split; [reflexivity|eexists; reflexivity]]].
Qed.
End Fair.
