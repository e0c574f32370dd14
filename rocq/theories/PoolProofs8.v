(** ThreadPool: consequences for histories of events. *)
From Coq Require Import ZArith List Bool Lia Arith Permutation Sorted.
From Verif Require Import Base PoolModel PoolSpec PoolProofs PoolProofs2 PoolProofs3 PoolProofs4 PoolProofs5 PoolProofs6 PoolProofs7.
Import ListNotations.
Local Open Scope nat_scope.

Lemma exec_app s0 a b s : exec s0 (a ++ b) s -> exists s1, exec s0 b s1 /\ exec s1 a s.
Proof.
  revert s. induction a as [|l a IH]; intros s E; [exists s; split; [exact E|constructor]|]. inversion E as [|tr' s1 l' s' E1 Hs]; subst.
  destruct (IH _ E1) as (s2 & H1 & H2). exists s2. split; [exact H1|econstructor; eassumption].
Qed.
Lemma added_app_len a b : length (added b) <= length (added (a ++ b)).
Proof. induction a as [|l a IH]; [reflexivity|]. cbn [app]. pose proof (added_mono l (a ++ b)). lia. Qed.
Lemma history_app n c a b : history n c (a ++ b) -> history n c b.
Proof. intros (s0 & s & H & E & Hb). destruct (exec_app _ _ _ _ E) as (s1 & E1 & _). exists s0, s1. split; [exact H|]. split; [exact E1|]. pose proof (added_app_len a b). lia. Qed.
Lemma history_legal n c a l b : history n c (a ++ l :: b) -> legal n c b l.
Proof.
  intros H. apply history_app in H. destruct H as (s0 & s & H & E & Hb). eapply legal_exec; [exact H|exact E|]. pose proof (added_mono l b). lia.
Qed.
Lemma history_tinv n c tr : history n c tr -> exists s, tinv tr s /\ nw s = n.
Proof. intros (s0 & s & H & E & Hb). exists s. split; [eapply tinv_exec; eassumption|]. apply (const_exec _ _ _ _ _ H E). Qed.

(** * Where events come from *)
Lemma queue_added k tr : In k (queue tr) -> exists t, In (LAdd t k) tr.
Proof.
  induction tr as [|l tr IH]; [intros []|]. intros H. assert (G : In k (queue tr) -> exists t, In (LAdd t k) (l :: tr)) by (intros H'; destruct (IH H') as (t & Ht); exists t; right; exact Ht).
  destruct l; cbn [queue] in H; try (apply G; exact H); try destruct H.
  - apply in_app_or in H. destruct H as [H|[->|[]]]; [apply G; exact H|exists t; left; reflexivity].
  - apply G. unfold without in H. apply filter_In in H. tauto.
  - destruct b; [|apply G; exact H]. apply G. unfold without in H. apply filter_In in H. tauto.
Qed.
Lemma active_taken w k tr : In (w, k) (active tr) -> exists now a b, tr = a ++ LTake w (t_id k) now :: b /\ In k (queue b).
Proof.
  induction tr as [|l tr IH]; [intros []|]. intros H.
  assert (G : In (w, k) (active tr) -> exists now a b, l :: tr = a ++ LTake w (t_id k) now :: b /\ In k (queue b)) by (intros H'; destruct (IH H') as (now & a & b & E & Hq); exists now, (l :: a), b; rewrite E; split; [reflexivity|exact Hq]).
  destruct l; cbn [active] in H; try (apply G; exact H).
  - apply in_app_or in H. destruct H as [H|H]; [apply G; exact H|]. apply in_map_iff in H. destruct H as (k' & [= -> ->] & H). apply filter_In in H. destruct H as [H1 H2]. apply Z.eqb_eq in H2. exists now, [], tr. rewrite H2. split; [reflexivity|exact H1].
  - apply G. apply filter_In in H. tauto.
Qed.
Lemma started_in id tr : In id (started tr) <-> exists w, In (LStart w id) tr.
Proof.
  induction tr as [|l tr IH]; [cbn; split; [intros []|intros (w & [])]|].
  assert (G : In id (started tr) -> exists w, In (LStart w id) (l :: tr)) by (intros H; apply IH in H; destruct H as (w & H); exists w; right; exact H).
  split.
  - intros H. destruct l; cbn [started] in H; try (apply G; exact H). destruct H as [<-|H]; [exists w; left; reflexivity|apply G; exact H].
  - intros (w & [->|H]); [left; reflexivity|]. assert (In id (started tr)) by (apply IH; exists w; exact H). destruct l; cbn [started]; try assumption. right. assumption.
Qed.
Lemma taken_in id tr : In id (taken tr) <-> exists w now, In (LTake w id now) tr.
Proof.
  induction tr as [|l tr IH]; [cbn; split; [intros []|intros (w & now & [])]|].
  assert (G : In id (taken tr) -> exists w now, In (LTake w id now) (l :: tr)) by (intros H; apply IH in H; destruct H as (w & now & H); exists w, now; right; exact H).
  split.
  - intros H. destruct l; cbn [taken] in H; try (apply G; exact H). destruct H as [<-|H]; [exists w, now; left; reflexivity|apply G; exact H].
  - intros (w & now & [->|H]); [left; reflexivity|]. assert (In id (taken tr)) by (apply IH; exists w, now; exact H). destruct l; cbn [taken]; try assumption. right. assumption.
Qed.
Lemma taken_app a b : taken (a ++ b) = taken a ++ taken b.
Proof. induction a as [|l a IH]; [reflexivity|]. destruct l; cbn [app taken]; try exact IH. rewrite IH. reflexivity. Qed.
Lemma started_app a b : started (a ++ b) = started a ++ started b.
Proof. induction a as [|l a IH]; [reflexivity|]. destruct l; cbn [app started]; try exact IH. rewrite IH. reflexivity. Qed.
Lemma finished_app a b : finished (a ++ b) = finished a ++ finished b.
Proof. induction a as [|l a IH]; [reflexivity|]. destruct l; cbn [app finished]; try exact IH. rewrite IH. reflexivity. Qed.
Lemma dropped_app id a b : In id (dropped b) -> In id (dropped (a ++ b)).
Proof. intros H. induction a as [|l a IH]; [exact H|]. cbn [app]. destruct l; cbn [dropped]; try exact IH; try (apply in_or_app; right; exact IH). destruct b0; [right|]; exact IH. Qed.
Lemma shut_app a b : shutdown_requested b = true -> shutdown_requested (a ++ b) = true.
Proof. intros H. induction a as [|l a IH]; [exact H|]. cbn [app]. destruct l; cbn [shutdown_requested]; try exact IH. reflexivity. Qed.
Lemma shut_in tr : shutdown_requested tr = true <-> exists t, In (LShutdown t) tr.
Proof.
  induction tr as [|l tr IH]; [cbn; split; [discriminate|intros (t & [])]|]. split.
  - intros H. destruct l; cbn [shutdown_requested] in H; try (apply IH in H; destruct H as (t' & H); exists t'; right; exact H). exists t. left. reflexivity.
  - intros (t & [->|H]); [reflexivity|]. assert (shutdown_requested tr = true) by (apply IH; exists t; exact H). destruct l; cbn [shutdown_requested]; try assumption. reflexivity.
Qed.
Lemma take_unique n c tr w id now w' now' : history n c tr -> In (LTake w id now) tr -> In (LTake w' id now') tr -> w = w' /\ now = now'.
Proof.
  intros H H1 H2. destruct (history_tinv _ _ _ H) as (s & HT & _). pose proof (NoDup_app_l _ _ (NoDup_app_r _ _ (acc_nodup _ _ HT))) as Hnd. clear - Hnd H1 H2.
  induction tr as [|l tr IH]; [destruct H1|]. destruct H1 as [->|H1], H2 as [E|H2].
  - injection E as <- <-. tauto.
  - exfalso. cbn [taken] in Hnd. apply NoDup_cons_iff in Hnd. apply (proj1 Hnd). apply taken_in. exists w', now'. exact H2.
  - subst l. exfalso. cbn [taken] in Hnd. apply NoDup_cons_iff in Hnd. apply (proj1 Hnd). apply taken_in. exists w, now. exact H1.
  - apply IH; try assumption. destruct l; cbn [taken] in Hnd; try exact Hnd. inversion Hnd; assumption.
Qed.
Lemma start_take n c tr2 w id tr1 : history n c (tr2 ++ LStart w id :: tr1) -> exists k now a b, tr1 = a ++ LTake w id now :: b /\ In k (queue b) /\ t_id k = id.
Proof. intros H. apply history_legal in H. cbn [legal] in H. destruct H as [(k & Ha & E) _]. destruct (active_taken _ _ _ Ha) as (now & a & b & E1 & Hq). exists k, now, a, b. rewrite <- E. tauto. Qed.
Lemma NoDup_map_inj {A B} (f : A -> B) (l : list A) x y : NoDup (map f l) -> In x l -> In y l -> f x = f y -> x = y.
Proof.
  induction l as [|a l IH]; [intros _ []|]. cbn. intros Hnd. inversion Hnd; subst. intros [->|Hx] [->|Hy] E; try reflexivity.
  - exfalso. apply H1. rewrite E. apply in_map. exact Hy.
  - exfalso. apply H1. rewrite <- E. apply in_map. exact Hx.
  - apply IH; assumption.
Qed.
Lemma take_facts n c a w id now b : history n c (a ++ LTake w id now :: b) ->
  exists k t h g, b = g ++ h /\ clock_of h = now /\ In k (queue h) /\ t_id k = id /\ (t_start k <= now)%Z /\ In (LAdd t k) h.
Proof.
  intros H. apply history_legal in H. destruct H as (_ & _ & _ & (q1 & k & q2 & E & E1 & E2 & _) & (g & h & E3 & E4 & E5)).
  assert (Hk : In k (queue h)) by (rewrite E5, E; apply in_or_app; right; left; reflexivity). destruct (queue_added _ _ Hk) as (t & Ht). exists k, t, h, g. tauto.
Qed.
(** * One effect per call *)
Lemma effects_inv t tr o e : last_call t tr = Some o -> effects t tr = [e] ->
  exists a b d, tr = a ++ e :: b ++ LCall t o :: d /\ (forall l, In l (a ++ b) -> effect_by t l = false /\ forall o', l <> LCall t o') /\ effect_by t e = true.
Proof.
  induction tr as [|l tr IH]; [discriminate|]. intros Hl He.
  assert (G : effect_by t l = false -> (forall o', l <> LCall t o') -> last_call t tr = Some o -> effects t tr = [e] -> exists a b d, l :: tr = a ++ e :: b ++ LCall t o :: d /\ (forall l, In l (a ++ b) -> effect_by t l = false /\ forall o', l <> LCall t o') /\ effect_by t e = true).
  { intros N1 N2 N3 N4. destruct (IH N3 N4) as (a & b & d & E & F & X). exists (l :: a), b, d. rewrite E. split; [reflexivity|]. split; [|exact X]. intros l' [<-|Hl']; [tauto|apply F; exact Hl']. }
  assert (G2 : effect_by t l = true -> (forall t' o', l <> LCall t' o') -> last_call t tr = Some o -> l = e -> effects t tr = [] -> exists a b d, l :: tr = a ++ e :: b ++ LCall t o :: d /\ (forall l, In l (a ++ b) -> effect_by t l = false /\ forall o', l <> LCall t o') /\ effect_by t e = true).
  { intros N1 _ N3 <- N4. clear - N1 N3 N4. assert (Hx : exists b d, tr = b ++ LCall t o :: d /\ (forall l, In l b -> effect_by t l = false /\ forall o', l <> LCall t o')).
    { induction tr as [|l' tr IH]; [discriminate|]. destruct (effect_by t l') eqn:E1.
      - exfalso. destruct l'; try discriminate E1; cbn [effects] in N4; rewrite E1 in N4; discriminate.
      - assert (G : (forall o', l' <> LCall t o') -> last_call t tr = Some o -> effects t tr = [] -> exists b d, l' :: tr = b ++ LCall t o :: d /\ (forall l, In l b -> effect_by t l = false /\ forall o', l <> LCall t o')).
        { intros M1 M2 M3. destruct (IH M2 M3) as (b & d & E & F). exists (l' :: b), d. rewrite E. split; [reflexivity|]. intros l2 [<-|Hl2]; [tauto|apply F; exact Hl2]. }
        destruct l'; cbn [last_call effects] in *; try rewrite E1 in N4; try (apply G; [discriminate|exact N3|exact N4]).
        destruct (Nat.eqb_spec t0 t) as [->|Ht]; [|apply G; [congruence|exact N3|exact N4]]. injection N3 as ->. exists [], tr. split; [reflexivity|intros ? []]. }
    destruct Hx as (b & d & E & F). exists [], b, d. rewrite E. split; [reflexivity|]. split; [exact F|exact N1]. }
  destruct l; cbn [last_call effects] in *;
    try (destruct (effect_by t _) eqn:Eb in He; [injection He as E1 E2; apply G2; try assumption; discriminate|apply G; try assumption; discriminate]); try (apply G; try reflexivity; try assumption; discriminate).
  destruct (Nat.eqb_spec t0 t) as [->|Ht]; [discriminate He|apply G; try reflexivity; try assumption; congruence].
Qed.
Lemma return_effect n c tr2 t o r tr1 : history n c (tr2 ++ LReturn t o r :: tr1) -> r <> RNoPool ->
  exists a h, tr1 = a ++ effect_of t o r :: h /\ during t o tr1 h /\ legal n c h (effect_of t o r).
Proof.
  intros H Hr. pose proof (history_legal _ _ _ _ _ H) as HL. cbn [legal] in HL. destruct HL as [HL|[HL1 HL2]]; [congruence|].
  destruct (effects_inv _ _ _ _ HL1 HL2) as (a & b & d & E & F & X). exists a, (b ++ LCall t o :: d). split; [exact E|]. split.
  - exists (a ++ [effect_of t o r]), b, d. split; [rewrite E, <- app_assoc; reflexivity|]. split; [reflexivity|]. intros o' Ho. rewrite <- app_assoc in Ho. apply in_app_or in Ho. destruct Ho as [Ho|[Ho|Ho]].
    + refine (proj2 (F (LCall t o') _) o' eq_refl). apply in_or_app. tauto.
    + rewrite Ho in X. discriminate X.
    + refine (proj2 (F (LCall t o') _) o' eq_refl). apply in_or_app. tauto.
  - apply (history_legal n c (tr2 ++ LReturn t o r :: a)). rewrite <- app_assoc. cbn [app]. rewrite <- E. exact H.
Qed.

(** * Handles that were used up *)
Definition cop (o : op) (id : Z) : Prop := o = OCancel id.
Definition cframe (id : Z) (f : frame) : Prop :=
  match f with HWeak o | CLock o | CBody o | CRel o _ | CNote o _ | CRet o _ => o = OCancel id | _ => False end.
Record ret_ok (tr : list label) (s : st) : Prop := {
  r_ret : forall id, retired id tr -> valid s id = false /\ (0 <= id < next s)%Z;
  r_drop : forall t id, In (HDrop id) (stk s t) -> stk s t = [HDrop id; HWeak (OCancel id)] /\ (0 <= id < next s)%Z;
  r_fr : forall t f id, In f (stk s t) -> cframe id f -> (0 <= id < next s)%Z /\ (valid s id = false \/ In (HDrop id) (stk s t)) }.
Lemma retired_cons id l tr : retired id (l :: tr) -> (exists t r, l = LReturn t (OCancel id) r) \/ (exists t x, l = LResult t id (Some x)) \/ retired id tr.
Proof. intros (t & r & [[H|H]|(x & [H|H])]); [left; eauto|right; right; exists t, r; tauto|right; left; eauto|right; right; exists t, RFull; right; exists x; exact H]. Qed.
Lemma ret_step tr s l s' : step s l s' -> tinv tr s -> (Z.of_nat (length (added (l :: tr))) < id_mod)%Z -> ret_ok tr s -> ret_ok (l :: tr) s'.
Proof.
  intros Hs HT Hb [R1 R2 R3].
  assert (Hnx : (next s <= next s')%Z).
  { pose proof (i_next _ _ HT) as Hn. destruct Hs; try body_facts; unfold release, disown; projs; try lia. cbn [added] in Hb. rewrite app_length in Hb. cbn [length] in Hb. rewrite Z.mod_small; lia. }
  assert (Hva : forall id, (0 <= id < next s)%Z -> valid s id = false -> valid s' id = false).
  { intros id Hid Hv. destruct Hs; try body_facts; unfold release, disown; projs; try exact Hv; try (rewrite B13; exact Hv); unfold updz; match goal with |- context [Z.eqb ?a ?b] => destruct (Z.eqb_spec a b) end; try exact Hv; try reflexivity; lia. }
  assert (FIX : forall t f rest new, stk s t = f :: rest -> (forall id, f <> HDrop id) -> (forall g, In g new -> In g rest \/ (forall id, cframe id g -> cframe id f) /\ (forall id, g <> HDrop id)) ->
     (forall id, ~ In (HDrop id) (stk s t)) /\ (forall id, ~ In (HDrop id) new) /\ (forall f id, In f new -> cframe id f -> exists g, In g (stk s t) /\ cframe id g)).
  { intros t f rest new Hk Hf Hn. assert (Hno : forall id, ~ In (HDrop id) (stk s t)) by (intros id Hi; destruct (R2 t id Hi) as [E _]; rewrite Hk in E; injection E as E _; exact (Hf id E)).
    split; [exact Hno|]. rewrite Hk in *. split.
    - intros id Hi. destruct (Hn _ Hi) as [H|[_ H]]; [exact (Hno id (or_intror H))|exact (H id eq_refl)].
    - intros g id Hg Hc. destruct (Hn _ Hg) as [H|[H _]]; [exists g; split; [right; exact H|exact Hc]|exists f; split; [left; reflexivity|apply H; exact Hc]]. }
  assert (Hst : forall t0, (forall f, In f (stk s' t0) -> (forall id, ~ cframe id f) /\ (forall id, f <> HDrop id)) \/ stk s' t0 = stk s t0 \/
     (exists id, stk s t0 = [] /\ stk s' t0 = [HDrop id; HWeak (OCancel id)] /\ (0 <= id < next s)%Z) \/
     (exists id rest, stk s t0 = HDrop id :: rest /\ stk s' t0 = rest /\ valid s' id = false) \/
     (forall id, ~ In (HDrop id) (stk s t0)) /\ (forall id, ~ In (HDrop id) (stk s' t0)) /\ (forall f id, In f (stk s' t0) -> cframe id f -> exists g, In g (stk s t0) /\ cframe id g)).
  { intros t0. destruct Hs; try body_facts; unfold release, disown; projs; unfold upd; try rewrite B10.
    all: try (right; left; reflexivity).
    all: match goal with |- context [Nat.eqb ?a ?b] => destruct (Nat.eqb_spec a b) as [->|Ht0]; [|right; left; reflexivity] end.
    all: try (left; intros f Hf; cbn [In] in Hf; repeat destruct Hf as [<-|Hf]; try destruct Hf; (split; intros; [|discriminate]); cbn [cframe]; try tauto; try (intros ->; discriminate); try discriminate; fail).
    all: try (right; right; left; match goal with |- context [HDrop ?i] => exists i end; split; [assumption|]; split; [reflexivity|assumption]).
    all: try (right; right; right; left; match goal with H : stk _ _ = HDrop ?i :: ?r |- _ => exists i, r end; split; [assumption|]; split; [reflexivity|]; unfold updz; rewrite Z.eqb_refl; reflexivity).
    all: try (rewrite H; match goal with |- context [if ?x then _ else _] => destruct x end; [|right; left; reflexivity]; left; intros f [<-|Hf]; [split; intros; [intros []|discriminate]|]; destruct Hf; fail).
    all: try (rewrite H1; match goal with |- context [if ?x then _ else _] => destruct x end; [|right; left; reflexivity]; left; intros f [<-|Hf]; [split; intros; [intros []|discriminate]|]; destruct Hf; fail).
    all: try (rewrite H0; match goal with |- context [if ?x then _ else _] => destruct x end; [|right; left; reflexivity]; left; intros f [<-|Hf]; [split; intros; [intros []|discriminate]|]; destruct Hf; fail).
    all: right; right; right; right; eapply FIX; [eassumption|discriminate|intros g Hg].
    all: repeat match type of Hg with In _ (match ?x with _ => _ end :: _) => destruct x | In _ (if ?x then _ else _) => destruct x | In _ (match ?x with _ => _ end) => destruct x end.
    all: cbn [In app] in Hg; rewrite ?in_app_iff in Hg; cbn [In] in Hg; repeat match type of Hg with _ \/ _ => destruct Hg as [Hg|Hg] end; try (left; assumption); try contradiction; try (left; right; assumption); try (right; subst g; split; [cbn [cframe]; intros; congruence|discriminate]); try (left; left; assumption).
    all: try (right; subst g; split; [cbn [cframe]; intros; tauto|discriminate]).
    all: rewrite H in Hg; destruct Hg as [Hg|Hg]; [right; subst g; split; [intros; assumption|discriminate]|left; exact Hg]. }
  constructor.
  - intros id Hr. apply retired_cons in Hr. destruct Hr as [(t & r & ->)|[(t & x & ->)|Hr]].
    + assert (Hf : exists f, In f (stk s t) /\ cframe id f /\ ~ In (HDrop id) (stk s t)).
      { inversion Hs; subst.
        - exfalso. match goal with H : body _ _ _ = _ |- _ => destruct (body_label _ _ _ _ _ _ H ltac:(assumption)) as [E _] end. destruct o, r0; discriminate E.
        - exists (CRet (OCancel id) r). match goal with H : stk s t = _ |- _ => rewrite H; pose proof (FIX t _ _ rest H) as X; rewrite H in X end. split; [left; reflexivity|]. split; [reflexivity|]. apply X; [discriminate|]. intros g Hg. left. exact Hg.
        - destruct x; discriminate.
        - exists (HWeak (OCancel id)). match goal with H : stk s t = _ |- _ => rewrite H end. split; [left; reflexivity|]. split; [reflexivity|]. intros [H0|[]]; discriminate. }
      destruct Hf as (f & F1 & F2 & F3). destruct (R3 t f id F1 F2) as [F4 [F5|F5]]; [|contradiction]. split; [apply Hva; assumption|lia].
    + inversion Hs; subst; projs.
      * exfalso. match goal with H : body _ _ _ = _ |- _ => destruct (body_label _ _ _ _ _ _ H ltac:(assumption)) as [E _] end. destruct o, r; discriminate E.
      * destruct x0; discriminate.
      * unfold updz. rewrite Z.eqb_refl. split; [reflexivity|assumption].
    + destruct (R1 id Hr). split; [apply Hva; assumption|lia].
  - intros t id Hi. destruct (Hst t) as [A|[A|[(i & A1 & A2 & A3)|[(i & rest & A1 & A2 & A3)|(A1 & A2 & A3)]]]].
    + exfalso. exact (proj2 (A _ Hi) id eq_refl).
    + rewrite A in *. destruct (R2 t id Hi). split; [assumption|lia].
    + rewrite A2 in *. destruct Hi as [[= ->]|[Hi|[]]]; [|discriminate]. split; [reflexivity|lia].
    + exfalso. destruct (R2 t i ltac:(rewrite A1; left; reflexivity)) as [E _]. rewrite E in A1. injection A1 as <-. rewrite A2 in Hi. destruct Hi as [Hi|[]]; discriminate.
    + exfalso. exact (A2 id Hi).
  - intros t f id Hi Hc. destruct (Hst t) as [A|[A|[(i & A1 & A2 & A3)|[(i & rest & A1 & A2 & A3)|(A1 & A2 & A3)]]]].
    + exfalso. exact (proj1 (A _ Hi) id Hc).
    + rewrite A in *. destruct (R3 t f id Hi Hc) as [E1 [E2|E2]]; (split; [lia|]); [left; apply Hva; assumption|right; exact E2].
    + rewrite A2 in *. destruct Hi as [<-|[<-|[]]]; [destruct Hc|]. cbn in Hc. injection Hc as ->. split; [lia|]. right. left. reflexivity.
    + destruct (R2 t i ltac:(rewrite A1; left; reflexivity)) as [E Ei]. rewrite E in A1. injection A1 as <-. rewrite A2 in Hi. destruct Hi as [<-|[]]. cbn in Hc. injection Hc as ->. split; [lia|left; exact A3].
    + destruct (A3 f id Hi Hc) as (g & G1 & G2). destruct (R3 t g id G1 G2) as [E1 [E2|E2]]; [|exfalso; exact (A1 id E2)]. split; [lia|]. left. apply Hva; assumption.
Qed.
Lemma ret_exec n c s0 tr s : construct n c = Ok s0 -> exec s0 tr s -> (Z.of_nat (length (added tr)) < id_mod)%Z -> ret_ok tr s.
Proof.
  intros H E. induction E as [|tr s l s' E IH Hs]; intros Hb.
  - destruct (construct_ok _ _ _ H) as (_ & _ & ->). constructor; cbn; [intros id (t & r & [[]|(x & [])])|intros ? ? []|intros ? ? ? []].
  - pose proof (added_mono l tr). eapply ret_step; [exact Hs|eapply tinv_exec; [exact H|exact E|lia]|exact Hb|apply IH; lia].
Qed.
Lemma retired_legal n c a l b id : history n c (a ++ l :: b) -> retired id b -> (forall t, l <> LState t id TComplete) /\ (forall t, l <> LComplete t id true) /\ (forall t r, l <> LResult t id (Some r)).
Proof.
  intros H Hr. apply history_app in H. destruct H as (s0 & s & H & E & Hb). inversion E as [|tr' s1 l' s' E1 Hs]; subst. pose proof (added_mono l b) as Hm.
  destruct (r_ret _ _ (ret_exec _ _ _ _ _ H E1 ltac:(lia)) id Hr) as [Hv _].
  assert (Hbody : forall t o s2 r, body t o s1 = (s2, r, l) -> (forall start name, o <> OAdd start name) -> (forall t, l <> LState t id TComplete) /\ (forall t, l <> LComplete t id true) /\ (forall t r, l <> LResult t id (Some r))).
  { intros t o s2 r Hbd Ho. destruct (body_label _ _ _ _ _ _ Hbd Ho) as [-> _]. destruct o, r; repeat split; discriminate. }
  destruct Hs; try (repeat split; discriminate); try (eapply Hbody; eassumption).
  - destruct (call_exec _ _ _ _ _ H E1 t) as [_ C]. specialize (C (CRet (OState id0) (RState x))). rewrite H0 in C. specialize (C (or_introl eq_refl)). destruct C as (_ & _ & C). specialize (C id0 eq_refl).
    repeat split; intros; destruct x; try discriminate; destruct C as [C|[C|C]]; discriminate C.
  - repeat split; intros; try discriminate. intros [= -> -> Hx]. rewrite Hv in Hx. discriminate Hx.
  - repeat split; intros; try discriminate. intros [= -> -> Hx]. rewrite Hv in Hx. discriminate Hx.
  - repeat split; intros; try discriminate. intros [= -> -> Hx]. congruence.
Qed.

(** * Order of execution *)
Lemma undelayed_cons l tr : undelayed (l :: tr) -> undelayed tr.
Proof. intros H g h k E. apply (H (l :: g)). rewrite E. reflexivity. Qed.
Lemma sorted_filter (p : task -> bool) l : StronglySorted Z.lt (ids l) -> StronglySorted Z.lt (ids (filter p l)).
Proof.
  induction l as [|k l IH]; [intros; constructor|]. cbn [ids map filter]. intros H. apply StronglySorted_inv in H. destruct H as [H1 H2]. destruct (p k); [|apply IH; exact H1]. cbn [ids map]. constructor; [apply IH; exact H1|].
  rewrite Forall_forall in *. intros x Hx. apply H2. unfold ids in *. apply in_map_iff in Hx. destruct Hx as (k' & <- & Hk'). apply in_map. apply filter_In in Hk'. tauto.
Qed.
Lemma sorted_snoc l x : StronglySorted Z.lt l -> (forall y, In y l -> (y < x)%Z) -> StronglySorted Z.lt (l ++ [x]).
Proof.
  induction l as [|a l IH]; intros H Hx; [repeat constructor|]. apply StronglySorted_inv in H. destruct H as [H1 H2]. cbn. constructor; [apply IH; [exact H1|intros; apply Hx; right; assumption]|].
  rewrite Forall_forall in *. intros y Hy. apply in_app_or in Hy. destruct Hy as [Hy|[<-|[]]]; [apply H2; exact Hy|apply Hx; left; reflexivity].
Qed.
Lemma added_bound n c tr id : history n c tr -> In id (ids (added tr)) <-> (0 <= id < Z.of_nat (length (added tr)))%Z.
Proof. intros H. destruct (history_tinv _ _ _ H) as (s & HT & _). rewrite <- (i_next _ _ HT). apply ids_bound. exact HT. Qed.
Lemma queue_added_ids n c tr id : history n c tr -> In id (ids (queue tr)) -> In id (ids (added tr)).
Proof. intros H Hi. destruct (history_tinv _ _ _ H) as (s & HT & _). unfold ids in *. apply in_map_iff in Hi. destruct Hi as (k & <- & Hk). apply in_map. apply (i_sub _ _ HT). exact Hk. Qed.
Lemma queue_sorted n c tr : history n c tr -> StronglySorted Z.lt (ids (queue tr)).
Proof.
  induction tr as [|l tr IH]; intros H; [constructor|]. pose proof (history_app n c [l] tr H) as H'. specialize (IH H'). pose proof (history_legal n c [] l tr H) as HL.
  destruct l; cbn [queue]; try exact IH; try constructor.
  - unfold ids. rewrite map_app. cbn [map]. apply sorted_snoc; [exact IH|]. intros y Hy. cbn [legal] in HL. destruct HL as [_ HL]. rewrite HL. apply (queue_added_ids _ _ _ _ H') in Hy. apply (added_bound _ _ _ _ H') in Hy. lia.
  - apply sorted_filter. exact IH.
  - destruct b; [apply sorted_filter; exact IH|exact IH].
Qed.
Lemma fifo n c tr : history n c tr -> undelayed tr -> StronglySorted Z.gt (taken tr) /\ (forall x y, In x (taken tr) -> In y (ids (queue tr)) -> (x < y)%Z).
Proof.
  induction tr as [|l tr IH]; intros H Hd; [split; [constructor|intros x y []]|]. pose proof (history_app n c [l] tr H) as H'. specialize (IH H' (undelayed_cons _ _ Hd)). destruct IH as [I1 I2]. pose proof (history_legal n c [] l tr H) as HL.
  assert (Hsub : forall q, (forall y, In y (ids q) -> In y (ids (queue tr))) -> forall x y, In x (taken tr) -> In y (ids q) -> (x < y)%Z) by (intros q Hq x y Hx Hy; apply I2; [exact Hx|apply Hq; exact Hy]).
  assert (Hw : forall id y, In y (ids (without id (queue tr))) -> In y (ids (queue tr))) by (intros id y Hy; unfold ids, without in *; apply in_map_iff in Hy; destruct Hy as (k & <- & Hk); apply in_map; apply filter_In in Hk; tauto).
  destruct l; cbn [taken queue]; try (split; [exact I1|exact I2]).
  - split; [exact I1|]. intros x y Hx Hy. unfold ids in Hy. rewrite map_app in Hy. apply in_app_or in Hy. destruct Hy as [Hy|[<-|[]]]; [apply I2; assumption|]. cbn [legal] in HL. destruct HL as [_ ->].
    destruct (history_tinv _ _ _ H') as (s & HT & _). assert (Hx' : In x (ids (added tr))) by (eapply Permutation_in; [apply (i_acc _ _ HT)|apply in_or_app; right; apply in_or_app; left; exact Hx]). apply (added_bound _ _ _ _ H') in Hx'. lia.
  - cbn [legal] in HL. destruct HL as (_ & _ & _ & (q1 & k & q2 & E & Ek & Est & Hq1) & (g & h & Eg & Ec & Eq)).
    assert (q1 = []). { destruct q1 as [|a q1]; [reflexivity|]. exfalso. specialize (Hq1 a (or_introl eq_refl)). assert (Hle : (t_start a <= clock_of h)%Z). { apply (Hd (LTake w id now :: g) h); [rewrite Eg; reflexivity|]. rewrite Eq, E. left. reflexivity. } lia. }
    subst q1. cbn [app] in E. pose proof (queue_sorted _ _ _ H') as HS. rewrite E in HS. cbn [ids map] in HS. apply StronglySorted_inv in HS. destruct HS as [HS1 HS2]. rewrite Forall_forall in HS2. subst id. split.
    + constructor; [exact I1|]. rewrite Forall_forall. intros x Hx. assert (x < t_id k)%Z; [|lia]. apply I2; [exact Hx|]. rewrite E. left. reflexivity.
    + intros x y [<-|Hx] Hy; [|apply I2; [exact Hx|apply (Hw _ _ Hy)]]. unfold ids, without in Hy. apply in_map_iff in Hy. destruct Hy as (k' & <- & Hk'). apply filter_In in Hk'. destruct Hk' as [Hk' Hne]. rewrite E in Hk'. destruct Hk' as [<-|Hk']; [rewrite Z.eqb_refl in Hne; discriminate|]. apply HS2. apply in_map. exact Hk'.
  - split; [exact I1|]. destruct b; [apply Hsub; apply Hw|exact I2].
  - split; [exact I1|]. intros x y _ [].
  - split; [exact I1|]. intros x y _ [].
Qed.
(** with one worker, at most the last task that was taken has not been started yet *)
Lemma one_worker c tr : history 1 c tr -> taken tr = started tr \/ exists k, taken tr = t_id k :: started tr /\ In (0, k) (active tr).
Proof.
  induction tr as [|l tr IH]; intros H; [left; reflexivity|]. pose proof (history_app 1 c [l] tr H) as H'. specialize (IH H'). pose proof (history_legal 1 c [] l tr H) as HL. destruct (history_tinv _ _ _ H') as (s & HT & Hn).
  destruct l; cbn [taken started active]; try exact IH; cbn [legal] in HL.
  - destruct HL as (Hw & _ & Hf & (q1 & k & q2 & E & Ek & _) & _). assert (w = 0) by lia. subst w. right. exists k. split.
    + destruct IH as [->|(k' & _ & Hk')]; [rewrite Ek; reflexivity|]. exfalso. exact (Hf k' Hk').
    + apply in_or_app. right. apply (in_map (fun k => (0, k))). apply filter_In. split; [rewrite E; apply in_or_app; right; left; reflexivity|]. rewrite Ek. apply Z.eqb_refl.
  - destruct HL as [(k & Ha & Ek) Hno]. destruct (i_actw _ _ HT _ Ha) as (_ & _ & Htk). unfold aid in Htk. cbn [snd] in Htk. rewrite Ek in Htk. destruct IH as [E|(k' & E & _)]; rewrite E in Htk; [contradiction|]. destruct Htk as [Htk|Htk]; [|contradiction]. left. rewrite E, Htk. reflexivity.
  - destruct IH as [E|(k & E & Ha)]; [left; exact E|right]. exists k. split; [exact E|]. apply filter_In. split; [exact Ha|]. cbn [snd]. destruct HL as [_ Hfin]. apply (proj1 (proj2 (i_fin _ _ HT))) in Hfin.
    destruct (Z.eqb_spec (t_id k) id) as [Ei|]; [|reflexivity]. exfalso. pose proof (NoDup_app_l _ _ (NoDup_app_r _ _ (acc_nodup _ _ HT))) as Hnd. rewrite E in Hnd. apply NoDup_cons_iff in Hnd. apply (proj1 Hnd). rewrite Ei. exact Hfin.
Qed.
Lemma account n c tr id : history n c tr -> In id (ids (added tr)) -> In id (ids (queue tr)) \/ In id (taken tr) \/ In id (dropped tr).
Proof. intros H Hi. destruct (history_tinv _ _ _ H) as (s & HT & _). eapply Permutation_in in Hi; [|symmetry; apply (i_acc _ _ HT)]. rewrite !in_app_iff in Hi. exact Hi. Qed.
Lemma nodup_app_excl {A} (a b : list A) x : NoDup (a ++ b) -> In x a -> In x b -> False.
Proof. induction a as [|y a IH]; [intros _ []|]. cbn. intros H. apply NoDup_cons_iff in H. destruct H as [H1 H2]. intros [->|Ha] Hb; [apply H1; apply in_or_app; tauto|exact (IH H2 Ha Hb)]. Qed.
Lemma excl n c tr id : history n c tr -> (In id (ids (queue tr)) -> ~ In id (taken tr) /\ ~ In id (dropped tr)) /\ (In id (taken tr) -> ~ In id (dropped tr)).
Proof.
  intros H. destruct (history_tinv _ _ _ H) as (s & HT & _). pose proof (acc_nodup _ _ HT) as Hnd. split.
  - intros Hq. split; intros Hx; eapply (nodup_app_excl _ _ _ Hnd Hq); apply in_or_app; tauto.
  - intros Hq Hx. exact (nodup_app_excl _ _ _ (NoDup_app_r _ _ Hnd) Hq Hx).
Qed.
Lemma started_taken n c tr id : history n c tr -> In id (started tr) -> In id (taken tr).
Proof. intros H. destruct (history_tinv _ _ _ H) as (s & HT & _). apply (proj1 (proj2 (i_start _ _ HT))). Qed.
(** * The life of a task *)
Lemma phase_queue n c g h id : history n c (g ++ h) -> In id (ids (added h)) -> In id (ids (queue (g ++ h))) -> In id (ids (queue h)).
Proof.
  intros H Ha Hq. destruct (account _ _ _ _ (history_app _ _ _ _ H) Ha) as [A|[A|A]]; [exact A| |]; exfalso; destruct (proj1 (excl _ _ _ id H) Hq) as [E1 E2]; [apply E1; rewrite taken_app; apply in_or_app; right; exact A|apply E2; apply dropped_app; exact A].
Qed.
Lemma phase_active n c g h id : history n c (g ++ h) -> In id (ids (added h)) -> In id (aids (g ++ h)) -> In id (ids (queue h)) \/ In id (aids h).
Proof.
  intros H Ha. induction g as [|l g IH]; [right; assumption|]. intros Hi. specialize (IH (history_app _ _ [l] _ H)).
  cbn [app] in Hi. unfold aids in *. destruct l; cbn [active] in Hi; try (apply IH; exact Hi).
  - rewrite map_app in Hi. apply in_app_or in Hi. destruct Hi as [Hi|Hi]; [apply IH; exact Hi|]. left. rewrite map_map in Hi. cbn [snd] in Hi. apply (phase_queue n c g h id (history_app _ _ [_] _ H) Ha). unfold ids. apply in_map_iff in Hi. destruct Hi as (k & <- & Hk). apply in_map. apply filter_In in Hk. tauto.
  - apply IH. apply in_map_iff in Hi. destruct Hi as (x & <- & Hx). apply filter_In in Hx. apply (in_map (fun x => t_id (snd x))). tauto.
Qed.
Lemma state_added n c g t id d : history n c (g ++ LCall t (OState id) :: d) -> In id (ids (added d)).
Proof.
  intros H. apply history_app in H. destruct H as (s0 & s & H & E & Hb). inversion E as [|tr' s1 l' s' E1 Hs]; subst. pose proof (added_mono (LCall t (OState id)) d) as Hm. pose proof (tinv_exec _ _ _ _ _ H E1 ltac:(lia)) as HT.
  apply (ids_bound _ _ HT). inversion Hs; subst; try discriminate; try assumption.
  - match goal with H : body _ _ _ = _ |- _ => destruct (body_label _ _ _ _ _ _ H ltac:(assumption)) as [El _] end. destruct o, r; discriminate El.
  - destruct x; discriminate.
Qed.
Lemma state_moment n c tr2 t id x tr1 : history n c (tr2 ++ LState t id x :: tr1) ->
  exists h, during t (OState id) tr1 h /\ In id (ids (added h)) /\
    match x with TPending => In id (ids (queue h)) | TRunning => In id (aids h) | TComplete | TCanceled => ~ In id (ids (queue h)) /\ ~ In id (aids h) | TUnknown => False end.
Proof.
  intros H. pose proof (history_legal _ _ _ _ _ H) as HL. cbn [legal] in HL. destruct HL as [HL1 HL2].
  assert (He : exists r, effects t tr1 = [LQuery t (OState id) (RState r)] /\ match x with TPending => r = TPending | TRunning => r = TRunning | TComplete | TCanceled => r = TUnknown | TUnknown => False end).
  { destruct x; try tauto; try (eexists; split; [apply HL2|reflexivity]). }
  destruct He as (r & He & Hx). destruct (effects_inv _ _ _ _ HL1 He) as (a & b & d & E & F & _). set (h := b ++ LCall t (OState id) :: d) in *.
  assert (Hh : history n c (tr2 ++ LState t id x :: a ++ LQuery t (OState id) (RState r) :: h)) by (rewrite <- E; exact H).
  exists h. split.
  - exists (a ++ [LQuery t (OState id) (RState r)]), b, d. split; [rewrite E, <- app_assoc; reflexivity|]. split; [reflexivity|]. intros o' Ho. rewrite <- app_assoc in Ho. cbn [app] in Ho. apply in_app_or in Ho. destruct Ho as [Ho|[Ho|Ho]]; [|discriminate|];
      (refine (proj2 (F (LCall t o') _) o' eq_refl); apply in_or_app; tauto).
  - assert (Hc : history n c h) by (apply (history_app n c (tr2 ++ LState t id x :: a ++ [LQuery t (OState id) (RState r)])); rewrite <- app_assoc; cbn [app]; rewrite <- app_assoc; exact Hh).
    split. { unfold h in Hc |- *. pose proof (state_added _ _ _ _ _ _ Hc) as Ha. destruct (history_tinv _ _ _ Hc) as (sx & _ & _). clear - Ha. induction b as [|l b IH]; [exact Ha|]. cbn [app]. apply added_incl. exact IH. }
    pose proof (history_legal n c (tr2 ++ LState t id x :: a) (LQuery t (OState id) (RState r)) h) as HA. rewrite <- app_assoc in HA. specialize (HA Hh). cbn [legal answer] in HA.
    destruct x; try subst r; try tauto; destruct HA as [[? ?]|[[? ?]|[? ?]]]; try discriminate; tauto.
Qed.
Lemma first_call t o1 o2 a1 b1 a2 b2 : a1 ++ LCall t o1 :: b1 = a2 ++ LCall t o2 :: b2 -> (forall o, ~ In (LCall t o) a1) -> (forall o, ~ In (LCall t o) a2) -> b1 = b2.
Proof.
  revert a2. induction a1 as [|l a1 IH]; intros [|l' a2] E H1 H2.
  - injection E as _ E. exact E.
  - injection E as <- E. exfalso. apply (H2 o1). left. reflexivity.
  - injection E as -> E. exfalso. apply (H1 o2). left. reflexivity.
  - injection E as <- E. apply (IH a2 E); intros o Ho; [apply (H1 o)|apply (H2 o)]; right; exact Ho.
Qed.
Lemma state_monotone n c tr3 t' id x' tr2 t x tr1 : history n c (tr3 ++ LState t' id x' :: tr2 ++ LState t id x :: tr1) -> In (LCall t' (OState id)) tr2 -> progress x <= progress x'.
Proof.
  intros H Hc. assert (Hh1 := H). change (tr3 ++ LState t' id x' :: tr2 ++ LState t id x :: tr1) with (tr3 ++ (LState t' id x' :: tr2) ++ LState t id x :: tr1) in Hh1. rewrite app_assoc in Hh1.
  destruct (state_moment _ _ _ _ _ _ _ Hh1) as (h1 & (a1 & b1 & d1 & E1 & _ & _) & Hadd & Hx). destruct (state_moment _ _ _ _ _ _ _ H) as (h2 & (a2 & b2 & d2 & E2 & E2' & F2) & _ & Hx').
  assert (Hg : exists g, h2 = g ++ h1).
  { assert (Hl : exists o u v, tr2 = u ++ LCall t' o :: v /\ forall o', ~ In (LCall t' o') u).
    { clear - Hc. induction tr2 as [|l tr2 IH]; [destruct Hc|]. assert (D : (exists o, l = LCall t' o) \/ forall o, l <> LCall t' o). { destruct l; try (right; discriminate). destruct (Nat.eq_dec t t') as [->|]; [left; eexists; reflexivity|right; congruence]. }
      destruct D as [(o & ->)|D]; [exists o, [], tr2; split; [reflexivity|intros ? []]|]. destruct Hc as [Hc|Hc]; [exfalso; exact (D _ Hc)|]. destruct (IH Hc) as (o & u & v & E & F). exists o, (l :: u), v. rewrite E. split; [reflexivity|]. intros o' [Ho|Ho]; [exact (D _ Ho)|exact (F _ Ho)]. }
    destruct Hl as (o & u & v & E & F). rewrite E in E2. rewrite E2' in E2. rewrite <- app_assoc in E2. cbn [app] in E2. rewrite (app_assoc a2) in E2. pose proof (first_call _ _ _ _ _ _ _ E2 F F2) as Ed. exists (b2 ++ LCall t' (OState id) :: v ++ LState t id x :: a1). rewrite E2', <- Ed, E1. rewrite <- !app_assoc. cbn [app]. rewrite <- !app_assoc. reflexivity. }
  destruct Hg as (g & Eg). assert (Hh2 : history n c (g ++ h1)). { rewrite <- Eg. apply (history_app n c (tr3 ++ LState t' id x' :: a2)). rewrite <- app_assoc. cbn [app]. rewrite <- E2. exact H. }
  rewrite Eg in Hx'. pose proof (phase_queue _ _ _ _ id Hh2 Hadd) as PQ. pose proof (phase_active _ _ _ _ id Hh2 Hadd) as PA.
  assert (Hact : In id (aids h1) -> ~ In id (ids (queue (g ++ h1)))).
  { intros Ha Hq. apply PQ in Hq. destruct (history_tinv _ _ _ (history_app _ _ _ _ Hh2)) as (s & HT & _). apply (proj1 (proj1 (excl _ _ _ id (history_app _ _ _ _ Hh2)) Hq)). unfold aids in Ha. apply in_map_iff in Ha. destruct Ha as (y & <- & Hy). apply (i_actw _ _ HT _ Hy). }
  destruct x, x'; cbn [progress]; try lia; exfalso; tauto.
Qed.

(** * Accesses to the pool *)
Lemma bad_weak_worker n c tr t a m : history n c tr -> In (LQuery t (OAdd a m) RBadWeak) tr -> t < n.
Proof.
  intros H Hi. apply in_split in Hi. destruct Hi as (g & h & ->). apply history_app in H. destruct H as (s0 & s & H & E & Hb). inversion E as [|tr' s1 l' s' E1 Hs]; subst.
  destruct (const_exec _ _ _ _ _ H E1) as [<- _]. pose proof (inv_exec _ _ _ _ _ H E1) as HV.
  assert (Hk : exists start name rest, stk s1 t = CShare start name :: rest /\ strong s1 = 0).
  { inversion Hs; subst; try (destruct x; discriminate).
    - do 3 eexists. split; eassumption.
    - match goal with H : body _ _ _ = _ |- _ => destruct (body_label _ _ _ _ _ _ H ltac:(assumption)) as [El _] end. destruct o; try (destruct r; discriminate El). exfalso. match goal with H : forall start name, OAdd _ _ <> OAdd start name |- _ => eapply H; reflexivity end. }
  destruct Hk as (start & name & rest & Hk & Hst). destruct (Nat.lt_ge_cases t (nw s1)) as [Hl|Hl]; [exact Hl|]. exfalso. pose proof (v_cov _ HV t Hl) as Hc. rewrite Hk in Hc. destruct Hc as [Hc _]. specialize (Hc eq_refl).
  pose proof (v_refs _ HV t) as Hr. rewrite Hk in Hr. cbn [cnt holds_ref b2n] in Hr. pose proof (cnt_pos holds_ref _ _ Hc eq_refl). unfold strong in Hst. destruct (refs s1); [cbn in Hr; lia|cbn in Hst; lia].
Qed.
Lemma covered_cdrop f l : covered l -> In f l -> accesses f = true -> In CDrop l.
Proof. induction l as [|a l IH]; [intros _ []|]. intros [H1 H2] [->|Hf] Ha; right; [apply H1; exact Ha|apply IH; assumption]. Qed.
Lemma freed_quiet s : inv s -> freed s = true -> (forall w, w < nw s -> wk s w = WExit) /\ (forall t f, In f (stk s t) -> accesses f = false /\ is_dtor f = false).
Proof.
  intros HV Hf. destruct (v_join _ HV) as (_ & _ & J3). specialize (J3 Hf). assert (Hx : forall w, w < nw s -> wk s w = WExit) by (intros; apply J3; assumption). split; [exact Hx|].
  destruct (v_dt _ HV) as (d & D1 & D2). assert (d = None) by (destruct d; [destruct D2; congruence|reflexivity]). subst d. assert (Hst : strong s = 0) by (apply D2; exact Hf).
  intros t f Hi. split; [|eapply cnt_zero; [apply (D1 t)|exact Hi]]. destruct (accesses f) eqn:Ea; [|reflexivity]. exfalso. destruct (Nat.lt_ge_cases t (nw s)) as [Hl|Hl].
  - assert (He : in_task (wk s t) = true) by (apply (v_wst _ HV t Hl); intros E; rewrite E in Hi; destruct Hi). rewrite (Hx t Hl) in He. discriminate.
  - pose proof (covered_cdrop f _ (v_cov _ HV t Hl) Hi Ea) as Hc. pose proof (v_refs _ HV t) as Hr. pose proof (cnt_pos holds_ref _ _ Hc eq_refl). unfold strong in Hst. destruct (refs s); [cbn in Hr; lia|cbn in Hst; lia].
Qed.
Lemma freed_step s l s' : inv s -> freed s = true -> step s l s' -> touches l = false /\ freed s' = true.
Proof.
  intros HV Hf Hs. destruct (freed_quiet s HV Hf) as [Hx Hq].
  destruct Hs; try (split; [reflexivity|exact Hf]).
  all: try (rewrite Hx in * by assumption; discriminate).
  all: try (match goal with H : stk ?s ?t = ?f :: ?r |- _ => destruct (Hq t f) as [E1 E2]; [rewrite H; left; reflexivity|]; first [discriminate E1|discriminate E2] end).
  - destruct x; (split; [reflexivity|exact Hf]).
Qed.
Lemma free_last n c tr t h : history n c (tr ++ LFree t :: h) -> forall l, In l tr -> touches l = false.
Proof.
  intros (s0 & s & H & E & _). destruct (exec_app _ _ _ _ E) as (s1 & E1 & E2). assert (Hf : freed s1 = true).
  { inversion E1 as [|tr' s2 l' s' E3 Hs]; subst. inversion Hs; subst; try (destruct x; discriminate); try reflexivity.
    match goal with H : body _ _ _ = _ |- _ => destruct (body_label _ _ _ _ _ _ H ltac:(assumption)) as [El _] end. destruct o, r; discriminate El. }
  assert (G : freed s = true /\ forall l, In l tr -> touches l = false); [|apply G]. clear E. induction E2 as [|tr s l s' E2 IH Hs]; [split; [exact Hf|intros ? []]|]. destruct IH as [I1 I2].
  assert (HV : inv s) by (eapply inv_exec; [exact H|eapply exec_trans; eassumption]). destruct (freed_step s l s' HV I1 Hs) as [F1 F2]. split; [exact F2|]. intros l' [<-|Hl]; [exact F1|apply I2; exact Hl].
Qed.
(** * The destructor *)
Lemma client_dtor s t rest : inv s -> nw s <= t -> stk s t = DLock :: rest -> mtx s <> Some t.
Proof.
  intros HV Hn Hk Hm. pose proof (v_mtx _ HV t) as HM. unfold nh, own in HM. rewrite Hm, Nat.eqb_refl in HM. destruct (Nat.ltb_spec t (nw s)) as [|_]; [lia|]. cbn [andb b2n Nat.add] in HM.
  destruct (v_dt _ HV) as (d & D1 & D2). pose proof (D1 t) as Dt. rewrite Hk in Dt. cbn [cnt is_dtor b2n] in Dt. destruct d as [d|]; [|cbn in Dt; lia]. destruct D2 as [D2 _].
  assert (Hf : exists f, In f rest /\ fholds f = true). { rewrite Hk in HM. cbn [cnt fholds b2n Nat.add] in HM. clear - HM. induction rest as [|a l IH]; cbn [cnt] in HM; [discriminate|]. destruct (fholds a) eqn:E; [exists a; split; [left; reflexivity|exact E]|]. destruct (IH HM) as (f & H1 & H2). exists f. split; [right; exact H1|exact H2]. }
  destruct Hf as (f & Hf & Hh). assert (Ha : accesses f = true).
  { destruct f; try discriminate Hh; try reflexivity; exfalso; pose proof (cnt_pos is_dtor _ _ Hf eq_refl) as Hp; unfold own in Dt; destruct (Nat.eqb t d); cbn [b2n] in Dt; lia. }
  pose proof (covered_cdrop f _ (v_cov _ HV t Hn) ltac:(rewrite Hk; right; exact Hf) Ha) as Hc. pose proof (v_refs _ HV t) as Hr. pose proof (cnt_pos holds_ref _ _ Hc eq_refl). unfold strong in D2. destruct (refs s); [cbn in Hr; lia|cbn in D2; lia].
Qed.
(** * Only task handles find the pool gone *)
Lemma weak_ops n c s0 tr s : construct n c = Ok s0 -> exec s0 tr s -> forall t o, In (HWeak o) (stk s t) -> exists id, o = OCancel id \/ o = OState id.
Proof.
  intros H E. induction E as [|tr s l s' E IH Hs]; [destruct (construct_ok _ _ _ H) as (_ & _ & ->); intros t o []|]. intros v o Hi.
  destruct Hs; try body_facts; unfold release, disown in *; projs; unfold upd in Hi; try rewrite B10 in Hi; try (exact (IH _ _ Hi)).
  all: match type of Hi with context [Nat.eqb ?a ?b] => destruct (Nat.eqb_spec a b); [subst|exact (IH _ _ Hi)] end.
  all: repeat match type of Hi with In _ (match ?x with _ => _ end :: _) => destruct x | In _ (if ?x then _ else _) => destruct x | In _ (match ?x with _ => _ end) => destruct x end.
  all: cbn [In app] in Hi; rewrite ?in_app_iff in Hi; cbn [In] in Hi.
  all: repeat match type of Hi with _ \/ _ => destruct Hi as [Hi|Hi] end; try discriminate; try contradiction; try (exact (IH _ _ Hi)).
  all: try (match goal with H : stk ?s ?t = _ :: ?r |- _ => apply (IH t); rewrite H; right; first [exact Hi|right; exact Hi] end).
  all: injection Hi as <-; eauto.
Qed.
Lemma no_pool n c a t o b : history n c (a ++ LReturn t o RNoPool :: b) -> exists id, o = OCancel id \/ o = OState id.
Proof.
  intros H. apply history_app in H. destruct H as (s0 & s & H & E & Hb). inversion E as [|tr' s1 l' s' E1 Hs]; subst. assert (Hb' : (Z.of_nat (length (added b)) < id_mod)%Z) by (pose proof (added_mono (LReturn t o RNoPool) b); lia).
  inversion Hs; subst.
  - match goal with H : body _ _ _ = _ |- _ => destruct (body_label _ _ _ _ _ _ H ltac:(assumption)) as [El _] end. destruct o0, r; discriminate El.
  - destruct (call_exec _ _ _ _ _ H E1 t) as [_ C]. specialize (C (CRet o RNoPool)). match goal with Hk : stk s1 t = _ |- _ => rewrite Hk in C end. specialize (C (or_introl eq_refl)). destruct C as (Cl & Ce & _).
    destruct (effects_inv t b o _ Cl Ce) as (a' & b' & d & Ea & _). assert (HQ : legal n c (b' ++ LCall t o :: d) (effect_of t o RNoPool)).
    { apply (history_legal n c a'). rewrite <- Ea. exists s0, s1. tauto. }
    destruct o; cbn in HQ; try contradiction.
  - destruct x; discriminate.
  - eapply (weak_ops _ _ _ _ _ H E1 t). match goal with Hk : stk s1 t = _ |- _ => rewrite Hk end. left. reflexivity.
Qed.
