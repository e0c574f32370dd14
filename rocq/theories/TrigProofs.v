(** Lemmas about the Trigger model *)
From Coq Require Import ZArith List Bool Lia Arith.
From Verif Require Import TrigModel TrigSpec.
Import ListNotations.
Local Open Scope Z_scope.

Definition notif (p : point) : bool := match p with SRel _ true | SNote _ => true | _ => false end.
Definition opof (p : point) : option op :=
  match p with
  | PIdle => None
  | SLock o _ | SWrite o _ | SRel o _ | SNote o | SRet o => Some o
  | GLock | GRead | GRel _ | GRet _ => Some OGet
  | WLock o | WClock o | WTest o _ | WBlock o _ | WBlocked o _ | WWake o _ | WCheck o _ | WLast o | WRel o _ | WRet o _ => Some o
  end.
Definition isblocked (p : point) : bool := match p with WBlocked _ _ => true | _ => false end.
(** a point of a setter that writes b on behalf of o *)
Definition setter (o : op) (b : bool) : Prop := o = OSet b \/ o = ODestroy /\ b = true.

Definition waits (o : op) : Prop := match o with OSet _ | OGet | ODestroy => False | _ => True end.
Record inv (s : st) : Prop := {
  i_mtx : forall t, hold (pc s t) = true <-> mtx s = Some t;
  i_wake : forall t, isblocked (pc s t) = true -> trig s = true -> exists u, notif (pc s u) = true;
  i_block : forall t o k, pc s t = WBlock o k -> trig s = false;
  i_wf : forall t, match pc s t with
                   | SLock o b | SWrite o b => setter o b
                   | SRel o b => setter o b
                   | SNote o => setter o true
                   | SRet o => exists b, setter o b
                   | WLock o | WTest o _ | WBlock o _ | WBlocked o _ | WWake o _ | WCheck o _ | WLast o | WRel o _ | WRet o _ => waits o
                   | WClock o => exists d, duration o = Some d
                   | _ => True end }.

Lemma upd_cases {A} (f : nat -> A) k v n : (n = k /\ upd f k v n = v) \/ (n <> k /\ upd f k v n = f n).
Proof. unfold upd. destruct (Nat.eqb_spec n k); [left|right]; split; auto. Qed.
Lemma upd_same {A} (f : nat -> A) k v : upd f k v k = v.
Proof. unfold upd. rewrite Nat.eqb_refl. reflexivity. Qed.
Lemma wake_hold p : hold (wake p) = hold p.
Proof. destruct p; reflexivity. Qed.
Lemma wake_notif p : notif (wake p) = notif p.
Proof. destruct p; reflexivity. Qed.
Lemma wake_opof p : opof (wake p) = opof p.
Proof. destruct p; reflexivity. Qed.
Lemma wake_blocked p : isblocked (wake p) = false.
Proof. destruct p; reflexivity. Qed.

Lemma wake_upd (f : nat -> point) b t p1 : (forall u, isblocked (f u) = true -> b = true -> exists v, notif (f v) = true) ->
  (isblocked p1 = true -> b = true -> exists v, v <> t /\ notif (f v) = true) -> (b = true -> notif (f t) = true -> notif p1 = true) ->
  forall u, isblocked (upd f t p1 u) = true -> b = true -> exists v, notif (upd f t p1 v) = true.
Proof.
  intros H1 H2 H3 u Hu Hb. assert (G : exists v, (v = t /\ notif p1 = true) \/ (v <> t /\ notif (f v) = true)).
  { destruct (upd_cases f t p1 u) as [[-> E]|[Hn E]]; rewrite E in Hu.
    - destruct (H2 Hu Hb) as (v & A & B). exists v. tauto.
    - destruct (H1 u Hu Hb) as (v & Hv). exists v. destruct (Nat.eq_dec v t) as [->|]; [left; split; [reflexivity|apply H3; assumption]|right; tauto]. }
  destruct G as (v & [[-> A]|[A B]]); [exists t; rewrite upd_same; exact A|]. exists v. unfold upd. destruct (Nat.eqb_spec v t); [congruence|exact B].
Qed.
Ltac projs := cbn [go with_mtx with_trig with_pc set_clock trig mtx steady system pc dead] in *.
Lemma inv_initial b : inv (initial b).
Proof. constructor; cbn; try discriminate; try tauto. intros t. split; discriminate. Qed.
Lemma inv_step s l s' : step s l s' -> inv s -> inv s'.
Proof.
  intros Hs [Im Iw Ib If]. constructor.
  - intros u. destruct Hs; try destruct c; projs; try apply Im.
    all: match goal with H : pc ?s ?t = _ |- _ => pose proof (Im t) as It; rewrite H in It; pose proof (Im u) as Iu; unfold upd; destruct (Nat.eqb_spec u t) as [->|Hn] end; try rewrite wake_hold; try exact Iu.
    all: try (cbn [hold] in *; first [tauto | split; congruence | destruct o; cbn; split; congruence]).
    all: try (cbn [hold] in It; split; [intros Hx; exfalso; apply Iu in Hx; intuition congruence|intros Hx; exfalso; intuition congruence]).
    all: try (destruct b; cbn [hold] in *; split; congruence).
    all: try (destruct o; cbn [first hold duration] in *; split; intros; try discriminate; tauto || congruence).
    all: try (destruct (trig s); cbn [hold] in *; exact It).
  - destruct Hs; try destruct c; projs; try exact Iw; try (apply wake_upd; [exact Iw|try discriminate|match goal with H : pc ?s ?t = _ |- _ => rewrite H; try discriminate end; try reflexivity]).
    + destruct o; discriminate.
    + intros u Hu Hb. subst b. exists t. rewrite upd_same. reflexivity.
    + destruct b; discriminate.
    + intros _. destruct b; [reflexivity|discriminate].
    + intros u Hu _. exfalso. destruct (upd_cases (fun u => wake (pc s u)) t (SRet o) u) as [[_ E]|[_ E]]; rewrite E in Hu; [discriminate|rewrite wake_blocked in Hu; discriminate].
    + destruct (duration o); discriminate.
    + destruct (trig s); discriminate.
    + intros _ Hb. rewrite (Ib _ _ _ H) in Hb. discriminate.
  - intros u o' k' Hu. destruct Hs; try destruct c; projs; try (exact (Ib u o' k' Hu)).
    all: match goal with Hu : upd ?f ?t ?p ?v = _ |- _ => destruct (upd_cases f t p v) as [[E1 E2]|[E1 E2]]; rewrite E2 in Hu; clear E2 end; try discriminate; try (exact (Ib _ _ _ Hu)).
    all: try (destruct o; discriminate Hu); try (destruct b; discriminate Hu).
    + exfalso. apply E1. assert (A1 : mtx s = Some t) by (apply Im; rewrite H; reflexivity). assert (A2 : mtx s = Some u) by (apply Im; rewrite Hu; reflexivity). congruence.
    + destruct (pc s u) eqn:E; try discriminate Hu. injection Hu as -> ->. exact (Ib _ _ _ E).
    + destruct (trig s) eqn:Et; [discriminate Hu|reflexivity].
  - intros u. specialize (If u) as Iu. destruct Hs; try destruct c; projs; try exact Iu.
    all: match goal with |- context [upd ?f ?t ?p ?v] => destruct (upd_cases f t p v) as [[E1 E2]|[E1 E2]]; rewrite E2; clear E2; [subst v|] end; try exact Iu.
    all: match goal with H : pc _ _ = _ |- _ => try rewrite H in Iu end; try exact I; try exact Iu; try (eexists; exact Iu).
    + destruct o; cbn; unfold setter; tauto.
    + destruct b; [exact Iu|exists false; exact Iu].
    + destruct (pc s u); try exact Iu; exact I.
    + destruct (duration o) eqn:E; [eexists; exact E|exact Iu].
    + destruct Iu as (d & Hd). destruct o; try discriminate Hd; exact I.
    + destruct (trig s); exact Iu.
Qed.
Lemma inv_exec b tr s : exec (initial b) tr s -> inv s.
Proof. intros E. induction E as [|tr s l s' E IH Hs]; [apply inv_initial|eapply inv_step; eassumption]. Qed.

(** * Histories *)
Lemma in_call_during t o tr : in_call t tr = Some o -> during t o tr tr.
Proof.
  intros H. assert (G : exists b d, tr = b ++ LCall t o :: d /\ forall o', ~ In (LCall t o') b).
  { induction tr as [|l tr IH]; [discriminate|]. cbn [in_call] in H.
    assert (K : in_call t tr = Some o -> (forall o', l <> LCall t o') -> exists b d, l :: tr = b ++ LCall t o :: d /\ forall o', ~ In (LCall t o') b).
    { intros H' Hl. destruct (IH H') as (b & d & -> & Hb). exists (l :: b), d. split; [reflexivity|]. intros o' [E|Hi]; [exact (Hl o' E)|exact (Hb o' Hi)]. }
    destruct l; try (apply K; [exact H|intros; discriminate]).
    - destruct (Nat.eqb_spec t0 t) as [->|Hn]; [injection H as ->; exists [], tr; split; [reflexivity|intros ? []]|apply K; [exact H|congruence]].
    - destruct (Nat.eqb_spec t0 t) as [->|Hn]; [discriminate|apply K; [exact H|congruence]]. }
  destruct G as (b & d & E & Hb). exists [], b, d. split; [reflexivity|]. split; [exact E|exact Hb].
Qed.
Lemma during_cons t o l tr h : (forall o', l <> LCall t o') -> during t o tr h -> during t o (l :: tr) h.
Proof. intros Hl (a & b & d & -> & E & H). exists (l :: a), b, d. split; [reflexivity|]. split; [exact E|]. intros o' [E'|Hi]; [exact (Hl o' E')|exact (H o' Hi)]. Qed.
Lemma expired_cons t o l tr c d : (forall o', l <> LCall t o') -> expired t o tr c d -> expired t o (l :: tr) c d.
Proof. intros Hl (h & H1 & H2). exists h. split; [apply during_cons; assumption|exact H2]. Qed.
Lemma elapsed_cons t o l tr d : (forall o', l <> LCall t o') -> elapsed t o tr d -> elapsed t o (l :: tr) d.
Proof. intros Hl (h1 & h2 & g & H1 & H2 & H3). exists h1, h2, g. repeat split; try apply during_cons; tauto. Qed.

Definition kfact (t : nat) (o : op) (k : option (clk * Z)) (tr : list label) : Prop :=
  match k with
  | None => o = OWait
  | Some (c, d) => o = OUntil c d \/ c = Steady /\ exists dur h1, duration o = Some dur /\ during t o tr h1 /\ d = clock_of Steady h1 + dur
  end.
Definition overdue (t : nat) (o : op) (tr : list label) : Prop :=
  (exists c d, o = OUntil c d /\ expired t o tr c d) \/ (exists dur, duration o = Some dur /\ elapsed t o tr dur).
Definition fact (b0 : bool) (t : nat) (tr : list label) (p : point) : Prop :=
  match p with
  | WTest o k | WBlock o k | WBlocked o k | WWake o k | WCheck o k => kfact t o k tr
  | WLast o => overdue t o tr
  | WRel o r | WRet o r => (exists h, during t o tr h /\ value b0 h = r) /\ (r = false -> overdue t o tr)
  | GRel r | GRet r => exists h, during t OGet tr h /\ value b0 h = r
  | SRel o b => exists h, during t o tr (LSet t b :: h)
  | SNote o => exists h, during t o tr (LSet t true :: h)
  | SRet o => exists h b, setter o b /\ during t o tr (LSet t b :: h) /\ (b = true -> exists g, during t o tr (LNotify t :: g ++ LSet t b :: h))
  | _ => True
  end.
Lemma fact_cons b0 t l tr p : (forall o', l <> LCall t o') -> fact b0 t tr p -> fact b0 t (l :: tr) p.
Proof.
  intros Hl. assert (K : forall o k, kfact t o k tr -> kfact t o k (l :: tr)).
  { intros o [[c d]|]; [|tauto]. cbn [kfact]. intros [H|(H1 & dur & h1 & H2 & H3 & H4)]; [left; exact H|right]. split; [exact H1|]. exists dur, h1. repeat split; try assumption. apply during_cons; assumption. }
  assert (V : forall o, overdue t o tr -> overdue t o (l :: tr)).
  { intros o [(c & d & A & B)|(dur & A & B)]; [left; exists c, d; split; [exact A|apply expired_cons; assumption]|right; exists dur; split; [exact A|apply elapsed_cons; assumption]]. }
  assert (D : forall o h, during t o tr h -> during t o (l :: tr) h) by (intros; apply during_cons; assumption).
  destruct p; cbn [fact]; try tauto; try (apply K); try (apply V); intros H.
  - destruct H as (h & H). exists h. apply D, H.
  - destruct H as (h & H). exists h. apply D, H.
  - destruct H as (h & b & H1 & H2 & H3). exists h, b. split; [exact H1|]. split; [apply D, H2|]. intros Hb. destruct (H3 Hb) as (g & Hg). exists g. apply D, Hg.
  - destruct H as (h & H1 & H2). exists h. split; [apply D, H1|exact H2].
  - destruct H as (h & H1 & H2). exists h. split; [apply D, H1|exact H2].
  - destruct H as ((h & H1 & H2) & H3). split; [exists h; split; [apply D, H1|exact H2]|intros Hr; apply V, H3, Hr].
  - destruct H as ((h & H1 & H2) & H3). split; [exists h; split; [apply D, H1|exact H2]|intros Hr; apply V, H3, Hr].
Qed.
Record tinv (b0 : bool) (tr : list label) (s : st) : Prop := {
  j_inv : inv s;
  j_val : value b0 tr = trig s;
  j_clk : forall c, clock_of c tr = now c s;
  j_call : forall t, in_call t tr = opof (pc s t);
  j_blk : forall t, blocked t tr = isblocked (pc s t);
  j_fact : forall t, fact b0 t tr (pc s t) }.

Lemma tinv_initial b0 : tinv b0 [] (initial b0).
Proof. constructor; [apply inv_initial|reflexivity|intros []; reflexivity|reflexivity|reflexivity|intros; exact I]. Qed.
Lemma wake_fact b0 t tr p : fact b0 t tr p -> fact b0 t tr (wake p).
Proof. destruct p; exact (fun x => x). Qed.
Lemma overdue_now t o c d tr s : kfact t o (Some (c, d)) tr -> during t o tr tr -> (forall c, clock_of c tr = now c s) -> d <= now c s -> overdue t o (LTau :: tr).
Proof.
  intros [H|(-> & dur & h1 & H1 & H2 & H3)] HD Hc Hd.
  - left. exists c, d. split; [exact H|]. exists tr. split; [apply during_cons; [intros; discriminate|exact HD]|]. rewrite Hc. exact Hd.
  - right. exists dur. split; [exact H1|]. pose proof H2 as (g & _ & _ & E & _). exists h1, tr, g. split; [apply during_cons; [intros; discriminate|exact H2]|]. split; [apply during_cons; [intros; discriminate|exact HD]|]. split; [exact E|]. rewrite (Hc Steady). lia.
Qed.
Lemma tinv_step b0 tr s l s' : step s l s' -> tinv b0 tr s -> tinv b0 (l :: tr) s'.
Proof.
  intros Hs HT. pose proof HT as [HI Hv Hc Hcall Hb Hf]. constructor.
  - eapply inv_step; eassumption.
  - destruct Hs; try destruct c; projs; cbn [value]; try exact Hv. reflexivity.
  - intros c. destruct Hs; projs; cbn [clock_of]; try (rewrite Hc; destruct c; reflexivity). destruct c, c0; cbn; try reflexivity; rewrite Hc; reflexivity.
  - intros u. pose proof (Hcall u) as Hu. destruct Hs; try destruct c; projs; cbn [in_call]; try exact Hu.
    all: match goal with H : pc ?s ?t = _ |- _ => pose proof (Hcall t) as Ht; rewrite H in Ht; cbn [opof] in Ht; try (destruct (Nat.eqb_spec t u) as [<-|Hn]) end.
    all: try (rewrite upd_same; cbn [opof]; try exact Ht; try reflexivity).
    all: try (match goal with |- context [upd ?f ?t ?p ?v] => destruct (upd_cases f t p v) as [[E1 E2]|[E1 E2]]; rewrite E2; clear E2; [try congruence|] end; try rewrite wake_opof; try exact Hu).
    all: try (destruct o; reflexivity); try (destruct b; exact Ht); try (destruct (trig s); exact Ht); try (destruct (duration o); exact Ht).
  - intros u. pose proof (Hb u) as Hu. destruct Hs; try destruct c; projs; cbn [blocked]; try exact Hu.
    all: match goal with H : pc ?s ?t = _ |- _ => pose proof (Hb t) as Ht; rewrite H in Ht; cbn [isblocked] in Ht end.
    all: match goal with |- context [upd ?f ?t ?p ?v] => destruct (upd_cases f t p v) as [[E1 E2]|[E1 E2]]; rewrite E2; clear E2; [subst v|] end; cbn [isblocked]; try exact Ht; try exact Hu.
    all: try (rewrite wake_blocked; reflexivity); try reflexivity.
    all: try (rewrite Nat.eqb_refl; reflexivity).
    all: try (destruct (Nat.eqb_spec t u) as [<-|]; [congruence|]; cbn; exact Hu).
    all: try (destruct o; exact Ht); try (destruct b; exact Ht); try (destruct (trig s); exact Ht); try (destruct (duration o); exact Ht).
  - intros u. pose proof (Hf u) as Hu.
    assert (K : (forall o', l <> LCall u o') -> fact b0 u (l :: tr) (pc s u)) by (intros Hl; apply fact_cons; assumption).
    destruct Hs; try destruct c; projs; try (apply K; intros; discriminate).
    all: match goal with |- context [upd ?f ?t ?p ?v] => destruct (upd_cases f t p v) as [[E1 E2]|[E1 E2]]; rewrite E2; clear E2; [subst v|] end; try (apply K; intros; congruence); try exact I.
    all: match goal with H : pc ?s ?t = _ |- _ => pose proof (Hcall t) as Ht; rewrite H in Ht; cbn [opof] in Ht; try (rewrite H in Hu, K; cbn [fact] in Hu, K); try (pose proof (in_call_during _ _ _ Ht) as HD) end.
    + destruct o; exact I.
    + cbn [fact]. exists tr. apply in_call_during. cbn [in_call]. exact Ht.
    + specialize (K ltac:(intros; discriminate)). destruct K as (h & Hh). destruct b; [exists h; exact Hh|]. exists h, false. pose proof (i_wf _ HI t) as Hw. rewrite H in Hw. split; [exact Hw|]. split; [exact Hh|discriminate].
    + destruct Hu as (h & Hh). exists h, true. pose proof (i_wf _ HI t) as Hw. rewrite H in Hw. split; [exact Hw|]. split; [apply during_cons; [intros; discriminate|exact Hh]|]. intros _. pose proof Hh as (g & b & d & E & _). exists g. rewrite <- E. apply in_call_during. cbn [in_call]. exact Ht.
    + apply wake_fact. apply fact_cons; [intros; discriminate|exact (Hf u)].
    + exists tr. split; [apply during_cons; [intros; discriminate|exact HD]|exact Hv].
    + apply K. intros; discriminate.
    + pose proof (i_wf _ HI t) as Hw. rewrite H in Hw. destruct o; try (destruct Hw; fail); cbn; tauto.
    + right. split; [reflexivity|]. exists dur, tr. split; [exact H1|]. split; [apply during_cons; [intros; discriminate|exact HD]|]. rewrite Hc. reflexivity.
    + destruct (trig s) eqn:Et; [|apply K; intros; discriminate]. split; [|discriminate]. exists tr. split; [apply during_cons; [intros; discriminate|exact HD]|]. rewrite Hv. reflexivity.
    + apply K. intros; discriminate.
    + apply K. intros; discriminate.
    + apply K. intros; discriminate.
    + apply K. intros; discriminate.
    + eapply overdue_now; eassumption.
    + eapply overdue_now; eassumption.
    + split; [exists tr; split; [apply during_cons; [intros; discriminate|exact HD]|exact Hv]|]. intros _. apply K. intros; discriminate.
    + apply K. intros; discriminate.
Qed.
Lemma tinv_exec b0 tr s : exec (initial b0) tr s -> tinv b0 tr s.
Proof. intros E. induction E as [|tr s l s' E IH Hs]; [apply tinv_initial|eapply tinv_step; eassumption]. Qed.

(** * Progress *)
Definition live (s : st) : Prop := inv s /\ trig s = true /\ dead s = false /\ (forall u, resetting (pc s u) = false).
Definition hr (p : point) : nat := match p with SWrite _ _ | GRead => 2 | WClock _ => 6 | WCheck _ _ => 5 | WTest _ _ | WLast _ => 4 | _ => 1 end.
Lemma live_next s l s' t p : live s -> step s l s' -> trig s' = true -> dead s' = false -> (forall u, pc s' u = upd (pc s) t p u) -> resetting p = false -> live s'.
Proof.
  intros (HI & _ & _ & Hr) Hs Ht Hd Hp Hq. split; [eapply inv_step; eassumption|]. split; [exact Ht|]. split; [exact Hd|]. intros u. rewrite Hp. unfold upd. destruct (Nat.eqb u t); [exact Hq|apply Hr].
Qed.
Lemma holder_step s u : live s -> mtx s = Some u -> exists l s', step s l s' /\ calm l = true /\ live s' /\ (forall v, v <> u -> pc s' v = pc s v) /\
  (mtx s' = None \/ mtx s' = Some u /\ (hr (pc s' u) < hr (pc s u))%nat) /\ (notif (pc s u) = true -> notif (pc s' u) = true) /\
  (waiting (pc s u) = true -> waiting (pc s' u) = true /\ (wrank (pc s' u) <= wrank (pc s u))%nat).
Proof.
  intros HL Hm. pose proof HL as (HI & Ht & Hd & Hr). pose proof (proj2 (i_mtx _ HI u) Hm) as Hh. pose proof (i_wf _ HI u) as Hw.
  assert (Ho : forall p v, v <> u -> upd (pc s) u p v = pc s v) by (intros p v Hv; unfold upd; destruct (Nat.eqb_spec v u); [congruence|reflexivity]).
  destruct (pc s u) eqn:E; try discriminate Hh.
  - assert (b = true) by (pose proof (Hr u) as X; rewrite E in X; destruct b; [reflexivity|discriminate]). subst b. do 2 eexists. split; [eapply s_write; eassumption|]. split; [reflexivity|]. split; [eapply live_next; [exact HL|eapply s_write; eassumption| | | |]; try reflexivity; exact Hd|].
    projs. split; [apply Ho|]. rewrite upd_same. repeat split; try discriminate. right. split; [exact Hm|cbn; lia].
  - do 2 eexists. split; [eapply s_rel; eassumption|]. split; [reflexivity|]. split; [eapply live_next; [exact HL|eapply s_rel; eassumption| | | |]; try reflexivity; [exact Ht|exact Hd|destruct b; reflexivity]|].
    projs. split; [apply Ho|]. rewrite upd_same. split; [left; reflexivity|]. split; [destruct b; [reflexivity|discriminate]|discriminate].
  - do 2 eexists. split; [eapply g_read; eassumption|]. split; [reflexivity|]. split; [eapply live_next; [exact HL|eapply g_read; eassumption| | | |]; try reflexivity; [exact Ht|exact Hd]|].
    projs. split; [apply Ho|]. rewrite upd_same. repeat split; try discriminate. right. split; [exact Hm|cbn; lia].
  - do 2 eexists. split; [eapply g_rel; eassumption|]. split; [reflexivity|]. split; [eapply live_next; [exact HL|eapply g_rel; eassumption| | | |]; try reflexivity; [exact Ht|exact Hd]|].
    projs. split; [apply Ho|]. rewrite upd_same. repeat split; try discriminate. left; reflexivity.
  - destruct Hw as (dur & Hw). do 2 eexists. split; [eapply w_clock; eassumption|]. split; [reflexivity|]. split; [eapply live_next; [exact HL|eapply w_clock; eassumption| | | |]; try reflexivity; [exact Ht|exact Hd]|].
    projs. split; [apply Ho|]. rewrite upd_same. cbn. repeat split; try discriminate; try lia. right. split; [exact Hm|lia].
  - do 2 eexists. split; [eapply w_test; eassumption|]. split; [reflexivity|]. split; [eapply live_next; [exact HL|eapply w_test; eassumption| | | |]; try reflexivity; [exact Ht|exact Hd|rewrite Ht; reflexivity]|].
    projs. rewrite Ht. split; [apply Ho|]. rewrite upd_same. cbn. repeat split; try discriminate; try lia. right. split; [exact Hm|lia].
  - exfalso. rewrite (i_block _ HI _ _ _ E) in Ht. discriminate.
  - do 2 eexists. split; [eapply w_again; eassumption|]. split; [reflexivity|]. split; [eapply live_next; [exact HL|eapply w_again; eassumption| | | |]; try reflexivity; [exact Ht|exact Hd]|].
    projs. split; [apply Ho|]. rewrite upd_same. cbn. repeat split; try discriminate; try lia. right. split; [exact Hm|lia].
  - do 2 eexists. split; [eapply w_last; eassumption|]. split; [reflexivity|]. split; [eapply live_next; [exact HL|eapply w_last; eassumption| | | |]; try reflexivity; [exact Ht|exact Hd]|].
    projs. split; [apply Ho|]. rewrite upd_same. cbn. repeat split; try discriminate; try lia. right. split; [exact Hm|lia].
  - do 2 eexists. split; [eapply w_rel; eassumption|]. split; [reflexivity|]. split; [eapply live_next; [exact HL|eapply w_rel; eassumption| | | |]; try reflexivity; [exact Ht|exact Hd]|].
    projs. split; [apply Ho|]. rewrite upd_same. cbn. repeat split; try discriminate; try lia. left; reflexivity.
Qed.
Lemma exec_trans s0 a s1 b s2 : exec s0 a s1 -> exec s1 b s2 -> exec s0 (b ++ a) s2.
Proof. intros E1 E2. induction E2 as [|b s l s' E2 IH Hs]; [exact E1|]. cbn. econstructor; [apply IH; exact E1|exact Hs]. Qed.
Lemma exec_one s l s' : step s l s' -> exec s [l] s'.
Proof. intros H. econstructor; [constructor|exact H]. Qed.
Lemma drain n : forall s, live s -> (match mtx s with Some u => hr (pc s u) | None => 0 end <= n)%nat -> exists tr' s', exec s tr' s' /\ forallb calm tr' = true /\ live s' /\ mtx s' = None /\
  (forall v, notif (pc s v) = true -> notif (pc s' v) = true) /\ (forall v, waiting (pc s v) = true -> waiting (pc s' v) = true /\ (wrank (pc s' v) <= wrank (pc s v))%nat).
Proof.
  assert (Z0 : forall s, live s -> mtx s = None -> exists tr' s', exec s tr' s' /\ forallb calm tr' = true /\ live s' /\ mtx s' = None /\
    (forall v, notif (pc s v) = true -> notif (pc s' v) = true) /\ (forall v, waiting (pc s v) = true -> waiting (pc s' v) = true /\ (wrank (pc s' v) <= wrank (pc s v))%nat)).
  { intros s HL Hm. exists [], s. split; [constructor|]. split; [reflexivity|]. split; [exact HL|]. split; [exact Hm|]. split; [tauto|]. intros v Hv. split; [exact Hv|lia]. }
  induction n as [|n IH]; intros s HL Hn.
  - destruct (mtx s) as [u|] eqn:E; [destruct (pc s u); cbn in Hn; lia|]. apply Z0; assumption.
  - destruct (mtx s) as [u|] eqn:E; [|apply Z0; assumption].
    destruct (holder_step s u HL E) as (l & s1 & Hs & Hc & HL1 & Ho & Hm & Hno & Hwt).
    destruct (IH s1 HL1) as (tr' & s2 & E2 & Hc2 & HL2 & Hm2 & Hno2 & Hw2). { destruct Hm as [Hm|[Hm Hl]]; rewrite Hm; lia. }
    exists (tr' ++ [l]), s2. split; [eapply exec_trans; [apply exec_one; exact Hs|exact E2]|]. split; [rewrite forallb_app, Hc2; cbn; rewrite Hc; reflexivity|]. split; [exact HL2|]. split; [exact Hm2|]. split.
    + intros v Hv. apply Hno2. destruct (Nat.eq_dec v u) as [->|Hne]; [apply Hno; exact Hv|rewrite Ho; assumption].
    + intros v Hv. destruct (Nat.eq_dec v u) as [->|Hne].
      * destruct (Hwt Hv) as [A B]. destruct (Hw2 u A) as [C D]. split; [exact C|lia].
      * rewrite <- (Ho v Hne) in Hv |- *. apply Hw2. exact Hv.
Qed.
Lemma released n : forall s t, live s -> waiting (pc s t) = true -> (wrank (pc s t) <= n)%nat -> exists tr' s' o r, exec s (LRet t o r :: tr') s' /\ forallb calm tr' = true.
Proof.
  induction n as [|n IH]; intros s t HL Hw Hn; [destruct (pc s t); cbn in *; try discriminate; lia|].
  destruct (drain _ s HL (le_n _)) as (tr1 & s1 & E1 & C1 & HL1 & Hm1 & Hno & Hwt). destruct (Hwt t Hw) as [Hw1 Hr1]. pose proof HL1 as (HI & Ht & Hd & Hr).
  assert (Hnh : hold (pc s1 t) = false) by (destruct (hold (pc s1 t)) eqn:Eh; [apply (i_mtx _ HI) in Eh; congruence|reflexivity]).
  assert (G : forall l s2, step s1 l s2 -> calm l = true -> live s2 -> waiting (pc s2 t) = true -> (wrank (pc s2 t) < wrank (pc s1 t))%nat -> exists tr' s' o r, exec s (LRet t o r :: tr') s' /\ forallb calm tr' = true).
  { intros l s2 Hs Hc HL2 Hw2 Hlt. destruct (IH s2 t HL2 Hw2) as (tr' & s' & o & r & E2 & C2); [lia|]. exists (tr' ++ l :: tr1), s', o, r. split.
    - change (LRet t o r :: tr' ++ l :: tr1) with ((LRet t o r :: tr') ++ [l] ++ tr1). eapply exec_trans; [|exact E2]. eapply exec_trans; [exact E1|apply exec_one; exact Hs].
    - rewrite forallb_app, C2. cbn. rewrite Hc. exact C1. }
  destruct (pc s1 t) eqn:E; try discriminate Hw1; try discriminate Hnh.
  - eapply G; [eapply w_lock; eassumption|reflexivity|eapply live_next; [exact HL1|eapply w_lock; eassumption|exact Ht|exact Hd|intros; reflexivity|destruct (duration o); reflexivity]| |]; projs; rewrite upd_same; destruct (duration o); cbn; try reflexivity; lia.
  - destruct (i_wake _ HI t) as (u & Hu); [rewrite E; reflexivity|exact Ht|]. assert (Hs : exists o', pc s1 u = SNote o').
    { destruct (pc s1 u) eqn:Eu; try discriminate Hu; [|eexists; reflexivity]. exfalso. assert (mtx s1 = Some u) by (apply (i_mtx _ HI); rewrite Eu; reflexivity). congruence. }
    destruct Hs as (o' & Hs). assert (Hne : t <> u) by congruence.
    assert (Hs2 := s_note s1 u o' Hs Hd). eapply G; [exact Hs2|reflexivity| | |].
    + split; [eapply inv_step; eassumption|]. split; [exact Ht|]. split; [exact Hd|]. intros v. projs. unfold upd. destruct (Nat.eqb v u); [reflexivity|]. specialize (Hr v). destruct (pc s1 v); cbn in *; congruence.
    + projs. unfold upd. destruct (Nat.eqb_spec t u); [congruence|]. rewrite E. reflexivity.
    + projs. unfold upd. destruct (Nat.eqb_spec t u); [congruence|]. rewrite E. cbn. lia.
  - eapply G; [eapply w_relock; eassumption|reflexivity|eapply live_next; [exact HL1|eapply w_relock; eassumption|exact Ht|exact Hd|intros; reflexivity|reflexivity]| |]; projs; rewrite upd_same; cbn; try reflexivity; lia.
  - exists tr1. do 3 eexists. split; [|exact C1]. econstructor; [exact E1|]. apply w_ret. exact E.
Qed.
(** every step of a waiting thread brings it nearer to its return while the trigger is set *)
Lemma wait_rank s l s' t : inv s -> step s l s' -> trig s = true -> trig s' = true -> waiting (pc s t) = true -> (wrank (pc s' t) <= wrank (pc s t))%nat /\ (pc s' t <> pc s t -> wrank (pc s' t) < wrank (pc s t))%nat.
Proof.
  intros HI Hs Ht Ht' Hw. assert (S : pc s' t = pc s t -> (wrank (pc s' t) <= wrank (pc s t))%nat /\ (pc s' t <> pc s t -> wrank (pc s' t) < wrank (pc s t))%nat) by (intros ->; split; [lia|congruence]).
  destruct Hs; try (destruct c); projs; try (apply S; reflexivity); try (
    match goal with H : pc ?s ?v = _ |- _ => destruct (Nat.eq_dec t v) as [->|Hne]; [rewrite H in Hw |- *; rewrite upd_same; try discriminate Hw; try (cbn; split; lia)|apply S; unfold upd; destruct (Nat.eqb_spec t v); [congruence|reflexivity]] end).
  - destruct (Nat.eq_dec t t0) as [->|Hne]; [rewrite H in Hw; discriminate Hw|]. unfold upd. destruct (Nat.eqb_spec t t0); [congruence|]. destruct (pc s t) eqn:E; cbn; split; try lia; congruence.
  - destruct (duration o); cbn; split; lia.
  - rewrite Ht. cbn. split; lia.
Qed.
