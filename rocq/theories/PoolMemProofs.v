(** ThreadPool: a call that returns has unlocked the mutex. *)
From Coq Require Import ZArith List Bool Lia PeanoNat.
From Verif Require Import Base PoolModel PoolSpec PoolProofs PoolProofs2 PoolProofs3.
Import ListNotations.
Local Open Scope nat_scope.

Definition ret (f : frame) : bool := match f with CNote _ _ | CRet _ _ => true | _ => false end.
Definition ret_top (s : st) : Prop := forall t, cnt ret (tl (stk s t)) = 0.
Definition ret_free (s : st) : Prop := forall t f rest, stk s t = f :: rest -> ret f = true -> mtx s <> Some t.

Lemma cnt_tl p l : cnt p l = 0 -> cnt p (tl l) = 0.
Proof. destruct l; cbn [cnt tl]; lia. Qed.
Lemma ret_top_step s l s' : step s l s' -> ret_top s -> ret_top s'.
Proof.
  intros Hs HI th. pose proof (HI th) as Hx.
  destruct Hs; try exact Hx; try match goal with H : stk ?ss ?w' = _ |- _ => pose proof (HI w') as Hv; rewrite H in Hv; cbn [tl] in Hv end.
  all: try (body_facts; try rewrite B10).
  all: unfold release, disown; projs; unfold upd in *; try rewrite B10; try exact Hx.
  all: repeat match goal with |- context [Nat.eqb ?a ?b] => destruct (Nat.eqb_spec a b); [subst|] end; try exact Hx.
  all: repeat match goal with |- context [match ?x with _ => _ end] => destruct x end; cbn [tl cnt ret b2n] in *; try exact Hx.
  all: try (apply cnt_tl; rewrite ?cnt_app; cbn [cnt ret b2n]; lia).
  all: try (rewrite ?H, ?H0, ?H1; cbn [tl cnt ret b2n]; rewrite ?cnt_app; cbn [cnt ret b2n]; lia).
Qed.
Lemma one_holder s t f rest : mutex_ok s -> stk s t = f :: rest -> fholds f = true -> cnt fholds rest = 0 /\ mtx s = Some t.
Proof.
  intros H E Hf. specialize (H t). unfold nh in H. rewrite E in H. cbn [cnt] in H. rewrite Hf in H. cbn [b2n] in H. unfold own in H.
  destruct (mtx s) as [x|]; [|lia]. destruct (Nat.eqb_spec t x); cbn [b2n] in H; [subst; split; [|reflexivity]|]; destruct (_ && _); cbn [b2n] in H; lia.
Qed.
Lemma ret_free_step s l s' : step s l s' -> mutex_ok s -> wstack_ok s -> ret_top s -> ret_free s -> ret_free s'.
Proof.
  intros Hs HM HW HT HI th f0 rest0 E0 Hr Hm.
  assert (HT' : forall f1 rest1, stk s th = f1 :: rest1 -> rest1 = f0 :: rest0 \/ rest1 = f0 :: tl rest1 -> False).
  { intros f1 rest1 E1 E2. specialize (HT th). rewrite E1 in HT. cbn [tl] in HT. destruct E2 as [E2|E2]; rewrite E2 in HT; cbn [cnt] in HT; rewrite Hr in HT; cbn [b2n] in HT; lia. }
  assert (HWk : th < nw s -> wk s th = WInit \/ wk s th = WWake \/ (exists d, wk s th = WDone d) -> stk s th = f0 :: rest0 -> False).
  { intros Hn Hk Hst. assert (Hne : stk s th <> []) by congruence. specialize (HW _ Hn Hne). destruct Hk as [Hk|[Hk|[d Hk]]]; rewrite Hk in HW; discriminate HW. }
  destruct Hs.
  all: try (body_facts; projs; rewrite ?B7, ?B10 in * ).
  all: unfold release, disown in *; projs; unfold upd in *.
  all: try (apply (HI th f0 rest0); assumption).
  all: try (injection Hm as <-).
  all: try discriminate Hm.
  all: repeat match type of E0 with context [Nat.eqb ?a ?b] => destruct (Nat.eqb_spec a b); [subst|] end.
  all: try (apply (HI th f0 rest0); assumption).
  all: repeat match type of E0 with context [match ?x with _ => _ end] => destruct x end.
  all: try (injection E0 as <- <-; cbn [ret] in Hr; try discriminate Hr).
  all: try (eapply HWk; [eassumption|tauto|eassumption]; fail).
  all: try (eapply HWk; [eassumption|right; right; eexists; eassumption|eassumption]; fail).
  all: try (eapply HT'; [eassumption|left; eassumption]; fail).
  all: try congruence.
  all: try (eapply HT'; [eassumption|left; reflexivity]; fail).
  all: try (match goal with H : stk _ _ = CNote _ _ :: _ |- _ => exact (HI _ _ _ H eq_refl Hm) end).
  all: try (match goal with H : stk _ _ = CRet _ _ :: ?r |- _ => destruct r; cbn [app] in E0; injection E0 as <- <-; [discriminate Hr|eapply HT'; [exact H|right; reflexivity]] end).
  all: match goal with H : stk _ _ = CRel _ _ :: _ |- _ => rewrite H in E0; injection E0 as <- <-; discriminate Hr end.
Qed.
Lemma ret_exec n c s0 tr s : construct n c = Ok s0 -> exec s0 tr s -> ret_top s /\ ret_free s.
Proof.
  intros H E. induction E as [|tr s l s' E IH Hs].
  - unfold construct in H. destruct (_ || _); [discriminate|]. destruct (_ || _); [discriminate|]. injection H as <-. split; [intros t; reflexivity|intros t f rest Hf; discriminate Hf].
  - destruct IH as [I1 I2]. pose proof (g_inv _ (good_exec _ _ _ _ _ H E)) as G. split; [exact (ret_top_step _ _ _ Hs I1)|].
    eapply ret_free_step; try eassumption; apply G.
Qed.
Lemma body_label t o s s' r l : body t o s = (s', r, l) -> (forall u p, l <> LQuery u p RNoMem) /\ (forall u p q, l <> LReturn u p q).
Proof.
  unfold body. intros H. destruct o; try destruct (index_of id _); injection H as <- <- <-; split; intros; discriminate.
Qed.
