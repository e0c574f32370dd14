(** Proofs about SlidingBuffer with throwing elements *)
From Verif Require Import Base SbModel SbSpec SbProofs SbProofs2 SbExcModel SbExcSpec.
From Coq Require Import PeanoNat.
Local Open Scope outcome_scope.

Section Proofs.
Context {A : Type} (d : A) (T : traits).
Implicit Types b : sbuf A.
Ltac openR H := destruct H as (Hlen & Hl & Hib & Hie & Hf & Hc).

Lemma set_nth_same (l : list A) i y : nth_error l i = Some y -> set_nth l i y = l.
Proof.
  revert i; induction l as [|a l IH]; intros [|i] E; cbn in *; [discriminate..|congruence|].
  rewrite IH by assumption. reflexivity.
Qed.

Lemma R_ib b n l : R b n l -> (ib b <= length (st b))%nat.
Proof. intros H; openR H. lia. Qed.

(** Any storage of the right size shows some elements. *)
Lemma R_restore b n l (s : list A) : R b n l -> length s = n ->
  R (SB (ib b) (ie b) (full b) s) n (firstn (length l) (rotate s (ib b))).
Proof.
  intros H Hs; openR H. unfold R; cbn [ib ie full st].
  assert (El : length (firstn (length l) (rotate s (ib b))) = length l).
  { rewrite firstn_length, len_rotate; lia. }
  rewrite El. split; [assumption|]. split; [assumption|]. split; [assumption|]. split; [assumption|].
  split; [assumption|]. intros i Hi. rewrite nth_firstn.
  destruct (Nat.ltb_spec i (length l)); [|lia]. rewrite nth_rotate by lia. rewrite Hs. reflexivity.
Qed.
Lemma R_contents b n l : R b n l -> l = firstn (length l) (rotate (st b) (ib b)).
Proof.
  intros H. pose proof (R_ib _ _ _ H) as Hi. openR H. apply list_ext. intros i. rewrite nth_firstn.
  destruct (Nat.ltb_spec i (length l)) as [L|L].
  - rewrite nth_rotate by lia. rewrite Hlen. symmetry. apply Hc. assumption.
  - apply nth_over. assumption.
Qed.
Lemma R_eta b n l : R b n l -> R (SB (ib b) (ie b) (full b) (st b)) n l.
Proof. intros H; openR H. repeat split; assumption. Qed.

Lemma raised_push_back b n l y : R b n l -> n <> 0%nat ->
  (strong_assign T = true -> nth_error (st b) (ie b) = Some y) ->
  exists l', R (SB (ib b) (ie b) (full b) (set_nth (st b) (ie b) y)) n l' /\
    (l' = l \/ strong_assign T = false /\ length l = n /\ exists y, l' = y :: tl l).
Proof.
  intros H Hn Hs. destruct (strong_assign T).
  { rewrite set_nth_same by auto. exists l. split; [apply R_eta; assumption|left; reflexivity]. }
  clear Hs.
  pose proof (R_restore b n l (set_nth (st b) (ie b) y) H) as HR.
  assert (E : length (set_nth (st b) (ie b) y) = n) by (rewrite len_set_nth; apply H).
  specialize (HR E). eexists; split; [exact HR|]. clear HR.
  pose proof (R_ib _ _ _ H) as Hi. openR H.
  destruct (Nat.eq_dec (length l) n) as [Ef|Ef].
  - right. split; [reflexivity|]. split; [assumption|]. exists y.
    assert (Eie : ie b = ib b) by (rewrite Hie; unfold wi; destruct (Nat.ltb_spec (ib b + length l) n); lia).
    apply list_ext. intros i. rewrite nth_firstn.
    destruct (Nat.ltb_spec i (length l)) as [L|L].
    + rewrite nth_rotate by lia. rewrite E, nth_set_nth, Hlen, Eie.
      destruct i as [|i]; cbn [nth_error].
      * replace (wi n (ib b + 0)) with (ib b) by (unfold wi; destruct (Nat.ltb_spec (ib b + 0) n); lia).
        rewrite Nat.eqb_refl. destruct (Nat.ltb_spec (ib b) n); [reflexivity|lia].
      * destruct (Nat.eqb_spec (ib b) (wi n (ib b + S i))) as [W|W].
        { exfalso. unfold wi in W. destruct (Nat.ltb_spec (ib b + S i) n); lia. }
        cbn [andb]. rewrite Hc by assumption. destruct l; [cbn in L; lia|reflexivity].
    + symmetry. apply nth_over. destruct l; cbn [length tl] in *; lia.
  - left. apply list_ext. intros i. rewrite nth_firstn.
    destruct (Nat.ltb_spec i (length l)) as [L|L]; [|symmetry; apply nth_over; assumption].
    rewrite nth_rotate by lia. rewrite E, nth_set_nth, <- Hc by assumption.
    destruct (Nat.eqb_spec (ie b) (wi n (ib b + i))) as [W|W]; [|reflexivity].
    exfalso. rewrite Hie in W. unfold wi in W.
    destruct (Nat.ltb_spec (ib b + i) n), (Nat.ltb_spec (ib b + length l) n); lia.
Qed.

Lemma call_push_back b n l x r : R b n l -> n <> 0%nat -> push_back_x T b x r ->
  (exists b', r = Returned b' /\ R b' n (last_n n (l ++ [x]))) \/
  (exists b' l', r = Raised b' /\ R b' n l' /\
     (l' = l \/ strong_assign T = false /\ length l = n /\ exists y, l' = y :: tl l)).
Proof.
  intros H Hn (q & Hq & Hr).
  destruct (R_push_back b n l x H Hn) as (b' & E & H').
  unfold push_back, store in E.
  destruct Hq as [L|y L Hy|L].
  - left. destruct (Nat.ltb_spec (ie b) (length (st b))); [|lia]. cbn [bind] in E.
    exists b'. split; [|assumption]. rewrite Hr. f_equal.
    destruct (full b); [congruence|]. destruct (Nat.eqb _ _); congruence.
  - right. destruct (raised_push_back b n l y H Hn Hy) as (l' & HR & HL). eauto 6.
  - exfalso. destruct (Nat.ltb_spec (ie b) (length (st b))); [lia|discriminate E].
Qed.
Lemma call_push_front b n l x r : R b n l -> n <> 0%nat -> push_front_x T b x r ->
  (exists b', r = Returned b' /\ R b' n (firstn n (x :: l))) \/
  (exists b' y, r = Raised b' /\ R b' n (firstn n (y :: l))).
Proof.
  intros H Hn (q & Hq & Hr).
  destruct Hq as [L|y L Hy|L].
  - left. destruct (R_push_front b n l x H Hn) as (b' & E & H'). exists b'. split; [|assumption].
    unfold push_front, store in E.
    destruct (Nat.ltb_spec (decrease_idx b (ib b)) (length (st b))); [|lia]. cbn [bind] in E.
    rewrite Hr. congruence.
  - right. destruct (R_push_front b n l y H Hn) as (b' & E & H'). exists b', y. split; [|assumption].
    unfold push_front, store in E.
    destruct (Nat.ltb_spec (decrease_idx b (ib b)) (length (st b))); [|lia]. cbn [bind] in E.
    rewrite Hr. congruence.
  - exfalso. destruct (R_push_front b n l x H Hn) as (b' & E & H').
    unfold push_front, store in E.
    destruct (Nat.ltb_spec (decrease_idx b (ib b)) (length (st b))); [lia|discriminate E].
Qed.
Lemma R_cleared n (s : list A) : length s = n -> R (SB 0 0 false s) n [].
Proof.
  intros E. unfold R; cbn [ib ie full st length].
  split; [assumption|]. split; [lia|]. split; [lia|].
  split; [unfold wi; destruct (Nat.ltb_spec (0 + 0) n); lia|].
  split; [|intros; lia]. destruct n; reflexivity.
Qed.
Lemma call_clear b n l r : R b n l -> clear_x d b r ->
  (exists b', r = Returned b' /\ R b' n []) \/ (exists b', r = Raised b' /\ R b' n []).
Proof.
  intros H (q & Hq & Hr). assert (Hlen : length (st b) = n) by apply H.
  destruct Hq as [|l' E].
  - left. eexists; split; [exact Hr|]. apply R_cleared. rewrite repeat_length. assumption.
  - right. eexists; split; [exact Hr|]. apply R_cleared. congruence.
Qed.

Definition kept (m n : nat) (l l' : list A) : Prop :=
  length l' = length l /\
  (nothrow_move T = true -> (n < m)%nat /\ (length l = n -> exists k, (k <= n)%nat /\ l' = skipn k l ++ firstn k l)).
Definition resize_to (m : nat) (sh : shrink) (l : list A) : list A :=
  match sh with keep_front_elements => firstn m l | keep_back_elements => last_n m l end.
Definition good_x (rs : sbuf A -> nat -> shrink -> result (sbuf A) -> Prop) : Prop :=
  forall b n l m sh r, R b n l -> rs b m sh r ->
  (exists b', r = Returned b' /\ R b' m (resize_to m sh l)) \/
  (exists b' l', r = Raised b' /\ R b' n l' /\ kept m n l l').

Lemma raised_same b n l m s : R b n l -> length s = n -> nothrow_move T = false ->
  exists b' l', Raised (SB (ib b) (ie b) (full b) s) = Raised b' /\ R b' n l' /\ kept m n l l'.
Proof.
  intros H E N. eexists _, _. split; [reflexivity|]. split; [apply R_restore; eassumption|].
  split; [|congruence]. rewrite firstn_length, len_rotate; [|rewrite E; apply R_ib in H as Hi].
  - destruct H as (_ & Hl & _). lia.
  - assert (length (st b) = n) by apply H. lia.
Qed.
Lemma raised_grow b n l m s : R b n l -> (n < m)%nat -> length s = n ->
  (nothrow_move T = true -> s = rotate (st b) (ib b)) ->
  exists b' l', Raised (SB (ib b) (ie b) (full b) s) = Raised b' /\ R b' n l' /\ kept m n l l'.
Proof.
  intros H L E N. destruct (nothrow_move T) eqn:Nt; [|apply raised_same; assumption].
  eexists _, _. split; [reflexivity|]. split; [apply R_restore; eassumption|].
  pose proof (R_contents _ _ _ H) as C. pose proof (R_ib _ _ _ H) as Hi. openR H.
  split; [rewrite firstn_length, len_rotate; lia|]. intros _. split; [assumption|].
  intros F. exists (ib b). split; [lia|]. rewrite N by reflexivity.
  rewrite firstn_all2 in C by (rewrite len_rotate; lia).
  rewrite firstn_all2 by (rewrite !len_rotate; rewrite ?len_rotate; lia).
  rewrite <- C. reflexivity.
Qed.

Lemma rot_res_grow b n l m k (k2 : list A -> result (sbuf A) -> Prop) b1 r : R b n l -> (n < m)%nat ->
  k = ib b -> (forall s r, k2 s r -> s = vresize d (rotate (st b) k) m -> r = Returned b1) ->
  next (rotates T (st b) k) (SB (ib b) (ie b) (full b)) (fun s =>
    next (resizes d T s m) (SB (ib b) (ie b) (full b)) k2) r ->
  r = Returned b1 \/ exists b' l', r = Raised b' /\ R b' n l' /\ kept m n l l'.
Proof.
  intros H L -> K (q & Hq & Hr). pose proof (R_ib _ _ _ H) as Hi.
  assert (Hlen : length (st b) = n) by apply H.
  destruct Hq as [Hk|s Hk Nt E|Hk].
  - destruct Hr as (q & Hq & Hr). destruct Hq as [|s L' E N].
    + left. eapply K; [exact Hr|reflexivity].
    + right. rewrite Hr. rewrite len_rotate in * by assumption.
      apply raised_grow; try assumption; [congruence|].
      intros Nt. apply N. rewrite Nt. apply orb_true_r.
  - right. rewrite Hr. apply raised_same; [assumption|congruence|assumption].
  - lia.
Qed.
Lemma rot_res_shrink b n l m k (k2 : list A -> result (sbuf A) -> Prop) b1 rb r : R b n l -> (m <= n)%nat ->
  (k <= n)%nat -> (forall s r, k2 s r -> s = vresize d (rotate (st b) k) m -> r = Returned b1) ->
  next (rotates T (st b) k) (SB (ib b) (ie b) (full b)) (fun s =>
    next (resizes d T s m) rb k2) r ->
  r = Returned b1 \/ exists b' l', r = Raised b' /\ R b' n l' /\ kept m n l l'.
Proof.
  intros H L Hk0 K (q & Hq & Hr).
  assert (Hlen : length (st b) = n) by apply H.
  destruct Hq as [Hk|s Hk Nt E|Hk].
  - destruct Hr as (q & Hq & Hr). destruct Hq as [|s L' E N].
    + left. eapply K; [exact Hr|reflexivity].
    + exfalso. rewrite len_rotate in * by assumption. lia.
  - right. rewrite Hr. apply raised_same; [assumption|congruence|assumption].
  - lia.
Qed.

Lemma good_change_x : good_x (change_capacity_x d T).
Proof.
  intros b n l m sh r H Hr. pose proof (R_change d b n l m sh H) as HR.
  assert (Hlen : length (st b) = n) by apply H.
  pose proof (R_ib _ _ _ H) as Hi.
  unfold change_capacity_x in Hr. unfold change_capacity, capacity in *. rewrite Hlen in *.
  destruct (Nat.eqb_spec m n) as [E|E].
  { left. eexists; split; [exact Hr|]. exact HR. }
  destruct (Nat.eqb_spec m 0) as [E0|E0].
  { destruct Hr as (q & Hq & Hr). destruct Hq as [|s L' _ _]; [|lia].
    left. eexists; split; [exact Hr|]. subst m. exact HR. }
  destruct (Nat.ltb_spec n m) as [L|L].
  { destruct (rot_res_grow b n l m (ib b) (fun s r => r = Returned (SB 0 (size b) false s)) (SB 0 (size b) false (vresize d (rotate (st b) (ib b)) m)) r H L eq_refl ltac:(intros s r' -> ->; reflexivity) Hr) as [->|?].
    - left. eauto.
    - right. assumption. }
  destruct (Nat.ltb_spec (size b) m) as [L2|L2].
  { destruct (rot_res_shrink b n l m (ib b) (fun s r => r = Returned (SB 0 (size b) false s)) (SB 0 (size b) false (vresize d (rotate (st b) (ib b)) m)) _ r H L ltac:(lia) ltac:(intros s r' -> ->; reflexivity) Hr) as [->|?].
    - left. eauto.
    - right. assumption. }
  match type of Hr with next (rotates _ _ ?k) _ _ _ => assert (Hk : (k <= n)%nat) end.
  { destruct sh; [lia|]. apply Nat.lt_le_incl, Nat.mod_upper_bound. lia. }
  destruct (rot_res_shrink b n l m _ (fun s r => r = Returned (SB 0 0 true s)) (SB 0 0 true (vresize d (rotate (st b) (match sh with keep_back_elements => (ie b + n - m) mod n | keep_front_elements => ib b end)) m)) _ r H L Hk ltac:(intros s r' -> ->; reflexivity) Hr) as [->|?].
  - left. eauto.
  - right. assumption.
Qed.

Lemma good_ex_x mv : nothrow_move T = true -> good_x (ex_resize_x d T mv).
Proof.
  intros Nt b n l m sh r H Hr.
  pose proof (R_ex_resize d mv b n l m sh H) as HR.
  unfold ex_resize_x in Hr. unfold ex_resize in HR.
  destruct (negb _); [exact (good_change_x b n l m sh r H Hr)|].
  assert (Hlen : length (st b) = n) by apply H.
  unfold capacity in *. rewrite Hlen in *.
  destruct (Nat.ltb_spec n m) as [L|L].
  - destruct Hr as (q & Hq & Hr). destruct Hq as [|s L' E N].
    + destruct Hr as (q & Hq & Hr). destruct Hq as [|s Nt' E]; [|congruence].
      left. eauto.
    + right. rewrite N in * by (rewrite Nt; apply orb_true_r).
      exists (SB (ib b) (ie b) (full b) (st b)), l. split; [assumption|]. split; [apply R_eta; assumption|].
      split; [reflexivity|]. intros _. split; [assumption|]. intros F. exists 0%nat. split; [lia|].
      cbn [skipn firstn]. rewrite app_nil_r. reflexivity.
  - destruct Hr as (q & Hq & Hr). destruct Hq as [Hk|s Hk Nt' E|Hk]; [|congruence|lia].
    destruct Hr as (q & Hq & Hr). destruct Hq as [|s L' E N]; [|exfalso; revert L'; rewrite len_rotate; lia].
    left. eauto.
Qed.

(** One call *)
Lemma sim rs o b n l r : good_x rs -> R b n l -> allowed o b -> call d T rs o b r ->
  (exists b' q, r = Returned b' /\ apply o (n, l) = Some q /\ R b' (fst q) (snd q)) \/
  (exists b' q, r = Raised b' /\ attempt T o false (n, l) q /\ R b' (fst q) (snd q)).
Proof.
  intros G H Ha Hc. assert (Hlen : length (st b) = n) by apply H.
  destruct o as [x|x| | | |m sh]; cbn [allowed call apply] in *.
  - assert (Hn : n <> 0%nat) by (unfold capacity in Ha; congruence).
    destruct (call_push_back b n l x r H Hn Hc) as [(b' & -> & H')|(b' & l' & -> & H' & P)]; [left|right].
    + exists b', (n, last_n n (l ++ [x])). split; [reflexivity|].
      destruct (Nat.eqb_spec n 0); [contradiction|]. split; [reflexivity|assumption].
    + exists b', (n, l'). split; [reflexivity|]. split; [|assumption].
      split; [cbn [apply]; destruct (Nat.eqb_spec n 0); [contradiction|discriminate]|].
      cbn [left_behind]. auto.
  - assert (Hn : n <> 0%nat) by (unfold capacity in Ha; congruence).
    destruct (call_push_front b n l x r H Hn Hc) as [(b' & -> & H')|(b' & y & -> & H')]; [left|right].
    + exists b', (n, firstn n (x :: l)). split; [reflexivity|].
      destruct (Nat.eqb_spec n 0); [contradiction|]. split; [reflexivity|assumption].
    + exists b', (n, firstn n (y :: l)). split; [reflexivity|]. split; [|assumption].
      split; [cbn [apply]; destruct (Nat.eqb_spec n 0); [contradiction|discriminate]|].
      cbn [left_behind]. eauto.
  - left. rewrite (R_empty _ _ _ H) in Ha. destruct l as [|y l]; [discriminate Ha|].
    eexists _, (n, removelast (y :: l)). split; [exact Hc|]. split; [reflexivity|].
    apply (R_pop_back b n (y :: l) H). discriminate.
  - left. rewrite (R_empty _ _ _ H) in Ha. destruct l as [|y l]; [discriminate Ha|].
    eexists _, (n, l). split; [exact Hc|]. split; [reflexivity|].
    apply R_pop_front with y. assumption.
  - destruct (call_clear b n l r H Hc) as [(b' & -> & H')|(b' & -> & H')]; [left|right];
      exists b', (n, []); (split; [reflexivity|]); [auto|].
    split; [|assumption]. split; [discriminate|]. split; reflexivity.
  - destruct (G b n l m sh r H Hc) as [(b' & -> & H')|(b' & l' & -> & H' & K)]; [left|right].
    + exists b', (m, resize_to m sh l). split; [reflexivity|]. split; [destruct sh; reflexivity|assumption].
    + exists b', (n, l'). split; [reflexivity|]. split; [|assumption].
      split; [cbn [apply]; destruct sh; discriminate|]. split; [reflexivity|exact K].
Qed.

Lemma sim_all rs os : good_x rs -> forall b n l r, R b n l -> calls d T rs os b r ->
  exists b' q, r = Returned b' /\ attempts T os (n, l) q /\ R b' (fst q) (snd q).
Proof.
  intros G. induction os as [|[o ok] os IH]; intros b n l r H Hc; inversion Hc; subst;
  try match goal with U : allowed o b, V : call _ _ _ _ _ _ |- _ => pose proof (sim rs o b n l _ G H U V) as X end;
  try match goal with V : calls _ _ _ os _ _ |- _ => rename V into Hrest end.
  - exists b, (n, l). repeat split; apply H.
  - destruct X as [(b1 & [n1 l1] & E & P & H')|(b1 & q & E & _)]; [|discriminate E].
    injection E as <-. destruct (IH _ _ _ _ H' Hrest) as (b2 & q2 & -> & Q & HR).
    exists b2, q2. split; [reflexivity|]. split; [|assumption]. exists (n1, l1). split; assumption.
  - destruct X as [(b1 & q & E & _)|(b1 & [n1 l1] & E & P & H')]; [discriminate E|].
    injection E as <-. destruct (IH _ _ _ _ H' Hrest) as (b2 & q2 & -> & Q & HR).
    exists b2, q2. split; [reflexivity|]. split; [|assumption]. exists (n1, l1). split; assumption.
  - destruct X as [(b1 & q & E & _)|(b1 & q & E & _)]; discriminate E.
Qed.
End Proofs.
