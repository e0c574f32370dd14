(** ThreadPool: in fair executions the destructor returns and tasks are executed. *)
From Coq Require Import ZArith List Bool Lia PeanoNat.
From Verif Require Import Base PoolModel PoolSpec PoolProofs PoolProofs2 PoolProofs3 PoolProofs4 PoolProofs5 PoolProofs6 PoolProofs7 PoolProofs8 PoolFairSpec PoolFairProofs.
Import ListNotations.
Local Open Scope nat_scope.

Section Runs.
Variables (n c : nat) (r : nat -> st) (ev : nat -> label).
Hypothesis Hrun : runs n c r ev.
Hypothesis Hfair : fair r.
Hypothesis Hret : tasks_return n r.
Let good_at := good_at n c r ev Hrun.
Let inv_at := inv_at n c r ev Hrun.
Let nw_at := nw_at n c r ev Hrun.
Let step_at := step_at n c r ev Hrun.

(** * The destructor *)
Lemma shut_from i j : i <= j -> shut (r i) = true -> shut (r j) = true.
Proof. intros H Hs. induction H as [|j H IH]; [exact Hs|]. eapply shut_stays; [apply step_at|exact IH]. Qed.
Lemma exit_from i j w : i <= j -> w < n -> wk (r i) w = WExit -> wk (r j) w = WExit.
Proof. intros H Hw Hs. induction H as [|j H IH]; [exact Hs|]. apply (proj2 (exit_stable _ _ _ (step_at j))); [rewrite nw_at; exact Hw|exact IH]. Qed.
Lemma worker_exits i0 w h : (forall j t f, i0 <= j -> In f (stk (r j) t) -> is_dtor f = true -> n <= t) -> w < n ->
  forall i, i0 <= i -> shut (r i) = true -> is_blocked (wk (r i) w) = false -> wrank (wk (r i) w) <= h -> exists j, i <= j /\ wk (r j) w = WExit.
Proof.
  intros Hout Hw. induction h as [|h IH]; intros i Hi Hs Hb Hk; pose proof (v_scan _ (inv_at i) w ltac:(rewrite nw_at; exact Hw)) as HS.
  - exists i. split; [lia|]. destruct (wk (r i) w); cbn in *; try discriminate; try lia; try reflexivity; first [congruence|destruct HS; congruence].
  - destruct (wpc_dec (wk (r i) w) WExit) as [E|E]; [exists i; split; [lia|exact E]|].
    destruct (go n c r ev Hrun Hfair Hret i0 Hout w i Hi Hw Hb E) as (m & H1 & H2 & H3).
    assert (Hsm : shut (r m) = true) by (eapply shut_from; eassumption).
    assert (G : is_blocked (wk (r (S m)) w) = false -> wrank (wk (r (S m)) w) <= h -> exists j, i <= j /\ wk (r j) w = WExit).
    { intros G1 G2. destruct (IH (S m)) as (j & Hj & Hx); try assumption; [lia|eapply shut_from; [|exact Hsm]; lia|]. exists j. split; [lia|exact Hx]. }
    unfold next_ok in H3. rewrite H2 in H3. destruct (wk (r i) w) eqn:Ep; try discriminate Hb; cbn [wrank] in Hk; try (exfalso; first [congruence|destruct HS; congruence]).
    + apply G; rewrite H3; [reflexivity|cbn; lia].
    + apply G; rewrite H3, Hsm; [reflexivity|cbn; lia].
    + apply G; rewrite H3; [reflexivity|cbn; lia].
    + apply G; rewrite H3; [reflexivity|cbn; lia].
    + destruct H3 as [H3 _]. apply G; rewrite H3; [reflexivity|cbn; lia].
    + destruct H3 as [H3 _]. apply G; rewrite H3; [reflexivity|cbn; lia].
    + apply G; rewrite H3; [reflexivity|cbn; lia].
    + apply G; rewrite H3; [reflexivity|cbn; lia].
    + apply G; rewrite H3; [reflexivity|cbn; lia].
    + apply G; rewrite H3; [reflexivity|cbn; lia].
    + apply G; rewrite H3; [reflexivity|cbn; lia].
Qed.
Lemma dtor_only i t rest f0 : stk (r i) t = f0 :: rest -> is_dtor f0 = true -> n <= t -> forall j t' f, i <= j -> In f (stk (r j) t') -> is_dtor f = true -> n <= t'.
Proof.
  intros Hs Hd Ht. destruct (v_dt _ (inv_at i)) as (d & D1 & D2).
  assert (Hi : forall j, i <= j -> strong (r j) = 0 /\ forall t', t' < n -> cnt is_dtor (stk (r j) t') = 0).
  { intros j Hj. induction Hj as [|j Hj IH].
    - pose proof (D1 t) as Dt. rewrite Hs in Dt. cbn [cnt] in Dt. rewrite Hd in Dt. cbn [b2n] in Dt. destruct d as [d|]; [|cbn in Dt; lia]. split; [apply D2|]. intros t' Ht'. rewrite D1. unfold own in *. destruct (Nat.eqb_spec t d); [subst d|cbn in Dt; lia]. destruct (Nat.eqb_spec t' t); [lia|reflexivity].
    - destruct IH as [I1 I2]. destruct (dtor_stays _ _ _ (step_at j) (v_refs _ (inv_at j)) I1) as [S1 S2]. split; [exact S1|]. intros t' Ht'. specialize (I2 t' Ht'). specialize (S2 t'). lia. }
  intros j t' f Hj Hf Hdf. destruct (Nat.lt_ge_cases t' n) as [Hlt|Hge]; [|exact Hge]. exfalso. destruct (Hi j Hj) as [_ Hz]. specialize (Hz t' Hlt). pose proof (cnt_pos is_dtor _ _ Hf Hdf). lia.
Qed.
Lemma join_done i t rest d : forall k, n - k = d -> stk (r i) t = DJoin k :: rest -> n <= t -> exists j, i <= j /\ ev j = LFree t.
Proof.
  revert i. induction d as [|d IH]; intros i k Hd Hs Ht.
  - pose proof (dtor_only i t rest _ Hs eq_refl Ht) as Hout.
    destruct (frame_act n c r ev Hrun Hfair i Hout t i _ rest (le_n i) Hs) as (m & H1 & H2 & H3).
    { intros j Hj. exists j. split; [lia|]. intros E. unfold able. rewrite E, nw_at. left. lia. }
    pose proof (H2 m ltac:(lia)) as Em. pose proof (dtor_next _ _ _ t _ rest (step_at m) Em eq_refl H3) as N. cbn beta iota in N. rewrite nw_at in N.
    replace (k <? n) with false in N by (symmetry; apply Nat.ltb_ge; lia).
    destruct (go_frame n c r ev Hrun Hfair i Hout t (S m) DFree rest ltac:(lia) N) as (m' & G1 & G2 & G3); [discriminate|discriminate|].
    pose proof (G2 m' ltac:(lia)) as Em'. pose proof (dtor_next _ _ _ t _ rest (step_at m') Em' eq_refl G3) as N'. exists m'. split; [lia|exact N'].
  - pose proof (dtor_only i t rest _ Hs eq_refl Ht) as Hout.
    assert (HJ : joining (r i)) by (exists t, k; rewrite Hs; left; reflexivity). destruct (joining_facts _ (good_at i) HJ) as (Hsh & Hb & _).
    destruct (worker_exits i k _ Hout ltac:(lia) i (le_n i) Hsh (Hb k ltac:(rewrite nw_at; lia)) (le_n _)) as (j & Hj & Hx).
    destruct (frame_act n c r ev Hrun Hfair i Hout t i _ rest (le_n i) Hs) as (m & H1 & H2 & H3).
    { intros j' Hj'. exists (Nat.max j j'). split; [lia|]. intros E. unfold able. rewrite E. right; right. eapply exit_from; [|lia|exact Hx]. lia. }
    pose proof (H2 m ltac:(lia)) as Em. pose proof (dtor_next _ _ _ t _ rest (step_at m) Em eq_refl H3) as N. cbn beta iota in N. rewrite nw_at in N.
    replace (k <? n) with true in N by (symmetry; apply Nat.ltb_lt; lia). destruct N as [N|N]; [lia|].
    destruct (IH (S m) (S k) ltac:(lia) N Ht) as (j' & Hj' & E). exists j'. split; [lia|exact E].
Qed.
Lemma dtor_returns i t rest : stk (r i) t = DLock :: rest -> n <= t -> exists j, i <= j /\ ev j = LFree t.
Proof.
  intros Hs Ht. pose proof (dtor_only i t rest _ Hs eq_refl Ht) as Hout.
  assert (G : forall i1 f, i <= i1 -> stk (r i1) t = f :: rest -> is_dtor f = true -> (forall k, f <> DJoin k) -> f <> DTerm -> exists m, i1 <= m /\ stk (r m) t = f :: rest /\ stk (r (S m)) t <> stk (r m) t).
  { intros i1 f H1 H2 H3 H4 H5. destruct (go_frame n c r ev Hrun Hfair i Hout t i1 f rest H1 H2 H4 H5) as (m & G1 & G2 & G3). exists m. split; [exact G1|]. split; [apply G2; lia|exact G3]. }
  destruct (G i DLock (le_n i) Hs eq_refl) as (m1 & A1 & A2 & A3); [discriminate|discriminate|]. pose proof (dtor_next _ _ _ t _ rest (step_at m1) A2 eq_refl A3) as B1. cbn beta iota in B1.
  destruct (G (S m1) DSet ltac:(lia) B1 eq_refl) as (m2 & A4 & A5 & A6); [discriminate|discriminate|]. pose proof (dtor_next _ _ _ t _ rest (step_at m2) A5 eq_refl A6) as B2. cbn beta iota in B2.
  destruct (G (S m2) DRel ltac:(lia) B2 eq_refl) as (m3 & A7 & A8 & A9); [discriminate|discriminate|]. pose proof (dtor_next _ _ _ t _ rest (step_at m3) A8 eq_refl A9) as B3. cbn beta iota in B3.
  destruct (G (S m3) DNote ltac:(lia) B3 eq_refl) as (m4 & A10 & A11 & A12); [discriminate|discriminate|]. pose proof (dtor_next _ _ _ t _ rest (step_at m4) A11 eq_refl A12) as B4. cbn beta iota in B4.
  destruct (join_done (S m4) t rest n 0 ltac:(lia) B4 Ht) as (j & Hj & E). exists j. split; [lia|exact E].
Qed.

(** * The queue *)
Definition gone (l : label) (id : Z) : Prop := (exists w now, l = LTake w id now) \/ cancels l id \/ exists t, l = LFree t.
Lemma remove_before {A} (a : list A) k b i : i < length a -> exists a', remove_nth i (a ++ k :: b) = a' ++ k :: b /\ length a' < length a.
Proof.
  intros H. unfold remove_nth. rewrite firstn_app, skipn_app. replace (i - length a) with 0 by lia. replace (S i - length a) with 0 by lia. cbn [firstn skipn]. rewrite app_nil_r.
  exists (firstn i a ++ skipn (S i) a). split; [rewrite app_assoc; reflexivity|]. rewrite app_length, firstn_length, skipn_length. lia.
Qed.
Lemma remove_after {A} (a : list A) k b i : length a < i -> exists b', remove_nth i (a ++ k :: b) = a ++ k :: b'.
Proof.
  intros H. unfold remove_nth. rewrite firstn_app, skipn_app. rewrite (firstn_all2 a) by lia. rewrite (skipn_all2 a) by lia. destruct (i - length a) as [|x] eqn:E; [lia|]. cbn [firstn].
  eexists. rewrite <- app_assoc. cbn [app]. reflexivity.
Qed.
Lemma find_ready_le now a k b i : (t_start k <= now)%Z -> find_ready now (a ++ k :: b) = Some i -> i <= length a.
Proof.
  intros Hk. revert i. induction a as [|x a IH]; intros i; cbn [app find_ready length].
  - apply Z.leb_le in Hk. rewrite Hk. intros [= <-]. lia.
  - destruct (Z.leb _ _); [intros [= <-]; lia|]. destruct (find_ready now (a ++ k :: b)) as [j|]; [|discriminate]. cbn. intros [= <-]. specialize (IH j eq_refl). lia.
Qed.
Lemma queue_step s l s' a k b : step s l s' -> pending s = a ++ k :: b ->
  gone l (t_id k) \/ exists a' b', pending s' = a' ++ k :: b' /\ length a' <= length a /\
    (forall w i now, wk s w = WTake i now -> wk s' w <> wk s w -> i <= length a -> length a' < length a).
Proof.
  intros Hs Hp.
  assert (Same : pending s' = pending s -> (forall w i now, wk s w = WTake i now -> wk s' w <> wk s w -> False) -> exists a' b', pending s' = a' ++ k :: b' /\ length a' <= length a /\ (forall w i now, wk s w = WTake i now -> wk s' w <> wk s w -> i <= length a -> length a' < length a)).
  { intros E H. exists a, b. split; [congruence|]. split; [lia|]. intros w i now H1 H2 _. exfalso. eapply H; eassumption. }
  destruct Hs; try body_facts; unfold release, disown in *; projs.
  all: try (right; apply Same; [reflexivity|intros v j z Hv Hne; try (apply Hne; reflexivity); unfold upd in Hne; match goal with H : context [Nat.eqb ?a ?b] |- _ => destruct (Nat.eqb_spec a b); [subst; congruence|apply Hne; reflexivity] end]; fail).
  - right. apply Same; [reflexivity|]. intros v j z Hv Hne. unfold upd in Hne. destruct (Nat.eqb_spec v w) as [->|]; [destruct H0; congruence|apply Hne; reflexivity].
  - assert (Hn : pending s = a ++ k :: b) by exact Hp. rewrite Hp in H1 |- *.
    assert (Hall : forall a' b' : list task, length a' <= length a -> (i <= length a -> length a' < length a) -> forall v j z, wk s v = WTake j z -> upd (wk s) w (WReg k0) v <> wk s v -> j <= length a -> length a' < length a).
    { intros a' b' _ Hi v j z Hv Hne Hj. unfold upd in Hne. destruct (Nat.eqb_spec v w) as [->|]; [|exfalso; apply Hne; reflexivity]. rewrite H0 in Hv. injection Hv as <- <-. apply Hi. exact Hj. }
    destruct (Nat.lt_trichotomy i (length a)) as [Hi|[Hi|Hi]].
    + right. destruct (remove_before a k b i Hi) as (a' & E & Hl). exists a', b. split; [exact E|]. split; [lia|]. apply (Hall a' b); [lia|intros; exact Hl].
    + left. left. subst i. rewrite nth_error_app2 in H1 by lia. rewrite Nat.sub_diag in H1. injection H1 as ->. exists w, now. reflexivity.
    + right. destruct (remove_after a k b i Hi) as (b' & E). exists a, b'. split; [exact E|]. split; [lia|]. apply (Hall a b'); [lia|lia].
  - right. exists a, (b ++ [k0]). rewrite Hp, <- app_assoc. split; [reflexivity|]. split; [lia|]. intros v j z Hv Hne. exfalso. apply Hne. reflexivity.
  - rewrite B9. destruct o; cbn [body] in H1; [exfalso; eapply H0; reflexivity|..]; try (injection H1 as <- <- <-; projs; right; exists a, b; split; [exact Hp|]; split; [lia|]; intros v j z Hv Hne; exfalso; apply Hne; reflexivity).
    + destruct (index_of id (ids (pending s))) as [i|] eqn:Ei; injection H1 as <- <- <-; projs.
      * destruct (index_of_some _ _ _ Ei) as (k1 & Hk & <-). rewrite Hp in Hk |- *. assert (Hno : forall (x : list task) v j z, wk s v = WTake j z -> wk s v <> wk s v -> j <= length a -> length x < length a) by (intros x v j z _ Hne; exfalso; apply Hne; reflexivity).
        destruct (Nat.lt_trichotomy i (length a)) as [Hi|[Hi|Hi]].
        -- right. destruct (remove_before a k b i Hi) as (a' & E & Hl). exists a', b. split; [exact E|]. split; [lia|]. apply Hno.
        -- left. right. left. exists t. left. subst i. rewrite nth_error_app2 in Hk by lia. rewrite Nat.sub_diag in Hk. injection Hk as ->. reflexivity.
        -- right. destruct (remove_after a k b i Hi) as (b' & E). exists a, b'. split; [exact E|]. split; [lia|]. apply Hno.
      * right. exists a, b. split; [exact Hp|]. split; [lia|]. intros v j z Hv Hne. exfalso. apply Hne. reflexivity.
    + injection H1 as <- <- <-. left. right. left. exists t. right. eexists. reflexivity.
  - right. apply Same; [reflexivity|]. intros v j z Hv Hne. unfold upd in Hne. destruct (Nat.eqb_spec v w) as [->|]; [rewrite Hv in H1; discriminate H1|apply Hne; reflexivity].
  - right. apply Same; [reflexivity|]. intros v j z Hv Hne. unfold wake_all in Hne. rewrite Hv in Hne. apply Hne. reflexivity.
  - left. right. right. exists t. reflexivity.
Qed.

(** * The pool is owned: pending tasks are taken *)
Section Owned.
Hypothesis Hown : forall j, 0 < owners (r j).
Lemma alive_at i : alive (r i).
Proof. constructor; [|apply Hown]. destruct (reach n c r ev Hrun i) as (tr & E). exists n, c, (r 0), tr. split; [apply Hrun|exact E]. Qed.
Lemma no_dtor j t f : 0 <= j -> In f (stk (r j) t) -> is_dtor f = true -> n <= t.
Proof. intros _ Hf Hd. destruct (alive_facts _ (alive_at j)) as (_ & _ & _ & Hn & _). rewrite (Hn t f Hf) in Hd. discriminate Hd. Qed.
Lemma not_shut j : shut (r j) = false.
Proof. destruct (alive_facts _ (alive_at j)) as (_ & _ & _ & _ & H & _). exact H. Qed.
Lemma effect_free t o x u : LFree u = effect_of t o x -> False.
Proof. destruct o; cbn; try discriminate; destruct x; try discriminate; destruct b; discriminate. Qed.
Lemma gone_cases m id : gone (ev m) id -> (exists w now, ev m = LTake w id now) \/ cancels (ev m) id.
Proof.
  intros [H|[H|(t & H)]]; [left; exact H|right; exact H|]. exfalso. pose proof (step_at m) as Hs. rewrite H in Hs. inversion Hs; subst.
  - match goal with E : body _ _ _ = _ |- _ => destruct (body_label _ _ _ _ _ _ E ltac:(assumption)) as [El _] end. exact (effect_free _ _ _ _ El).
  - destruct x; discriminate.
  - match goal with E : stk _ ?u = DFree :: _ |- _ => destruct (alive_facts _ (alive_at m)) as (_ & _ & _ & Hn & _); specialize (Hn u DFree); rewrite E in Hn; specialize (Hn (or_introl eq_refl)); discriminate Hn end.
Qed.

Variable k : task.
Variable i0 : nat.
Hypothesis Hclk : forall j, i0 <= j -> (t_start k <= clock (r j))%Z.
Definition leaves (i : nat) : Prop := exists m, i <= m /\ gone (ev m) (t_id k).
Lemma leaves_le i j : i <= j -> leaves j -> leaves i.
Proof. intros H (m & H1 & H2). exists m. split; [lia|exact H2]. Qed.
Lemma stays i a b : pending (r i) = a ++ k :: b -> forall j, i <= j -> leaves i \/ exists a' b', pending (r j) = a' ++ k :: b' /\ length a' <= length a.
Proof.
  intros Hp j Hj. induction Hj as [|j Hj IH]; [right; exists a, b; split; [exact Hp|lia]|]. destruct IH as [IH|(a1 & b1 & H1 & H2)]; [left; exact IH|].
  destruct (queue_step _ _ _ a1 k b1 (step_at j) H1) as [G|(a' & b' & G1 & G2 & _)]; [left; exists j; split; [lia|exact G]|]. right. exists a', b'. split; [exact G1|lia].
Qed.
Lemma stays_in i : In k (pending (r i)) -> forall j, i <= j -> leaves i \/ In k (pending (r j)).
Proof.
  intros Hk j Hj. apply in_split in Hk. destruct Hk as (a & b & Hp). destruct (stays i a b Hp j Hj) as [H|(a' & b' & H & _)]; [left; exact H|right; rewrite H; apply in_elt].
Qed.
Definition looks (i : nat) : Prop := exists j w, i <= j /\ w < n /\ wk (r j) w = WLook.
(** a worker that is awake, or waits for a time that has come, looks at the queue *)
Definition lrank (p : wpc) : nat :=
  match p with WTake _ _ => 10 | WReg _ => 9 | WRel _ => 8 | WCall _ => 7 | WRun _ => 6 | WDone _ => 5 | WTimed _ => 5 | WDereg _ => 4 | WWait _ => 4 | WDrop | WInit | WWake => 3 | WTest => 2 | WCheck => 1 | _ => 0 end.
Definition busy (p : wpc) : Prop := match p with WWait None => False | WWait (Some d) => (d <= t_start k)%Z | _ => True end.
Lemma to_look w h : w < n -> forall i, i0 <= i -> In k (pending (r i)) -> busy (wk (r i) w) -> lrank (wk (r i) w) <= h -> leaves i \/ looks i.
Proof.
  intros Hw. induction h as [|h IH]; intros i Hi Hk Hb Hh; pose proof (g_exit _ (good_at i) w ltac:(rewrite nw_at; exact Hw)) as HX; rewrite not_shut in HX.
  - destruct (wk (r i) w) eqn:Ep; cbn in *; try lia; [right; exists i, w; split; [lia|tauto]|specialize (HX (or_introl eq_refl)); discriminate|specialize (HX (or_intror eq_refl)); discriminate].
  - assert (Next : forall m p, i <= m -> wk (r m) w = p -> busy p -> lrank p <= h -> leaves i \/ looks i).
    { intros m p Hm Ep Hbp Hl. destruct (stays_in i Hk m Hm) as [H|Hkm]; [left; exact H|]. destruct (IH m ltac:(lia) Hkm) as [H|(j & v & H1 & H2)]; [rewrite Ep; exact Hbp|rewrite Ep; exact Hl|left; eapply leaves_le; eassumption|].
      right. exists j, v. split; [lia|exact H2]. }
    destruct (is_blocked (wk (r i) w)) eqn:Ebl.
    + destruct (wk (r i) w) as [| | | | | | | | | | | | |u| | |] eqn:Ep; try discriminate Ebl. destruct u as [d|]; [|destruct Hb]. cbn [busy] in Hb.
      destruct (go_timeout n c r ev Hrun Hfair 0 no_dtor w i d (Nat.le_0_l i) Hw Ep) as (m & H1 & H2); [intros j Hj; specialize (Hclk j ltac:(lia)); lia|].
      apply (Next m WWake); [exact H1|exact H2|exact I|cbn in *; lia].
    + destruct (wpc_dec (wk (r i) w) WExit) as [E|E]; [specialize (HX (or_intror E)); discriminate HX|].
      destruct (go n c r ev Hrun Hfair Hret 0 no_dtor w i (Nat.le_0_l i) Hw Ebl E) as (m & H1 & H2 & H3). unfold next_ok in H3. rewrite H2 in H3.
      destruct (stays_in i Hk m H1) as [H|Hkm]; [left; exact H|].
      destruct (wk (r i) w) eqn:Ep; try discriminate Ebl; cbn [lrank] in Hh.
      * apply (Next (S m) _ ltac:(lia) H3); [exact I|cbn; lia].
      * rewrite not_shut in H3. apply (Next (S m) _ ltac:(lia) H3); [exact I|cbn; lia].
      * destruct H3 as [[H3 _]|[_ H3]]; [rewrite H3 in Hkm; destruct Hkm|]. apply (Next (S m) _ ltac:(lia) H3); [exact I|cbn; lia].
      * right. exists i, w. split; [lia|tauto].
      * apply (Next (S m) _ ltac:(lia) H3); [|cbn; lia]. cbn [busy]. pose proof (v_scan _ (inv_at m) w ltac:(rewrite nw_at; exact Hw)) as HS. rewrite H2 in HS. destruct HS as (_ & -> & _). apply min_start_le. exact Hkm.
      * destruct H3 as (k' & _ & _ & H3). apply (Next (S m) _ ltac:(lia) H3); [exact I|cbn; lia].
      * apply (Next (S m) _ ltac:(lia) H3); [exact I|cbn; lia].
      * apply (Next (S m) _ ltac:(lia) H3); [exact I|cbn; lia].
      * destruct H3 as [H3 _]. apply (Next (S m) _ ltac:(lia) H3); [exact I|cbn; lia].
      * destruct H3 as [H3 _]. apply (Next (S m) _ ltac:(lia) H3); [exact I|cbn; lia].
      * apply (Next (S m) _ ltac:(lia) H3); [exact I|cbn; lia].
      * apply (Next (S m) _ ltac:(lia) H3); [exact I|cbn; lia].
      * apply (Next (S m) _ ltac:(lia) H3); [exact I|cbn; lia].
      * apply (Next (S m) _ ltac:(lia) H3); [exact I|cbn; lia].
      * specialize (HX (or_introl eq_refl)). discriminate HX.
      * congruence.
Qed.
Lemma look_later w i j : w < n -> i0 <= i -> i <= j -> In k (pending (r i)) -> busy (wk (r j) w) -> leaves i \/ looks i.
Proof.
  intros Hw Hi Hj Hk Hb. destruct (stays_in i Hk j Hj) as [L|L]; [left; exact L|]. destruct (to_look w _ Hw j ltac:(lia) L Hb (le_n _)) as [Q|(j' & v & Q1 & Q2)]; [left; eapply leaves_le; eassumption|right; exists j', v; split; [lia|exact Q2]].
Qed.
(** a notification that is under way arrives *)
Lemma note_next s l s' t f rest : step s l s' -> stk s t = f :: rest -> notifying f = true -> stk s' t <> stk s t -> 0 < owners s' ->
  (exists f', stk s' t = f' :: rest /\ fholds f = true /\ fholds f' = false /\ notifying f' = true) \/
  (forall w, w < nw s -> is_blocked (wk s w) = false) \/ (exists w, w < nw s /\ wk s' w = WWake).
Proof.
  intros Hs Ht Hf Hne Ho. destruct Hs; try body_facts; unfold release, disown in *; projs; try (exfalso; congruence).
  all: unfold upd in *.
  all: try (match goal with H : (if Nat.eqb ?a ?b then _ else _) <> _ |- _ => destruct (Nat.eqb_spec a b) as [->|]; [|exfalso; apply H; try rewrite B10; reflexivity]; rewrite ?Nat.eqb_refl end).
  all: try congruence.
  all: try (match goal with H1 : stk ?s ?t = _ :: _, H2 : stk ?s ?t = _ :: _ |- _ => rewrite H1 in H2; injection H2; intros; subst; clear H2; try discriminate Hf end).
  - left. destruct r0; try discriminate Hf. eexists. split; [reflexivity|]. repeat split.
  - exfalso. destruct (Nat.eqb_spec (strong (with_refs (owners s - 1) (refs s) s)) 0) as [E|E]; [unfold strong in E; projs; lia|congruence].
  - right; left. assumption.
  - right; right. exists w. split; [assumption|]. rewrite Nat.eqb_refl. reflexivity.
Qed.
Lemma note_head i t f : In f (stk (r i) t) -> notifying f = true -> exists rest, stk (r i) t = f :: rest.
Proof.
  intros Hf Hn. destruct (stk (r i) t) as [|g rest] eqn:E; [destruct Hf|]. exists rest. destruct Hf as [->|Hf]; [reflexivity|]. exfalso.
  destruct (alive_facts _ (alive_at i)) as (_ & _ & HT & Hnd & _). specialize (HT t). rewrite E in HT. destruct HT as [H1 _]. assert (Hd : is_dtor g = false) by (apply (Hnd t); rewrite E; left; reflexivity).
  specialize (H1 Hd). pose proof (cnt_pos accret f rest Hf). destruct f; try discriminate Hn; cbn in *; lia.
Qed.
Lemma note_arrives i t f rest : i0 <= i -> In k (pending (r i)) -> stk (r i) t = f :: rest -> notifying f = true -> leaves i \/ looks i.
Proof.
  intros Hi Hk Hs Hn.
  assert (A : forall i1 f1, i <= i1 -> stk (r i1) t = f1 :: rest -> notifying f1 = true -> fholds f1 = false -> leaves i \/ looks i).
  { intros i1 f1 H1 H2 H3 H4. destruct (go_frame n c r ev Hrun Hfair 0 no_dtor t i1 f1 rest (Nat.le_0_l _) H2) as (m & G1 & G2 & G3); [intros q ->; discriminate H3|intros ->; discriminate H3|].
    pose proof (G2 m ltac:(lia)) as Em. destruct (note_next _ _ _ t f1 rest (step_at m) Em H3 G3 (Hown _)) as [(f' & _ & N & _)|[N|(w & N1 & N2)]]; [congruence| |].
    - pose proof (g_nw _ (good_at m)) as Hz. specialize (N 0 Hz). rewrite nw_at in Hz.
      apply (look_later 0 i m); try assumption; try lia. destruct (wk (r m) 0); try discriminate N; exact I.
    - rewrite nw_at in N1.
      apply (look_later w i (S m)); try assumption; try lia. rewrite N2. exact I. }
  destruct (fholds f) eqn:Ef; [|apply (A i f); try assumption; lia].
  destruct (go_frame n c r ev Hrun Hfair 0 no_dtor t i f rest (Nat.le_0_l _) Hs) as (m & G1 & G2 & G3); [intros q ->; discriminate Hn|intros ->; discriminate Hn|].
  pose proof (G2 m ltac:(lia)) as Em. destruct (note_next _ _ _ t f rest (step_at m) Em Hn G3 (Hown _)) as [(f' & N1 & _ & N2 & N3)|[N|(w & N1 & N2)]].
  - apply (A (S m) f'); try assumption; lia.
  - pose proof (g_nw _ (good_at m)) as Hz. specialize (N 0 Hz). rewrite nw_at in Hz.
    apply (look_later 0 i m); try assumption; try lia. destruct (wk (r m) 0); try discriminate N; exact I.
  - rewrite nw_at in N1.
    apply (look_later w i (S m)); try assumption; try lia. rewrite N2. exact I.
Qed.
Lemma some_look i : i0 <= i -> In k (pending (r i)) -> leaves i \/ looks i.
Proof.
  intros Hi Hk. assert (Hne : pending (r i) <> []) by (intros E; rewrite E in Hk; destruct Hk).
  destruct (g_wake _ (good_at i) Hne (not_shut i)) as [(w & Hw & Hb)|[(t & f & Hf & Hn)|(w & d & Hw & Hp & Hd)]].
  - rewrite nw_at in Hw. eapply (to_look w); [exact Hw|exact Hi|exact Hk| |apply le_n]. destruct (wk (r i) w); try discriminate Hb; exact I.
  - destruct (note_head i t f Hf Hn) as (rest & E). eapply note_arrives; eassumption.
  - rewrite nw_at in Hw. eapply (to_look w); [exact Hw|exact Hi|exact Hk| |apply le_n]. rewrite Hp. cbn [busy]. pose proof (min_start_le _ _ Hk). lia.
Qed.
(** a worker that looks at the queue takes this task or one before it *)
Lemma look_takes j w a b : i0 <= j -> w < n -> wk (r j) w = WLook -> pending (r j) = a ++ k :: b ->
  leaves j \/ exists j' a' b', j <= j' /\ pending (r j') = a' ++ k :: b' /\ length a' < length a.
Proof.
  intros Hj Hw Hp Hq. destruct (go n c r ev Hrun Hfair Hret 0 no_dtor w j (Nat.le_0_l j) Hw) as (m & H1 & H2 & H3); [rewrite Hp; reflexivity|rewrite Hp; discriminate|].
  unfold next_ok in H3. rewrite H2, Hp in H3. destruct (stays j a b Hq m H1) as [L|(a1 & b1 & Q1 & Q2)]; [left; exact L|]. pose proof (Hclk m ltac:(lia)) as Hc.
  assert (Hfr : exists i, find_ready (clock (r m)) (pending (r m)) = Some i).
  { destruct (find_ready_min (pending (r m)) (clock (r m))) as (i & x & F & _); [rewrite Q1; destruct a1; discriminate| |exists i; exact F]. pose proof (min_start_le (pending (r m)) k ltac:(rewrite Q1; apply in_elt)). lia. }
  destruct Hfr as (i & Hfr). rewrite Hfr in H3.
  destruct (go n c r ev Hrun Hfair Hret 0 no_dtor w (S m) (Nat.le_0_l _) Hw) as (m' & G1 & G2 & G3); [rewrite H3; reflexivity|rewrite H3; discriminate|].
  rewrite H3 in G2. pose proof (v_scan _ (inv_at m') w ltac:(rewrite nw_at; exact Hw)) as HS. rewrite G2 in HS. destruct HS as [_ HS].
  destruct (stays j a b Hq m' ltac:(lia)) as [L|(a2 & b2 & Q3 & Q4)]; [left; exact L|]. rewrite Q3 in HS. pose proof (find_ready_le _ _ _ _ _ Hc HS) as Hle.
  destruct (queue_step _ _ _ a2 k b2 (step_at m') Q3) as [G|(a' & b' & R1 & R2 & R3)]; [left; exists m'; split; [lia|exact G]|].
  right. exists (S m'), a', b'. split; [lia|]. split; [exact R1|]. assert (length a' < length a2); [|lia]. eapply R3; [exact G2| |exact Hle].
  unfold next_ok in G3. rewrite G2 in G3. destruct G3 as (x & _ & _ & G3). rewrite G2, G3. discriminate.
Qed.
Lemma taken_at_last h : forall i a b, i0 <= i -> pending (r i) = a ++ k :: b -> length a <= h -> leaves i.
Proof.
  induction h as [|h IH]; intros i a b Hi Hp Hl.
  all: destruct (some_look i Hi ltac:(rewrite Hp; apply in_elt)) as [L|(j & w & J1 & J2 & J3)]; [exact L|].
  all: destruct (stays i a b Hp j J1) as [L|(a1 & b1 & Q1 & Q2)]; [exact L|].
  all: destruct (look_takes j w a1 b1 ltac:(lia) J2 J3 Q1) as [L|(j' & a' & b' & R1 & R2 & R3)]; [eapply leaves_le; eassumption|].
  - lia.
  - eapply leaves_le; [|eapply (IH j' a' b'); [lia|exact R2|lia]]. lia.
Qed.
End Owned.

(** * From the queue to the end of the function *)
Lemma take_worker s w id now s' : step s (LTake w id now) s' -> w < nw s.
Proof.
  intros Hs. inversion Hs; subst; [assumption| |].
  - exfalso. match goal with E : body _ ?o _ = _ |- _ => destruct (body_label _ _ _ _ _ _ E ltac:(assumption)) as [El _]; clear - El; destruct o; cbn in El; try discriminate; destruct r0; try discriminate; destruct b; discriminate end.
  - destruct x; discriminate.
Qed.
Lemma runs_through i0 w i id now : (forall j t f, i0 <= j -> In f (stk (r j) t) -> is_dtor f = true -> n <= t) -> i0 <= i -> ev i = LTake w id now ->
  exists j1 j2, i < j1 < j2 /\ ev j1 = LStart w id /\ ev j2 = LFinish w id.
Proof.
  intros Hout Hi He. pose proof (step_at i) as Hs. rewrite He in Hs.
  assert (Hw : w < n /\ exists x, wk (r (S i)) w = WReg x /\ t_id x = id).
  { inversion Hs; subst.
    - rewrite <- (nw_at i). split; [assumption|]. exists k. split; [projs; apply upd_same|reflexivity].
    - exfalso. match goal with E : body _ ?o _ = _ |- _ => destruct (body_label _ _ _ _ _ _ E ltac:(assumption)) as [El _]; clear - El; destruct o; cbn in El; try discriminate; destruct r0; try discriminate; destruct b; discriminate end.
    - exfalso. destruct x; discriminate. }
  destruct Hw as [Hw (x & Hx & <-)].
  assert (G : forall i1, i0 <= i1 -> is_blocked (wk (r i1) w) = false -> wk (r i1) w <> WExit -> exists m, i1 <= m /\ wk (r m) w = wk (r i1) w /\ next_ok (r m) (ev m) (r (S m)) w) by (intros; eapply go; eassumption).
  destruct (G (S i)) as (m1 & A1 & A2 & A3); [lia|rewrite Hx; reflexivity|rewrite Hx; discriminate|]. unfold next_ok in A3. rewrite A2, Hx in A3.
  destruct (G (S m1)) as (m2 & A4 & A5 & A6); [lia|rewrite A3; reflexivity|rewrite A3; discriminate|]. unfold next_ok in A6. rewrite A5, A3 in A6.
  destruct (G (S m2)) as (m3 & A7 & A8 & A9); [lia|rewrite A6; reflexivity|rewrite A6; discriminate|]. unfold next_ok in A9. rewrite A8, A6 in A9. destruct A9 as [A9 A10].
  destruct (G (S m3)) as (m4 & B1 & B2 & B3); [lia|rewrite A9; reflexivity|rewrite A9; discriminate|]. unfold next_ok in B3. rewrite B2, A9 in B3. destruct B3 as (_ & B3 & _).
  exists m3, m4. split; [lia|]. split; assumption.
Qed.
End Runs.
