(** Swap and move, sequences of calls, destruction, and what remains in memory. *)
From Verif Require Import Base VecModel VecProofs VecProofs2 VecProofs3 VecProofs4 VecProofs5 VecProofs6 VecProofs7 VecSpec VecProofs8.
From Coq Require Import Permutation.
From Coq Require Import PeanoNat.

Section Vec.
Context {A : Type} (d : A) (mv : A -> A) (nothrow_move copyable : bool) (N M : nat).
Notation state := (@state A).
Notation comp := (@comp A).
Notation cell := (@cell A).
Notation Live := (@Live A).
Notation Raw := (@Raw A).
Notation blk := (@blk A).
Notation upd := (@upd A).
Notation with_bud := (@with_bud A).
Notation lives := (map Live).
Notation raws := (repeat Raw).
Notation reserve := (reserve mv nothrow_move copyable).
Notation grow := (grow mv nothrow_move copyable M).
Notation push_back := (push_back mv nothrow_move copyable M).
Notation Own := (Own (A := A) N M).
Notation FR := (FR (A := A)).
Notation Exc := (Exc (A := A) nothrow_move copyable N M).
Implicit Types s : state.
Implicit Types l : list A.

Ltac openO H := destruct H as (Ho & Hs & Hl & Hm & Hk & Hb & Hd).
Notation Post := (Post (A := A) N M).
Notation ok m s Q := (sat m s Q (fun _ _ => False)).

Notation WF := (WF (A := A) N M).
Notation world := (@world A).
Notation exec := (exec d N M mv nothrow_move copyable).
Notation meaning := (meaning d N M).

Notation WFc := (WFc (A := A) N M).
Notation kept := (kept (A := A)).
Notation execs := (execs d N M mv nothrow_move copyable).
Notation meanings := (meanings d N M).

(** swap(a, a) *)
Lemma swap_elements_self xs : forall s b pre post k, bud s = None -> k = length pre ->
  blk s b = Some (pre ++ lives xs ++ post) ->
  swap_elements mv nothrow_move (b, k) (b, k) (length xs) s = Done _ s tt.
Proof.
  induction xs as [|x xs IH]; intros s b pre post k Hbu -> Hb; [reflexivity|].
  cbn [length map app swap_elements] in *.
  erewrite bind_eq by (apply tick_move_none; assumption).
  erewrite bind_eq by (eapply take_eq; [exact Hb|reflexivity]).
  erewrite bind_eq by (eapply (move_assign_self mv nothrow_move); [exact Hbu|eapply blk_upd_eq; exact Hb]).
  erewrite bind_eq by (apply tick_move_none; exact Hbu).
  erewrite bind_eq by (eapply poke_eq; [eapply blk_upd_eq; exact Hb|reflexivity]).
  rewrite upd_upd, upd_same by exact Hb. rewrite off_pair.
  apply (IH s b (pre ++ [Live x]) post); [assumption|rewrite app_length; reflexivity|].
  rewrite <- app_assoc. exact Hb.
Qed.
Lemma swap_self s i v l : Own s i v l -> bud s = None -> swap mv nothrow_move copyable i i s = Done _ s tt.
Proof.
  intros (Ho & Hs & Hl & Hm & Hk & Hb & Hd) Hbu. unfold swap.
  erewrite bind_eq by (apply getv_eq; exact Ho). erewrite bind_eq by (apply getv_eq; exact Ho).
  assert (Hset : forall y, nth_error (objs s) i = Some y -> set_nth (objs s) i y = objs s) by (intros y; apply set_same).
  destruct (allocated i v).
  - unfold swap_heap_with_heap. erewrite bind_eq by (apply getv_eq; exact Ho). erewrite bind_eq by (apply getv_eq; exact Ho).
    unfold setv, bindc; cbn [mem objs bud]. rewrite !Hset by (rewrite ?Hset; exact Ho). destruct s; reflexivity.
  - unfold swap_internal_with_internal. erewrite bind_eq by (apply getv_eq; exact Ho). erewrite bind_eq by (apply getv_eq; exact Ho).
    rewrite Nat.leb_refl, Nat.sub_diag, Hs.
    assert (Hz : uninit_move_or_copy mv nothrow_move copyable (data v, length l) (data v, length l) 0 s = Done _ s tt)
      by (unfold uninit_move_or_copy; destruct nothrow_move, copyable; reflexivity).
    assert (Hin : bindc (swap_elements mv nothrow_move (data v, 0%nat) (data v, 0%nat) (length l)) (fun _ =>
       bindc (uninit_move_or_copy mv nothrow_move copyable (data v, length l) (data v, length l) 0) (fun _ =>
       destroy_range (data v, length l) 0)) s = Done _ s tt).
    { erewrite bind_eq by (eapply swap_elements_self with (pre := []); [exact Hbu|reflexivity|exact Hb]).
      erewrite bind_eq by exact Hz. reflexivity. }
    erewrite bind_eq by exact Hin.
    assert (Hss : set_size i (length l) s = Done _ s tt).
    { rewrite (set_size_eq _ _ v) by assumption. rewrite set_same; [destruct s; reflexivity|]. rewrite Ho, <- Hs. destruct v; reflexivity. }
    erewrite bind_eq by exact Hss. exact Hss.
Qed.

(** A vector with more than the internal capacity hands its memory over *)
Definition given s s' (a b : nat) : Prop :=
  forall va vb', nth_error (objs s) a = Some va -> nth_error (objs s') b = Some vb' -> (N < cap va)%nat -> data vb' = data va.
Definition done2 (i j : nat) s (w' : world) : nat -> state -> Prop := fun r' s' =>
  r' = 0%nat /\ WFc s' w' /\ bud s' = None /\ given s s' j i /\ (forall k, k <> i -> k <> j -> kept s s' k).
Lemma cap_inner s i v l : Own s i v l -> data v = i -> cap v = N.
Proof. intros O. apply (Own_inner d mv N M _ _ _ _ O). Qed.
Lemma WF_cap_inner s ls i v : WF s ls -> nth_error (objs s) i = Some v -> data v = i -> cap v = N.
Proof. intros HW Hv. destruct (WF_nth N M s ls i v HW Hv) as (l & O & _). eapply cap_inner; exact O. Qed.
Lemma put2 (w : world) i j a b x y : nth_error w i = Some a -> nth_error w j = Some b ->
  put (put w i x) j y = set_nth (set_nth w i x) j y.
Proof.
  intros Hi Hj. rewrite (put_set w i x a) by assumption.
  assert (Hl : (j < length (set_nth w i x))%nat) by (rewrite len_set_nth; apply nth_error_Some; congruence).
  destruct (nth_error (set_nth w i x) j) as [z|] eqn:E; [|apply nth_error_None in E; lia].
  apply (put_set _ _ _ z E).
Qed.
Lemma nth_kept s s' i j : (forall k, k <> i -> k <> j -> nth_error (objs s') k = nth_error (objs s) k) ->
  forall k, k <> i -> k <> j -> kept s s' k.
Proof. intros H k K1 K2 v v' H1 H2. rewrite H in H2 by assumption. congruence. Qed.

Lemma move_done s w i j li ci lj cj vi vj x : WFc s w -> nth_error w i = Some (li, ci) -> nth_error w j = Some (lj, cj) -> i <> j ->
  bud s = None -> (N <= M)%nat -> Own s i vi li -> Own s j vj lj -> cap vj = cj ->
  ok (move_all_from mv nothrow_move copyable N i j) (State (mem (reset_state s i vi)) (set_nth (objs s) i x) (bud s))
     (fun _ s' => done2 i j s (put (put w i (lj, cj)) j ([], N)) 0 s').
Proof.
  intros HW Hi Hj Hij Hbu HNM Oi Oj Hcj.
  eapply sat_conseq; [eapply (move_after_reset mv nothrow_move copyable N M s (map fst w) i j vi vj li lj x)|cbv beta|auto];
    try assumption; try exact (proj1 HW); try (rewrite nth_error_map, ?Hi, ?Hj; reflexivity).
  intros _ s' (W' & B' & P1 & P2 & (vj' & Hj' & Dj') & Fk).
  assert (Hi' : exists vi', nth_error (objs s') i = Some vi' /\ cap vi' = cj /\ (data vj <> j -> data vi' = data vj)).
  { destruct (Nat.eq_dec (data vj) j) as [E|E].
    - destruct (P2 E) as (vi' & H1 & H2). exists vi'. split; [exact H1|]. split; [|contradiction].
      rewrite (WF_cap_inner _ _ _ _ W' H1 H2). rewrite <- Hcj. symmetry. eapply cap_inner; eassumption.
    - exists vj. split; [exact (P1 E)|]. auto. }
  destruct Hi' as (vi' & Hvi' & Hci' & Hdi').
  split; [reflexivity|]. split.
  { rewrite (put2 w i j _ _ _ _ Hi Hj). eapply WFc_step2; try eassumption. eapply WF_cap_inner; eassumption. }
  split; [exact B'|]. split; [|apply nth_kept; exact Fk].
  intros va vb' Ha Hb Hlt. assert (va = vj) as -> by (destruct Oj as (Z & _); congruence).
  assert (vb' = vi') as -> by congruence. apply Hdi'. intros E. pose proof (cap_inner _ _ _ _ Oj E). lia.
Qed.
Theorem exec_move_assign s w w' i j r : WFc s w -> bud s = None -> (N <= M)%nat -> i <> j ->
  meaning w (MoveAssign i j) = Some (w', r) -> ok (exec (MoveAssign i j)) s (done2 i j s w').
Proof.
  intros HW Hbu HNM Hij H. cbn [VecSpec.meaning VecSpec.exec] in *.
  destruct (Nat.eqb_spec i j); [contradiction|].
  destruct (nth_error w i) as [[li ci]|] eqn:Hi; [|discriminate H].
  destruct (nth_error w j) as [[lj cj]|] eqn:Hj; [|discriminate H]. injection H as <- <-.
  destruct (WFc_own _ _ _ _ _ _ _ HW Hi) as (vi & Oi & Hci). destruct (WFc_own _ _ _ _ _ _ _ HW Hj) as (vj & Oj & Hcj).
  apply ok_ret.
  cut (ok (bindc (dtor i) (fun _ => move_all_from mv nothrow_move copyable N i j)) s (fun _ s' => done2 i j s (put (put w i (lj, cj)) j ([], N)) 0 s')).
  { unfold assign_move. destruct (Nat.eqb_spec j i); [congruence|]. unfold dtor, sat. rewrite <- !bind_assoc.
    unfold bindc. destruct (clear i s) as [s0 ?| |]; try (intros Z; exact Z). destruct (getv i s0); intros Z; exact Z. }
  apply sat_bind. eapply sat_eq; [eapply dtor_eq; exact Oi|].
  eapply move_done; eassumption.
Qed.
Theorem exec_new_move s w w' i j r : WFc s w -> bud s = None -> (N <= M)%nat ->
  meaning w (NewMove i j) = Some (w', r) -> i <> j /\ ok (exec (NewMove i j)) s (done2 i j s w').
Proof.
  intros HW Hbu HNM H. cbn [VecSpec.meaning VecSpec.exec] in *.
  destruct (nth_error w i) as [[li ci]|] eqn:Hi; [|discriminate H].
  destruct (nth_error w j) as [[lj cj]|] eqn:Hj; [|discriminate H].
  destruct (Nat.eqb_spec i j) as [|Hij]; [discriminate H|]. injection H as <- <-. split; [exact Hij|].
  destruct (WFc_own _ _ _ _ _ _ _ HW Hi) as (vi & Oi & Hci). destruct (WFc_own _ _ _ _ _ _ _ HW Hj) as (vj & Oj & Hcj).
  apply ok_assoc, ok_ret. unfold ctor_move, ctor_default.
  apply sat_bind. eapply sat_eq; [eapply dtor_eq; exact Oi|]. apply sat_bind. eapply sat_eq; [reflexivity|].
  replace (set_nth (objs (reset_state s i vi)) i (Vec i N 0)) with (set_nth (objs s) i (Vec i N 0))
    by (unfold reset_state; cbn [objs]; rewrite set_set; reflexivity).
  eapply (move_done s w i j li ci lj cj vi vj (Vec i N 0)); eassumption.
Qed.
Lemma set_nth_two (w : world) i j a b : i <> j -> set_nth (set_nth w i a) j b = set_nth (set_nth w j b) i a.
Proof. apply set_comm. Qed.
Theorem exec_swap s w w' i j r : WFc s w -> bud s = None -> (N <= M)%nat -> i <> j ->
  meaning w (Swap i j) = Some (w', r) ->
  ok (exec (Swap i j)) s (fun r' s' => done2 i j s w' r' s' /\ given s s' i j).
Proof.
  intros HW Hbu HNM Hij H. cbn [VecSpec.meaning VecSpec.exec] in *.
  destruct (nth_error w i) as [[li ci]|] eqn:Hi; [|discriminate H].
  destruct (nth_error w j) as [[lj cj]|] eqn:Hj; [|discriminate H]. injection H as <- <-.
  destruct (WFc_own _ _ _ _ _ _ _ HW Hi) as (vi & Oi & Hci). destruct (WFc_own _ _ _ _ _ _ _ HW Hj) as (vj & Oj & Hcj).
  apply ok_ret. unfold swap. eapply sat_getv; [apply Oi|]. eapply sat_getv; [apply Oj|].
  pose proof (proj1 HW) as HW1. rewrite (put2 w i j _ _ _ _ Hi Hj).
  assert (Pi : nth_error (objs s) i = Some vi) by apply Oi. assert (Pj : nth_error (objs s) j = Some vj) by apply Oj.
  unfold allocated. destruct (Nat.eqb_spec (data vi) i) as [Ei|Ei]; destruct (Nat.eqb_spec (data vj) j) as [Ej|Ej]; cbn [negb].
  - eapply sat_conseq; [eapply (swap_ii mv nothrow_move copyable N M s (map fst w) i j vi vj li lj); assumption|cbv beta|auto].
    intros _ s' (W' & B' & P1 & P2 & Fk). pose proof (cap_inner _ _ _ _ Oi Ei). pose proof (cap_inner _ _ _ _ Oj Ej).
    split; [split; [reflexivity|split; [eapply WFc_step2; try eassumption; cbn [cap]; congruence|split; [exact B'|split; [|apply nth_kept; exact Fk]]]]|];
      intros va vb' Ha Hb Hlt; [assert (va = vj) by congruence|assert (va = vi) by congruence]; subst va; lia.
  - eapply sat_conseq; [eapply (swap_hi mv nothrow_move copyable N M s (map fst w) j i vj vi lj li); try assumption; auto|cbv beta|auto].
    intros _ s' (W' & B' & P1 & (v' & P2 & P3) & Fk). rewrite set_comm in W' by auto. pose proof (cap_inner _ _ _ _ Oi Ei).
    pose proof (WF_cap_inner _ _ _ _ W' P2 P3).
    split; [split; [reflexivity|split; [eapply WFc_step2; try eassumption; [congruence|intros; apply Fk; assumption]|split; [exact B'|split; [|apply nth_kept; intros; apply Fk; assumption]]]]|];
      intros va vb' Ha Hb Hlt; [assert (va = vj) by congruence|assert (va = vi) by congruence]; subst va; [congruence|lia].
  - eapply sat_conseq; [eapply (swap_hi mv nothrow_move copyable N M s (map fst w) i j vi vj li lj); try assumption; auto|cbv beta|auto].
    intros _ s' (W' & B' & P1 & (v' & P2 & P3) & Fk). pose proof (cap_inner _ _ _ _ Oj Ej).
    pose proof (WF_cap_inner _ _ _ _ W' P2 P3).
    split; [split; [reflexivity|split; [eapply WFc_step2; try eassumption; congruence|split; [exact B'|split; [|apply nth_kept; exact Fk]]]]|];
      intros va vb' Ha Hb Hlt; [assert (va = vj) by congruence|assert (va = vi) by congruence]; subst va; [lia|congruence].
  - eapply sat_conseq; [eapply (swap_hh N M s (map fst w) i j vi vj li lj); assumption|cbv beta|auto].
    intros _ s' (W' & B' & Hm & P1 & P2 & Fk).
    split; [split; [reflexivity|split; [eapply WFc_step2; try eassumption|split; [exact B'|split; [|apply nth_kept; exact Fk]]]]|];
      intros va vb' Ha Hb Hlt; congruence.
Qed.

(** All calls *)
Theorem exec_ok s w w' op r : WFc s w -> bud s = None -> (N <= M)%nat -> meaning w op = Some (w', r) ->
  ok (exec op) s (fun r' s' => r' = r /\ WFc s' w' /\ bud s' = None).
Proof.
  intros HW Hbu HNM H.
  assert (H1 : forall i, done1 N M (in_place op) i s w' r = done1 N M (in_place op) i s w' r -> ok (exec op) s (done1 N M (in_place op) i s w' r) ->
    ok (exec op) s (fun r' s' => r' = r /\ WFc s' w' /\ bud s' = None)).
  { intros i _ Hd. eapply sat_conseq; [exact Hd| |auto]. intros r' s' (X1 & X2 & X3 & _). auto. }
  assert (H2 : forall i j, r = 0%nat -> ok (exec op) s (done2 i j s w') ->
    ok (exec op) s (fun r' s' => r' = r /\ WFc s' w' /\ bud s' = None)).
  { intros i j -> Hd. eapply sat_conseq; [exact Hd| |auto]. intros r' s' (X1 & X2 & X3 & _). auto. }
  destruct op; try (eapply H1; [reflexivity|]; eapply exec_single; try eassumption; reflexivity).
  - (* swap *) destruct (Nat.eq_dec i j) as [<-|Hij].
    + cbn [VecSpec.meaning VecSpec.exec] in *. destruct (nth_error w i) as [[l c]|] eqn:Hi; [|discriminate H]. injection H as <- <-.
      destruct (WFc_own _ _ _ _ _ _ _ HW Hi) as (v & O & Hc). apply ok_ret.
      eapply sat_eq; [eapply swap_self; eassumption|]. split; [reflexivity|]. split; [|exact Hbu].
      rewrite (put2 w i i _ _ _ _ Hi Hi), set_set, set_same by exact Hi. exact HW.
    + assert (r = 0%nat) as -> by (cbn in H; destruct (nth_error w i), (nth_error w j); congruence).
      eapply H2; [reflexivity|]. eapply sat_conseq; [eapply exec_swap; eassumption|intros r0 s0 HH; exact (proj1 HH)|auto].
  - (* move assignment *) destruct (Nat.eq_dec i j) as [<-|Hij].
    + cbn [VecSpec.meaning VecSpec.exec] in *. rewrite Nat.eqb_refl in H. injection H as <- <-. apply ok_ret.
      unfold assign_move. rewrite Nat.eqb_refl. apply sat_ret. auto.
    + assert (r = 0%nat) as -> by (cbn in H; destruct (Nat.eqb i j), (nth_error w i), (nth_error w j); congruence).
      eapply H2; [reflexivity|]. eapply exec_move_assign; eassumption.
  - assert (r = 0%nat) as -> by (cbn in H; destruct (nth_error w i), (nth_error w j), (Nat.eqb i j); congruence).
    eapply H2; [reflexivity|]. eapply exec_new_move; eassumption.
Qed.
Theorem execs_ok ops : forall s w w' rs, WFc s w -> bud s = None -> (N <= M)%nat -> meanings w ops = Some (w', rs) ->
  ok (execs ops) s (fun rs' s' => rs' = rs /\ WFc s' w' /\ bud s' = None).
Proof.
  induction ops as [|op ops IH]; intros s w w' rs HW Hbu HNM H; cbn [VecSpec.meanings VecSpec.execs] in *.
  - injection H as <- <-. apply sat_ret. auto.
  - destruct (meaning w op) as [[w1 r]|] eqn:E1; [|discriminate H].
    destruct (meanings w1 ops) as [[w2 rs2]|] eqn:E2; [|discriminate H]. injection H as <- <-.
    apply sat_bind. eapply sat_conseq; [eapply exec_ok; eassumption| |auto].
    intros r' s1 (-> & W1 & B1). apply sat_bind. eapply sat_conseq; [eapply IH; eassumption| |auto].
    intros rs' s2 (-> & W2 & B2). apply sat_ret. auto.
Qed.

(** New vectors *)
Lemma start_WF k g : (N <= M)%nat -> WFc (start N k g) (fresh N k).
Proof.
  intros HNM. unfold start, fresh.
  assert (Ho : forall i, (i < k)%nat -> nth_error (map (fun i => Vec i N 0) (seq 0 k)) i = Some (Vec i N 0)).
  { intros i Hi. rewrite nth_error_map. rewrite (nth_error_nth' _ 0%nat) by (rewrite seq_length; assumption). rewrite seq_nth by assumption. reflexivity. }
  assert (Hr : forall T (x y : T) i, nth_error (repeat x k) i = Some y -> y = x /\ (i < k)%nat).
  { intros T x y i H. split; [eapply repeat_spec; eapply nth_error_In; exact H|].
    rewrite <- (repeat_length x k). apply nth_error_Some. congruence. }
  assert (Hb : forall i, (i < k)%nat -> blk (State (repeat (Some (raws N)) k) (map (fun i => Vec i N 0) (seq 0 k)) g) i = Some (raws N)).
  { intros i Hi. unfold VecModel.blk; cbn [mem]. rewrite nth_error_repeat by assumption. reflexivity. }
  assert (Hinv : forall i v, nth_error (map (fun i => Vec i N 0) (seq 0 k)) i = Some v -> v = Vec i N 0 /\ (i < k)%nat).
  { intros i v H. assert (i < k)%nat by (rewrite <- (seq_length k 0), <- (map_length (fun i => Vec i N 0)); apply nth_error_Some; congruence).
    rewrite Ho in H by assumption. split; [congruence|assumption]. }
  split; [split; [|split; [|split; [|split]]]|].
  - cbn [objs]. rewrite !map_length, seq_length, repeat_length. reflexivity.
  - cbn [mem]. rewrite map_length, !repeat_length. lia.
  - intros i l H. rewrite nth_error_map in H. destruct (nth_error (repeat (@nil A, N) k) i) eqn:E; [|discriminate H].
    destruct (Hr _ _ _ _ E) as [-> Hi]. cbn in H. injection H as <-. exists (Vec i N 0).
    split; [apply Ho; assumption|]. cbn [size cap data length map app]. split; [reflexivity|]. split; [lia|]. split; [assumption|].
    split; [cbn [objs mem]; rewrite map_length, seq_length, repeat_length; lia|].
    split; [rewrite Hb, Nat.sub_0_r by assumption; reflexivity|]. left. auto.
  - intros i j vi vj Hij H1 H2. destruct (Hinv _ _ H1) as [-> _]. destruct (Hinv _ _ H2) as [-> _]. exact Hij.
  - intros b c Hbk Hc. exfalso. rewrite map_length, repeat_length in Hbk. unfold VecModel.blk in Hc. cbn [mem] in Hc.
    rewrite (proj2 (nth_error_None _ _)) in Hc by (rewrite repeat_length; exact Hbk). discriminate Hc.
  - intros i l c H. destruct (Hr _ _ _ _ H) as [E Hi]. injection E as -> ->. exists (Vec i N 0). split; [apply Ho; exact Hi|reflexivity].
Qed.
End Vec.
