(** Exceptions in swap and in moves of vectors: which memory is touched. *)
From Verif Require Import Base VecModel VecProofs VecProofs2 VecProofs3 VecProofs4 VecProofs5 VecProofs6 VecProofs7 VecSpec VecProofs8 VecProofs9 VecProofs10 VecProofs11 VecProofs12.
From Coq Require Import PeanoNat.

Section Vec.
Context {A : Type} (d : A) (mv : A -> A) (nothrow_move copyable : bool) (N M : nat).
Notation state := (@state A).
Notation comp := (@comp A).
Notation cell := (@cell A).
Notation Live := (@Live A).
Notation Raw := (@Raw A).
Notation blk := (@blk A).
Notation upd := (@upd A).
Notation with_bud := (@with_bud A).
Notation lives := (map Live).
Notation raws := (repeat Raw).
Notation Own := (Own (A := A) N M).
Notation WF := (WF (A := A) N M).
Notation world := (@world A).
Notation exec := (exec d N M mv nothrow_move copyable).
Notation meaning := (meaning d N M).
Notation WFc := (WFc (A := A) N M).
Notation rm := (rm (A := A)).
Notation same_raw := (same_raw (A := A)).
Notation umc := (uninit_move_or_copy mv nothrow_move copyable).
Implicit Types s : state.
Implicit Types l : list A.

(** * Only the blocks in [bs] have been written *)
Definition Tch (bs : nat -> Prop) s s' : Prop :=
  objs s' = objs s /\ length (mem s') = length (mem s) /\ forall b, ~ bs b -> blk s' b = blk s b.
Lemma Tch_refl bs s : Tch bs s s. Proof. repeat split; auto. Qed.
Lemma Tch_trans bs s s1 s2 : Tch bs s s1 -> Tch bs s1 s2 -> Tch bs s s2.
Proof. intros (A1 & A2 & A3) (B1 & B2 & B3). split; [congruence|]. split; [congruence|]. intros b Hb. rewrite B3, A3 by assumption. reflexivity. Qed.
Lemma Tch_sub (bs bs' : nat -> Prop) s s' : (forall b, bs b -> bs' b) -> Tch bs s s' -> Tch bs' s s'.
Proof. intros H (A1 & A2 & A3). split; [exact A1|]. split; [exact A2|]. intros b Hb. apply A3. auto. Qed.
Lemma Tch_upd (bs : nat -> Prop) s b c : bs b -> Tch bs s (upd s b c).
Proof.
  intros H. split; [reflexivity|]. split; [unfold VecModel.upd; cbn [mem]; apply len_set_nth|].
  intros b' Hb. rewrite blk_upd. destruct (Nat.eqb_spec b b') as [<-|]; [contradiction|reflexivity].
Qed.
Definition Keep (bs : nat -> Prop) {X} (m : comp X) : Prop := forall s,
  match m s with Done _ s1 _ => Tch bs s s1 | Thrown _ _ s1 => Tch bs s s1 | Undef _ => True end.
Definition KeepT (bs : nat -> Prop) {X} (m : comp X) : Prop := forall s e s1, m s = Thrown _ e s1 -> Tch bs s s1.
Lemma Keep_bind bs {X Y} (m : comp X) (f : X -> comp Y) : Keep bs m -> (forall x, Keep bs (f x)) -> Keep bs (bindc m f).
Proof.
  intros H1 H2 s. unfold bindc. specialize (H1 s). destruct (m s) as [s1 x|e s1|]; [|exact H1|exact I].
  specialize (H2 x s1). destruct (f x s1); [eapply Tch_trans; eassumption|eapply Tch_trans; eassumption|exact I].
Qed.
Lemma KeepT_bind bs {X Y} (m : comp X) (f : X -> comp Y) : Keep bs m -> (forall x, KeepT bs (f x)) -> KeepT bs (bindc m f).
Proof.
  intros H1 H2 s e s2. unfold bindc. specialize (H1 s). destruct (m s) as [s1 x|e1 s1|]; [| |discriminate].
  - intros E. eapply Tch_trans; [exact H1|]. eapply H2; exact E.
  - intros E. injection E as _ <-. exact H1.
Qed.
Lemma Keep_T bs {X} (m : comp X) : Keep bs m -> KeepT bs m.
Proof. intros H s e s1 E. specialize (H s). rewrite E in H. exact H. Qed.
Lemma Keep_ret bs {X} (x : X) : Keep bs (ret (A := A) x). Proof. intros s. apply Tch_refl. Qed.
Lemma Keep_tick bs : Keep bs (tick (A := A)).
Proof. intros s. unfold tick. destruct (bud s) as [[|k]|]; repeat split; auto. Qed.
Lemma Keep_tick_move bs : Keep bs (tick_move nothrow_move).
Proof. unfold tick_move. destruct nothrow_move; [apply Keep_ret|apply Keep_tick]. Qed.
Lemma Keep_rd bs p : Keep bs (rd (A := A) p).
Proof. intros s. unfold rd. destruct (blk s (fst p)); [|exact I]. destruct (nth_error l (snd p)) as [[]|]; try exact I. apply Tch_refl. Qed.
Lemma Keep_getv bs i : Keep bs (getv (A := A) i).
Proof. intros s. unfold getv. destruct (nth_error (objs s) i); [apply Tch_refl|exact I]. Qed.
Lemma Keep_poke (bs : nat -> Prop) p x : bs (fst p) -> Keep bs (poke (A := A) p x).
Proof. intros H s. unfold poke. destruct (blk s (fst p)); [|exact I]. destruct (nth_error l (snd p)) as [[]|]; try exact I. apply Tch_upd. exact H. Qed.
Lemma Keep_construct (bs : nat -> Prop) p x : bs (fst p) -> Keep bs (construct (A := A) p x).
Proof. intros H s. unfold construct. destruct (blk s (fst p)); [|exact I]. destruct (nth_error l (snd p)) as [[]|]; try exact I. apply Tch_upd. exact H. Qed.
Lemma Keep_destroy (bs : nat -> Prop) p : bs (fst p) -> Keep bs (destroy (A := A) p).
Proof. intros H s. unfold destroy. destruct (blk s (fst p)); [|exact I]. destruct (nth_error l (snd p)) as [[]|]; try exact I. apply Tch_upd. exact H. Qed.
Lemma Keep_take (bs : nat -> Prop) p : bs (fst p) -> Keep bs (take mv p).
Proof. intros H. unfold take. apply Keep_bind; [apply Keep_rd|]. intros x. apply Keep_bind; [apply Keep_poke; exact H|]. intros _. apply Keep_ret. Qed.
Lemma Keep_move_assign (bs : nat -> Prop) p q : bs (fst p) -> bs (fst q) -> Keep bs (move_assign mv nothrow_move p q).
Proof. intros H1 H2. unfold move_assign. apply Keep_bind; [apply Keep_tick_move|]. intros _. apply Keep_bind; [apply Keep_take; exact H2|]. intros x. apply Keep_poke; exact H1. Qed.
Lemma Keep_destroy_range (bs : nat -> Prop) n : forall p, bs (fst p) -> Keep bs (destroy_range (A := A) p n).
Proof. induction n as [|n IH]; intros p H; cbn [destroy_range]; [apply Keep_ret|]. apply Keep_bind; [apply Keep_destroy; exact H|]. intros _. apply IH. exact H. Qed.
Lemma Keep_on_throw bs {X} (m : comp X) h : Keep bs m -> Keep bs h -> Keep bs (on_throw m h).
Proof.
  intros H1 H2 s. unfold on_throw. specialize (H1 s). destruct (m s) as [s1 x|e s1|]; [exact H1| |exact I].
  specialize (H2 s1). destruct (h s1); try exact I; eapply Tch_trans; eassumption.
Qed.
Lemma Keep_uninit (bs : nat -> Prop) ctor src dst : bs (fst dst) -> (forall k, Keep bs (ctor (off dst k) (off src k))) ->
  forall n k, Keep bs (uninit_loop ctor src dst k n).
Proof.
  intros H1 H2. induction n as [|n IH]; intros k; cbn [uninit_loop]; [apply Keep_ret|].
  apply Keep_bind; [apply Keep_on_throw; [apply H2|apply Keep_destroy_range; exact H1]|]. intros _. apply IH.
Qed.
Lemma Keep_umc (bs : nat -> Prop) src dst n : bs (fst dst) -> (nothrow_move || negb copyable = true -> bs (fst src)) -> Keep bs (umc src dst n).
Proof.
  intros H1 H2. assert (HM : nothrow_move || negb copyable = true -> Keep bs (uninit_move mv nothrow_move src dst n)).
  { intros H. specialize (H2 H). apply Keep_uninit; [exact H1|]. intros k. unfold move_construct.
    apply Keep_bind; [apply Keep_tick_move|]. intros _. apply Keep_bind; [apply Keep_take; exact H2|]. intros x. apply Keep_construct. exact H1. }
  unfold uninit_move_or_copy. destruct nothrow_move eqn:E1; [apply HM; reflexivity|]. destruct copyable; [|apply HM; reflexivity].
  apply Keep_uninit; [exact H1|]. intros k. unfold copy_construct.
  apply Keep_bind; [apply Keep_tick|]. intros _. apply Keep_bind; [apply Keep_rd|]. intros x. apply Keep_construct. exact H1.
Qed.
Lemma Keep_swap_elements (bs : nat -> Prop) n : forall p q, bs (fst p) -> bs (fst q) -> Keep bs (swap_elements mv nothrow_move p q n).
Proof.
  induction n as [|n IH]; intros p q H1 H2; cbn [swap_elements]; [apply Keep_ret|].
  apply Keep_bind; [apply Keep_tick_move|]. intros _. apply Keep_bind; [apply Keep_take; exact H1|]. intros x.
  apply Keep_bind; [apply Keep_move_assign; assumption|]. intros _. apply Keep_bind; [apply Keep_tick_move|]. intros _.
  apply Keep_bind; [apply Keep_poke; exact H2|]. intros _. apply IH; assumption.
Qed.

(** * Which cells are live after an exception *)
Lemma sr_refl s : same_raw s s. Proof. intros b. reflexivity. Qed.
Lemma sr_trans s s1 s2 : same_raw s s1 -> same_raw s1 s2 -> same_raw s s2.
Proof. intros H1 H2 b. rewrite H2. apply H1. Qed.
Definition TrR {X} (m : comp X) : Prop := forall s0 s, same_raw s0 s -> TrP (fun _ b => same_raw s0 b) m s.
Lemma TrR_of {X} (m : comp X) : (forall s, TrP same_raw m s) -> TrR m.
Proof. intros H s0 s R. eapply TrP_weak; [|apply H]. intros s' HR. eapply sr_trans; eassumption. Qed.
Lemma TrR_BI {X} (m : comp X) : BI m -> TrR m.
Proof. intros H s0 s R. apply Tr_BI. exact H. Qed.
Lemma TrR_end {X Y} (m : comp X) (f : X -> comp Y) : TrR m -> (forall x, BI (f x)) -> TrR (bindc m f).
Proof. intros H1 H2 s0 s R. apply TrP_bind; [apply H1; exact R|]. intros s1 x _. apply Tr_BI. apply H2. Qed.
Definition SR {X} (m : comp X) : Prop := forall s s1 x, m s = Done _ s1 x -> same_raw s s1.
Lemma TrR_bind {X Y} (m : comp X) (f : X -> comp Y) : TrR m -> SR m -> (forall x, TrR (f x)) -> TrR (bindc m f).
Proof.
  intros H1 HS H2 s0 s R. apply TrP_bind; [apply H1; exact R|]. intros s1 x E. eapply TrP_weak; [|apply H2].
  - intros s' HR. exact HR.
  - eapply sr_trans; [exact R|]. intros b. rewrite (HS _ _ _ E b). reflexivity.
Qed.
Lemma SR_bind {X Y} (m : comp X) (f : X -> comp Y) : SR m -> (forall x, SR (f x)) -> SR (bindc m f).
Proof.
  intros H1 H2 s s2 y. unfold bindc. destruct (m s) as [s1 x| |] eqn:E; try discriminate. intros E2.
  eapply sr_trans; [eapply H1; exact E|eapply H2; exact E2].
Qed.
Lemma SR_tick_move : SR (tick_move nothrow_move).
Proof.
  intros s s1 x. unfold tick_move, tick. destruct nothrow_move; [intros E; injection E as <- _; apply sr_refl|].
  destruct (bud s) as [[|k]|]; try discriminate; intros E; injection E as <- _; intros b; reflexivity.
Qed.
Lemma SR_getv i : SR (getv (A := A) i).
Proof. intros s s1 x. unfold getv. destruct (nth_error (objs s) i); [|discriminate]. intros E. injection E as <- _. apply sr_refl. Qed.
Lemma SR_take p : SR (take mv p). Proof. intros s s1 x. apply take_inv. Qed.
Lemma SR_poke p x : SR (poke (A := A) p x). Proof. intros s s1 u. apply poke_rm. Qed.
Lemma SR_move_assign p q : SR (move_assign mv nothrow_move p q).
Proof. unfold move_assign. apply SR_bind; [apply SR_tick_move|]. intros _. apply SR_bind; [apply SR_take|]. intros x. apply SR_poke. Qed.
Lemma TrR_tick_move : TrR (tick_move nothrow_move).
Proof. apply TrR_of. intros s. apply TrP_tick_move, same_raw_wb. Qed.
Lemma TrR_move_assign p q : TrR (move_assign mv nothrow_move p q).
Proof.
  unfold move_assign. apply TrR_bind; [apply TrR_tick_move|apply SR_tick_move|]. intros _. apply TrR_BI.
  apply BI_bind; [apply BI_take|]. intros x. apply BI_poke.
Qed.
Lemma SR_swap_elements n : forall p q, SR (swap_elements mv nothrow_move p q n).
Proof.
  induction n as [|n IH]; intros p q; cbn [swap_elements]; [intros s s1 x E; injection E as <- _; apply sr_refl|].
  apply SR_bind; [apply SR_tick_move|]. intros _. apply SR_bind; [apply SR_take|]. intros x.
  apply SR_bind; [apply SR_move_assign|]. intros _. apply SR_bind; [apply SR_tick_move|]. intros _.
  apply SR_bind; [apply SR_poke|]. intros _. apply IH.
Qed.
Lemma TrR_swap_elements n : forall p q, TrR (swap_elements mv nothrow_move p q n).
Proof.
  induction n as [|n IH]; intros p q; cbn [swap_elements]; [apply TrR_BI, BI_ret|].
  apply TrR_bind; [apply TrR_tick_move|apply SR_tick_move|]. intros _.
  apply TrR_bind; [apply TrR_BI, BI_take|apply SR_take|]. intros x.
  apply TrR_bind; [apply TrR_move_assign|apply SR_move_assign|]. intros _.
  apply TrR_bind; [apply TrR_tick_move|apply SR_tick_move|]. intros _.
  apply TrR_bind; [apply TrR_BI, BI_poke|apply SR_poke|]. intros _. apply IH.
Qed.
Lemma TrR_umc src dst n : TrR (umc src dst n).
Proof. apply TrR_of. intros s. destruct dst as [b k]. apply umc_tr. Qed.
Lemma TrR_if {X} (b : bool) (m1 m2 : comp X) : TrR m1 -> TrR m2 -> TrR (if b then m1 else m2).
Proof. destruct b; auto. Qed.
Lemma TrR_swap i j : TrR (swap mv nothrow_move copyable i j).
Proof.
  unfold swap. apply TrR_bind; [apply TrR_BI, BI_getv|apply SR_getv|]. intros va.
  apply TrR_bind; [apply TrR_BI, BI_getv|apply SR_getv|]. intros vb.
  assert (HI : forall a b, TrR (swap_heap_with_internal mv nothrow_move copyable a b)).
  { intros a b. unfold swap_heap_with_internal. apply TrR_bind; [apply TrR_BI, BI_getv|apply SR_getv|]. intros v1.
    apply TrR_bind; [apply TrR_BI, BI_getv|apply SR_getv|]. intros v2.
    apply TrR_end; [apply TrR_umc|]. intros _. apply BI_bind; [apply BI_destroy_range|]. intros _. apply BI_bind; [apply BI_setv|]. intros _. apply BI_setv. }
  destruct (allocated i va), (allocated j vb).
  - unfold swap_heap_with_heap. apply TrR_BI. apply BI_bind; [apply BI_getv|]. intros v1. apply BI_bind; [apply BI_getv|]. intros v2.
    apply BI_bind; [apply BI_setv|]. intros _. apply BI_setv.
  - apply HI.
  - apply HI.
  - unfold swap_internal_with_internal. apply TrR_bind; [apply TrR_BI, BI_getv|apply SR_getv|]. intros v1.
    apply TrR_bind; [apply TrR_BI, BI_getv|apply SR_getv|]. intros v2.
    apply TrR_end; [|intros _; apply BI_bind; [apply BI_set_size|intros _; apply BI_set_size]].
    apply TrR_if.
    + apply TrR_bind; [apply TrR_swap_elements|apply SR_swap_elements|]. intros _. apply TrR_end; [apply TrR_umc|]. intros _. apply BI_destroy_range.
    + apply TrR_bind; [apply TrR_swap_elements|apply SR_swap_elements|]. intros _. apply TrR_end; [apply TrR_umc|]. intros _. apply BI_destroy_range.
Qed.
Lemma KeepT_BI bs {X} (m : comp X) : (forall s e s1, m s <> Thrown _ e s1) -> KeepT bs m.
Proof. intros H s e s1 E. destruct (H _ _ _ E). Qed.

(** * The vectors *)
Lemma live_list (c : list cell) l n : map is_raw c = map is_raw (lives l ++ raws n) -> exists l', c = lives l' ++ raws n /\ length l' = length l.
Proof.
  revert l. induction c as [|x c IH]; intros [|y l] H; cbn in *.
  - exists []. cbn. split; [|reflexivity]. destruct n; [reflexivity|discriminate H].
  - discriminate H.
  - exists []. cbn. split; [|reflexivity]. clear IH. revert x c H. induction n as [|n IHn]; intros x c H; [discriminate H|]. cbn in *. injection H as H1 H2.
    destruct x; [|discriminate H1]. f_equal. destruct c; [destruct n; [reflexivity|discriminate H2]|]. apply IHn. exact H2.
  - injection H as H1 H2. destruct x as [|x]; [discriminate H1|]. destruct (IH l H2) as (l' & -> & L). exists (x :: l'). cbn. split; [reflexivity|congruence].
Qed.
Lemma all_raw (c : list cell) n : map is_raw c = map is_raw (raws n) -> c = raws n.
Proof. intros H. destruct (live_list c [] n H) as (l' & -> & L). destruct l'; [reflexivity|discriminate L]. Qed.
Lemma Own_shape bs s s' i v l : Own s i v l -> Tch bs s s' -> same_raw s s' ->
  exists l', Own s' i v l' /\ length l' = length l /\ (~ bs (data v) -> l' = l).
Proof.
  intros (Ho & Hs & Hl & Hm & Hk & Hb & Hd) (T1 & T2 & T3) R.
  assert (X : exists l', blk s' (data v) = Some (lives l' ++ raws (cap v - length l)) /\ length l' = length l).
  { specialize (R (data v)). unfold VecProofs12.rm in R. rewrite Hb in R. destruct (blk s' (data v)) as [c|]; [|discriminate R]. cbn [option_map] in R. injection R as R.
    destruct (live_list c l _ R) as (l' & -> & L). exists l'. auto. }
  destruct X as (l' & Hb' & L). exists l'. split; [|split; [exact L|]].
  - unfold VecProofs2.Own. rewrite T1, T2, L. repeat (split; [assumption|]). destruct Hd as [Hd|(D1 & D2 & D3)]; [left; exact Hd|right].
    split; [exact D1|]. split; [exact D2|]. specialize (R i). unfold VecProofs12.rm in R. rewrite D3 in R.
    destruct (blk s' i) as [c|]; [|discriminate R]. cbn [option_map] in R. injection R as R. rewrite (all_raw _ _ R). reflexivity.
  - intros Hn. rewrite T3, Hb in Hb' by exact Hn. injection Hb' as Hb'. apply app_inv_tail in Hb'.
    clear - Hb'. revert l' Hb'. induction l as [|x l IH]; intros [|y l'] H; try discriminate H; [reflexivity|]. cbn in H. injection H as -> H. f_equal. apply IH. exact H.
Qed.
Lemma all_shape bs s s' : Tch bs s s' -> same_raw s s' -> forall (w : world) k0,
  (forall k l c, nth_error w k = Some (l, c) -> exists v, Own s (k0 + k)%nat v l /\ cap v = c) ->
  exists w' : world, length w' = length w /\
    (forall k l' c, nth_error w' k = Some (l', c) -> exists v, Own s' (k0 + k)%nat v l' /\ cap v = c) /\
    (forall k l c, nth_error w k = Some (l, c) -> exists l' v, nth_error w' k = Some (l', c) /\ nth_error (objs s) (k0 + k) = Some v /\
       length l' = length l /\ (~ bs (data v) -> l' = l)).
Proof.
  intros T R. induction w as [|[l c] w IH]; intros k0 H.
  - exists []. split; [reflexivity|]. split; intros [|k] ? ? E; discriminate E.
  - destruct (H 0%nat l c eq_refl) as (v & O & C). destruct (Own_shape bs s s' _ v l O T R) as (l' & O' & L & HK).
    destruct (IH (S k0)) as (w' & L' & H1 & H2).
    { intros k l0 c0 Hk. destruct (H (S k) l0 c0 Hk) as (v0 & O0 & C0). exists v0. rewrite Nat.add_succ_comm. auto. }
    exists ((l', c) :: w'). split; [cbn; congruence|]. split.
    + intros [|k] l1 c1 E; cbn in E; [injection E as <- <-; eauto|]. destruct (H1 k l1 c1 E) as (v1 & O1 & C1). exists v1. rewrite <- Nat.add_succ_comm. auto.
    + intros [|k] l1 c1 E; cbn in E; [injection E as <- <-; exists l', v|].
      * split; [reflexivity|]. split; [apply O|]. auto.
      * destruct (H2 k l1 c1 E) as (l2 & v2 & E2 & Ho & L2 & K2). exists l2, v2. rewrite <- Nat.add_succ_comm. auto.
Qed.
Lemma WFc_shape bs s s' w : WFc s w -> Tch bs s s' -> same_raw s s' ->
  exists w' : world, WFc s' w' /\ length w' = length w /\
    (forall k l c, nth_error w k = Some (l, c) -> exists l' v, nth_error w' k = Some (l', c) /\ nth_error (objs s) k = Some v /\
       length l' = length l /\ (~ bs (data v) -> l' = l)).
Proof.
  intros HW T R. destruct (all_shape bs s s' T R w 0) as (w' & L & H1 & H2).
  { intros k l c Hk. apply (WFc_own N M _ _ _ _ _ HW Hk). }
  exists w'. cbn [Nat.add] in *. split; [|split; [exact L|exact H2]].
  destruct HW as [(W1 & W2 & W3 & W4 & W5) HC]. pose proof T as (T1 & T2 & T3). rewrite map_length in W1, W2, W5. split.
  - unfold VecProofs6.WF. rewrite map_length, T1, T2, L. split; [exact W1|]. split; [exact W2|]. split.
    + intros i l Hi. rewrite nth_error_map in Hi. destruct (nth_error w' i) as [[l' c]|] eqn:E; [|discriminate Hi]. cbn in Hi. injection Hi as <-.
      destruct (H1 i l' c E) as (v & O & _). eauto.
    + split; [exact W4|]. intros b c Hb Hc. specialize (R b). unfold VecProofs12.rm in R. rewrite Hc in R.
      destruct (blk s b) as [c0|] eqn:Eb; [|discriminate R]. apply (W5 b c0 Hb Eb).
  - intros i l c Hi. destruct (H1 i l c Hi) as (v & O & C). exists v. split; [apply O|exact C].
Qed.
Lemma world_eq (w w' : world) : length w = length w' -> (forall k, nth_error w k = nth_error w' k) -> w = w'.
Proof.
  revert w'. induction w as [|x w IH]; intros [|y w'] L H; try discriminate L; [reflexivity|].
  f_equal; [specialize (H 0%nat); cbn in H; congruence|]. apply IH; [cbn in L; congruence|]. intros k. exact (H (S k)).
Qed.
Lemma put2_of (w w2 : world) i j a b a' b' : length w2 = length w ->
  nth_error w i = Some a -> nth_error w j = Some b -> nth_error w2 i = Some a' -> nth_error w2 j = Some b' ->
  (forall k, k <> i -> k <> j -> nth_error w2 k = nth_error w k) -> w2 = put (put w i a') j b'.
Proof.
  intros L Hi Hj Hi2 Hj2 HK. rewrite (put2 w i j _ _ _ _ Hi Hj). apply world_eq; [rewrite !len_set_nth; exact L|].
  intros k. rewrite !nth_set_nth, len_set_nth.
  assert (i < length w)%nat by (apply nth_error_Some; congruence). assert (j < length w)%nat by (apply nth_error_Some; congruence).
  destruct (Nat.eqb_spec j k) as [<-|Nj]; cbn [andb]; [destruct (Nat.ltb_spec j (length w)); [exact Hj2|lia]|].
  destruct (Nat.eqb_spec i k) as [<-|Ni]; cbn [andb]; [destruct (Nat.ltb_spec i (length w)); [exact Hi2|lia]|].
  apply HK; auto.
Qed.
Definition NoT {X} (m : comp X) : Prop := forall s e s1, m s <> Thrown _ e s1.
Lemma NoT_bind {X Y} (m : comp X) (f : X -> comp Y) : NoT m -> (forall x, NoT (f x)) -> NoT (bindc m f).
Proof. intros H1 H2 s e s2. unfold bindc. destruct (m s) as [s1 x|e1 s1|] eqn:E; [apply H2| |discriminate]. destruct (H1 _ _ _ E). Qed.
Lemma NoT_getv i : NoT (getv (A := A) i).
Proof. intros s e s1. unfold getv. destruct (nth_error (objs s) i); discriminate. Qed.
Lemma NoT_setv i v : NoT (setv (A := A) i v). Proof. intros s e s1. discriminate. Qed.
Lemma NoT_ret {X} (x : X) : NoT (ret (A := A) x). Proof. intros s e s1. discriminate. Qed.
Lemma NoT_set_size i n : NoT (set_size (A := A) i n).
Proof. apply NoT_bind; [apply NoT_getv|]. intros v. apply NoT_setv. Qed.
Lemma NoT_destroy_range n : forall p, NoT (destroy_range (A := A) p n).
Proof.
  induction n as [|n IH]; intros p; cbn [destroy_range]; [apply NoT_ret|]. apply NoT_bind; [|intros _; apply IH].
  intros s e s1. unfold destroy. destruct (blk s (fst p)); [|discriminate]. destruct (nth_error l (snd p)) as [[]|]; discriminate.
Qed.
Lemma NoT_clear i : NoT (clear (A := A) i).
Proof. unfold clear. apply NoT_bind; [apply NoT_getv|]. intros v. apply NoT_bind; [apply NoT_destroy_range|]. intros _. apply NoT_set_size. Qed.
Lemma Own_where s i v l k vk lk : Own s i v l -> Own s k vk lk -> k <> i -> data vk <> i.
Proof.
  intros (Ho & _) (_ & _ & _ & _ & _ & _ & D) Hk E. assert (i < length (objs s))%nat by (apply nth_error_Some; congruence).
  destruct D as [[D _]|(D & _)]; [congruence|lia].
Qed.
Lemma bind_thrown {X Y} (m : comp X) (f : X -> comp Y) s e s' : bindc m f s = Thrown _ e s' ->
  m s = Thrown _ e s' \/ exists s1 x, m s = Done _ s1 x /\ f x s1 = Thrown _ e s'.
Proof. unfold bindc. destruct (m s) as [s1 x|e1 s1|]; [|intros E; injection E as <- <-; auto|discriminate]. right. eauto. Qed.
Lemma cap_heap s i v l : Own s i v l -> (N < cap v)%nat -> data v <> i.
Proof. intros O H E. pose proof (cap_inner d mv N M s i v l O E). lia. Qed.
Lemma hi_touch s a b va vb e s' : nth_error (objs s) a = Some va -> nth_error (objs s) b = Some vb -> nothrow_move = false ->
  swap_heap_with_internal mv nothrow_move copyable a b s = Thrown _ e s' -> Tch (fun x => x = a \/ (copyable = false /\ x = data vb)) s s'.
Proof.
  intros Ha Hb Hnt E. unfold swap_heap_with_internal in E. erewrite bind_eq in E by (apply getv_eq; exact Ha).
  erewrite bind_eq in E by (apply getv_eq; exact Hb). apply bind_thrown in E. destruct E as [E|(s1 & x & _ & E)].
  - eapply Keep_T; [|exact E]. apply Keep_umc; cbn [fst]; [left; reflexivity|]. rewrite Hnt. cbn [orb]. destruct copyable; [discriminate|auto].
  - exfalso. revert E. match goal with |- ?m _ = _ -> _ => assert (X : NoT m) end; [|apply X].
    apply NoT_bind; [apply NoT_destroy_range|]. intros _. apply NoT_bind; [apply NoT_setv|]. intros _. apply NoT_setv.
Qed.
Lemma ii_touch s a b va vb e s' : nth_error (objs s) a = Some va -> nth_error (objs s) b = Some vb ->
  swap_internal_with_internal mv nothrow_move copyable a b s = Thrown _ e s' -> Tch (fun x => x = data va \/ x = data vb) s s'.
Proof.
  intros Ha Hb E. unfold swap_internal_with_internal in E. erewrite bind_eq in E by (apply getv_eq; exact Ha).
  erewrite bind_eq in E by (apply getv_eq; exact Hb). apply bind_thrown in E. destruct E as [E|(s1 & x & _ & E)].
  - destruct (Nat.leb (size va) (size vb)); (eapply Keep_T; [|exact E]);
      (apply Keep_bind; [apply Keep_swap_elements; cbn [fst]; auto|intros _; apply Keep_bind; [apply Keep_umc; cbn [fst]; auto|intros _; apply Keep_destroy_range; cbn [fst]; auto]]).
  - exfalso. revert E. match goal with |- ?m _ = _ -> _ => assert (X : NoT m) end; [|apply X].
    apply NoT_bind; [apply NoT_set_size|]. intros _. apply NoT_set_size.
Qed.
Lemma swap_exc s w w' i j r e s' : WFc s w -> (N <= M)%nat -> nothrow_move = false -> meaning w (Swap i j) = Some (w', r) ->
  exec (Swap i j) s = Thrown _ e s' -> exists w2, WFc s' w2 /\ after_throw2 N copyable (Mixed j) i w w2.
Proof.
  intros HW HNM Hnt Hm E.
  assert (E0 : sat (exec (Swap i j)) (with_bud None s) (fun r' s' => r' = r /\ WFc s' w' /\ bud s' = None) (fun _ _ => False)) by (eapply exec_ok; eauto).
  cbn [VecSpec.exec] in E, E0. apply bind_thrown in E. destruct E as [E|(s1 & x & _ & E)]; [|discriminate E].
  unfold sat, bindc in E0. destruct (swap mv nothrow_move copyable i j (with_bud None s)) as [s1 u| |] eqn:E1; try contradiction. clear E0.
  assert (R : same_raw s s').
  { destruct (TrR_swap i j s s (sr_refl s) s1 u E1) as [_ G]. specialize (G (bud s)).
    assert (Es : with_bud (bud s) s = s) by (destruct s; reflexivity). rewrite Es, E in G. apply G. }
  cbn [VecSpec.meaning] in Hm. destruct (nth_error w i) as [[li ci]|] eqn:Hi; [|discriminate Hm]. destruct (nth_error w j) as [[lj cj]|] eqn:Hj; [|discriminate Hm]. clear Hm E1.
  destruct (WFc_own _ _ _ _ _ _ _ HW Hi) as (vi & Oi & Hci). destruct (WFc_own _ _ _ _ _ _ _ HW Hj) as (vj & Oj & Hcj).
  assert (Pi : nth_error (objs s) i = Some vi) by apply Oi. assert (Pj : nth_error (objs s) j = Some vj) by apply Oj.
  (* it suffices to know the blocks that were written *)
  assert (FIN : forall bs, Tch bs s s' -> (forall b, bs b -> b = i \/ b = j \/ b = data vi \/ b = data vj) ->
    ((N < ci)%nat -> ~ bs (data vi)) -> ((N < cj)%nat -> ~ bs (data vj)) -> (copyable = true -> (N < ci)%nat \/ (N < cj)%nat -> ~ bs (data vi) /\ ~ bs (data vj)) ->
    exists w2, WFc s' w2 /\ after_throw2 N copyable (Mixed j) i w w2).
  { intros bs T HB B1 B2 B3. destruct (WFc_shape bs s s' w HW T R) as (w2 & W2 & L2 & H2). exists w2. split; [exact W2|].
    destruct (H2 i li ci Hi) as (li' & vi0 & Hi2 & Pi0 & Li & Ki). destruct (H2 j lj cj Hj) as (lj' & vj0 & Hj2 & Pj0 & Lj & Kj).
    assert (vi0 = vi) as -> by congruence. assert (vj0 = vj) as -> by congruence.
    exists li, ci, lj, cj, li', lj'. split; [exact Hi|]. split; [exact Hj|]. split.
    - eapply put2_of; try eassumption. intros k K1 K2. destruct (nth_error w k) as [[l c]|] eqn:Hk.
      + destruct (H2 k l c Hk) as (l' & v & Hk2 & Pk & _ & Kk). rewrite Hk2. rewrite Kk; [reflexivity|]. intros Z.
        destruct (WFc_own _ _ _ _ _ _ _ HW Hk) as (v' & Ok & _). assert (v' = v) as -> by (destruct Ok as (Z1 & _); congruence).
        destruct (HB _ Z) as [Z2|[Z2|[Z2|Z2]]].
        * revert Z2. eapply Own_where; [exact Oi|exact Ok|exact K1].
        * revert Z2. eapply Own_where; [exact Oj|exact Ok|exact K2].
        * revert Z2. eapply WF_data_neq; [exact (proj1 HW)|exact K1|exact Pk|exact Pi].
        * revert Z2. eapply WF_data_neq; [exact (proj1 HW)|exact K2|exact Pk|exact Pj].
      + apply nth_error_None. apply nth_error_None in Hk. lia.
    - split; [exact Li|]. split; [exact Lj|]. split; [auto|]. split; [auto|]. intros C1 C2. destruct (B3 C1 C2). auto. }
  assert (CI : (N < ci)%nat -> data vi <> i) by (rewrite <- Hci; eapply cap_heap; exact Oi).
  assert (CJ : (N < cj)%nat -> data vj <> j) by (rewrite <- Hcj; eapply cap_heap; exact Oj).
  unfold swap in E. erewrite bind_eq in E by (apply getv_eq; exact Pi). erewrite bind_eq in E by (apply getv_eq; exact Pj).
  unfold allocated in E. destruct (Nat.eqb_spec (data vi) i) as [Ei|Ei]; destruct (Nat.eqb_spec (data vj) j) as [Ej|Ej]; cbn [negb] in E.
  - eapply FIN; [eapply ii_touch; [exact Pi|exact Pj|exact E]|cbv beta; tauto|cbv beta; tauto|cbv beta; tauto|]. intros _ [C|C]; [destruct (CI C Ei)|destruct (CJ C Ej)].
  - assert (Hij : i <> j) by (intros ->; congruence). assert (Hvv : data vj <> i) by (eapply Own_where; eauto).
    eapply FIN; [eapply hi_touch; [exact Pj|exact Pi|exact Hnt|exact E]|cbv beta; tauto|cbv beta|cbv beta|cbv beta].
    + intros C. destruct (CI C Ei). + intros _ [Z|[_ Z]]; congruence.
    + intros C1 _. split; intros [Z|[Z1 Z]]; congruence.
  - assert (Hij : i <> j) by (intros ->; congruence). assert (Hvv : data vi <> j) by (eapply Own_where; eauto).
    eapply FIN; [eapply hi_touch; [exact Pi|exact Pj|exact Hnt|exact E]|cbv beta; tauto|cbv beta|cbv beta|cbv beta].
    + intros _ [Z|[_ Z]]; congruence. + intros C. destruct (CJ C Ej).
    + intros C1 _. split; intros [Z|[Z1 Z]]; congruence.
  - exfalso. revert E. match goal with |- ?m _ = _ -> _ => assert (X : NoT m) end; [|apply X].
    unfold swap_heap_with_heap. apply NoT_bind; [apply NoT_getv|]. intros v1. apply NoT_bind; [apply NoT_getv|]. intros v2.
    apply NoT_bind; [apply NoT_setv|]. intros _. apply NoT_setv.
Qed.
Lemma move_all_exc s w i j x li ci lj cj vi vj e s' : WFc s w -> (N <= M)%nat -> nothrow_move = false -> i <> j ->
  nth_error w i = Some (li, ci) -> nth_error w j = Some (lj, cj) -> Own s i vi li -> Own s j vj lj -> cap vj = cj -> size x = 0%nat ->
  (exists s2 u, move_all_from mv nothrow_move copyable N i j (State (mem (reset_state s i vi)) (set_nth (objs s) i x) None) = Done _ s2 u) ->
  move_all_from mv nothrow_move copyable N i j (State (mem (reset_state s i vi)) (set_nth (objs s) i x) (bud s)) = Thrown _ e s' ->
  exists w2, WFc s' w2 /\ after_throw2 N copyable (NotTaken j) i w w2.
Proof.
  intros HW HNM Hnt Hij Hi Hj Oi Oj Hcj Hx (s2 & u & E0) E.
  assert (Pi : nth_error (objs s) i = Some vi) by apply Oi. assert (Pj : nth_error (objs s) j = Some vj) by apply Oj.
  assert (Li : (i < length (objs s))%nat) by (apply nth_error_Some; congruence).
  set (s1 := State (mem (reset_state s i vi)) (set_nth (objs s) i (Vec i N 0)) (bud s)) in *.
  assert (W1 : WFc s1 (put w i ([], N))).
  { destruct (exec_nothrow d mv nothrow_move copyable N M s w (put w i ([], N)) (NewDefault i) 0%nat HW HNM eq_refl) as (s3 & E3 & W3 & _).
    - cbn [VecSpec.meaning]. unfold on. rewrite Hi. reflexivity.
    - cbn [VecSpec.exec] in E3. erewrite bind_eq in E3 by (eapply dtor_eq; exact Oi). unfold bindc, ctor_default, setv, ret in E3. injection E3 as E3.
      replace s1 with s3; [exact W3|]. rewrite <- E3. unfold s1, reset_state. cbn [mem objs bud]. rewrite (set_set (objs s)). reflexivity. }
  assert (Gx : forall g, getv j (State (mem (reset_state s i vi)) (set_nth (objs s) i x) g) = Done _ (State (mem (reset_state s i vi)) (set_nth (objs s) i x) g) vj).
  { intros g. apply getv_eq. cbn [objs]. rewrite nth_set_nth. destruct (Nat.eqb_spec i j); [contradiction|]. exact Pj. }
  assert (Gi : forall g, getv i (State (mem (reset_state s i vi)) (set_nth (objs s) i x) g) = Done _ (State (mem (reset_state s i vi)) (set_nth (objs s) i x) g) x).
  { intros g. apply getv_eq. cbn [objs]. rewrite nth_set_nth, Nat.eqb_refl. destruct (Nat.ltb_spec i (length (objs s))); [reflexivity|lia]. }
  unfold move_all_from in E, E0. erewrite bind_eq in E by apply Gx. erewrite bind_eq in E0 by apply Gx.
  unfold allocated in E, E0. destruct (Nat.eqb_spec (data vj) j) as [Ej|Ej]; cbn [negb] in E, E0.
  2: { exfalso. revert E. match goal with |- ?m _ = _ -> _ => assert (X : NoT m) end; [|apply X]. apply NoT_bind; [apply NoT_setv|]. intros _. apply NoT_setv. }
  erewrite bind_eq in E by apply Gi. erewrite bind_eq in E0 by apply Gi. rewrite Hx in E, E0.
  erewrite bind_eq in E by reflexivity. erewrite bind_eq in E0 by reflexivity. cbn [mem objs bud] in E, E0. rewrite (set_set (objs s)) in E, E0.
  fold s1 in E. change (State (mem (reset_state s i vi)) (set_nth (objs s) i (Vec i N 0)) None) with (with_bud None s1) in E0.
  apply bind_thrown in E. destruct E as [E|(s3 & y & _ & E)].
  2: { exfalso. revert E. match goal with |- ?m _ = _ -> _ => assert (X : NoT m) end; [|apply X]. apply NoT_bind; [apply NoT_set_size|]. intros _. apply NoT_clear. }
  unfold bindc in E0. destruct (umc (data vj, 0%nat) (i, 0%nat) (size vj) (with_bud None s1)) as [s4 z| |] eqn:E4; try discriminate E0. clear E0.
  assert (R : same_raw s1 s').
  { destruct (TrR_umc (data vj, 0%nat) (i, 0%nat) (size vj) s1 s1 (sr_refl s1) s4 z E4) as [_ G]. specialize (G (bud s1)).
    assert (Es : with_bud (bud s1) s1 = s1) by reflexivity. rewrite Es, E in G. apply G. }
  assert (T : Tch (fun b => b = i \/ (copyable = false /\ b = j)) s1 s').
  { eapply Keep_T; [|exact E]. apply Keep_umc; cbn [fst]; [left; reflexivity|]. rewrite Hnt, Ej. cbn [orb]. destruct copyable; [discriminate|auto]. }
  assert (CN : cj = N) by (rewrite <- Hcj; exact (cap_inner d mv N M s j vj lj Oj Ej)).
  set (w1 := put w i ([], N)) in *. assert (Ew : w1 = set_nth w i ([], N)) by (apply (put_set w i _ _ Hi)).
  assert (Lw : (i < length w)%nat) by (apply nth_error_Some; congruence).
  assert (Hi1 : nth_error w1 i = Some ([], N)) by (rewrite Ew, nth_set_nth, Nat.eqb_refl; destruct (Nat.ltb_spec i (length w)); [reflexivity|lia]).
  assert (Hk1 : forall k, k <> i -> nth_error w1 k = nth_error w k) by (intros k K; rewrite Ew, nth_set_nth; destruct (Nat.eqb_spec i k); [congruence|reflexivity]).
  destruct (WFc_shape _ s1 s' w1 W1 T R) as (w2 & W2 & L2 & H2). exists w2. split; [exact W2|].
  destruct (H2 i [] N Hi1) as (li' & vi0 & Hi2 & _ & L3 & _). destruct li'; [|discriminate L3].
  destruct (H2 j lj cj) as (lj' & vj0 & Hj2 & Pj0 & Lj & Kj); [rewrite Hk1 by auto; exact Hj|]. subst cj.
  assert (vj0 = vj) as ->. { cbn [s1 objs] in Pj0. rewrite nth_set_nth in Pj0. destruct (Nat.eqb_spec i j); [contradiction|]. cbn [andb] in Pj0. congruence. }
  rewrite CN in *. exists lj, lj'. split; [exact Hj|]. split; [|split; [exact Lj|]].
  - eapply put2_of; try eassumption; [rewrite L2, Ew; apply len_set_nth|]. intros k K1 K2. rewrite <- (Hk1 k K1).
    destruct (nth_error w1 k) as [[l c]|] eqn:Hk.
    + destruct (H2 k l c Hk) as (l' & v & Hk2 & Pk & _ & Kk). rewrite Hk2. rewrite Kk; [reflexivity|].
      destruct (WFc_own _ _ _ _ _ _ _ W1 Hk) as (v' & Ok & _). assert (v' = v) as -> by (destruct Ok as (Z1 & _); congruence).
      destruct (WFc_own _ _ _ _ _ _ _ W1 Hi1) as (v1 & O1 & _). assert (Hj1 : nth_error w1 j = Some (lj, N)) by (rewrite Hk1 by auto; exact Hj).
      destruct (WFc_own _ _ _ _ _ _ _ W1 Hj1) as (v3 & O3 & _). intros [Z|[_ Z]]; revert Z; eapply Own_where; eauto.
    + apply nth_error_None. apply nth_error_None in Hk. lia.
  - intros C. apply Kj. rewrite Ej. intros [Z|[Z _]]; congruence.
Qed.
Lemma move_exc s w w' i j r e s' op : WFc s w -> (N <= M)%nat -> nothrow_move = false -> op = MoveAssign i j \/ op = NewMove i j -> meaning w op = Some (w', r) ->
  exec op s = Thrown _ e s' -> exists w2, WFc s' w2 /\ after_throw2 N copyable (NotTaken j) i w w2.
Proof.
  intros HW HNM Hnt Hop Hm E.
  assert (E0 : sat (exec op) (with_bud None s) (fun r' s' => r' = r /\ WFc s' w' /\ bud s' = None) (fun _ _ => False)) by (eapply exec_ok; eauto).
  assert (PRE : i <> j -> exists li ci lj cj vi vj, nth_error w i = Some (li, ci) /\ nth_error w j = Some (lj, cj) /\ Own s i vi li /\ Own s j vj lj /\ cap vj = cj).
  { intros Hij. assert (X : nth_error w i <> None /\ nth_error w j <> None).
    { destruct Hop as [-> | ->]; cbn [VecSpec.meaning] in Hm; try (destruct (Nat.eqb_spec i j); [contradiction|]);
        (destruct (nth_error w i); [|discriminate Hm]; destruct (nth_error w j); [|discriminate Hm]; split; discriminate). }
    destruct (nth_error w i) as [[li ci]|] eqn:Hi; [|destruct X as [[] _]; reflexivity]. destruct (nth_error w j) as [[lj cj]|] eqn:Hj; [|destruct X as [_ []]; reflexivity].
    destruct (WFc_own _ _ _ _ _ _ _ HW Hi) as (vi & Oi & Hci). destruct (WFc_own _ _ _ _ _ _ _ HW Hj) as (vj & Oj & Hcj).
    exists li, ci, lj, cj, vi, vj. auto. }
  destruct (Nat.eq_dec i j) as [<-|Hij].
  { exfalso. destruct Hop as [-> | ->].
    - cbn [VecSpec.exec] in E. unfold assign_move in E. rewrite Nat.eqb_refl in E. discriminate E.
    - cbn [VecSpec.meaning] in Hm. rewrite Nat.eqb_refl in Hm. destruct (nth_error w i); discriminate Hm. }
  destruct (PRE Hij) as (li & ci & lj & cj & vi & vj & Hi & Hj & Oi & Oj & Hcj).
  assert (Oi0 : Own (with_bud None s) i vi li) by exact Oi.
  destruct Hop as [-> | ->].
  - assert (AA : forall s0, exec (MoveAssign i j) s0 = bindc (dtor i) (fun _ => bindc (move_all_from mv nothrow_move copyable N i j) (fun _ => ret 0%nat)) s0).
    { intros s0. cbn [VecSpec.exec]. unfold assign_move, dtor. destruct (Nat.eqb_spec j i); [congruence|].
      unfold bindc. destruct (clear i s0) as [s3 ?| |]; try reflexivity. destruct (getv i s3) as [s4 v| |]; try reflexivity.
      destruct (allocated i v); [destruct (free (data v) s4)|]; reflexivity. }
    unfold sat in E0. rewrite AA in E, E0. erewrite bind_eq in E by (eapply dtor_eq; exact Oi). erewrite bind_eq in E0 by (eapply dtor_eq; exact Oi0).
    apply bind_thrown in E. destruct E as [E|(s3 & y & _ & E)]; [|discriminate E].
    eapply (move_all_exc s w i j (Vec (data vi) (cap vi) 0)); try eassumption; [reflexivity|].
    unfold bindc in E0. destruct (move_all_from mv nothrow_move copyable N i j (reset_state (with_bud None s) i vi)) as [s3 y| |] eqn:E3; try contradiction.
    exists s3, y. exact E3.
  - cbn [VecSpec.exec] in E, E0. unfold sat in E0. erewrite bind_eq in E by (eapply dtor_eq; exact Oi). erewrite bind_eq in E0 by (eapply dtor_eq; exact Oi0).
    apply bind_thrown in E. destruct E as [E|(s3 & y & _ & E)]; [|discriminate E].
    unfold ctor_move, ctor_default in E. erewrite bind_eq in E by reflexivity.
    unfold bindc at 1 in E0. unfold ctor_move, ctor_default in E0. erewrite bind_eq in E0 by reflexivity.
    unfold reset_state in E, E0. cbn [mem objs bud] in E, E0. rewrite (set_set (objs s)) in E, E0.
    eapply (move_all_exc s w i j (Vec i N 0)); try eassumption; [reflexivity|].
    match type of E0 with match (match ?m with _ => _ end) with _ => _ end => destruct m as [s3 y| |] eqn:E3 end; try contradiction.
    exists s3, y. exact E3.
Qed.
End Vec.
