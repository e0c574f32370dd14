(** Counting live elements and heap blocks; destruction of all vectors; element access. *)
From Verif Require Import Base VecModel VecProofs VecProofs2 VecProofs3 VecProofs4 VecProofs5 VecProofs6 VecProofs7 VecSpec VecProofs8 VecProofs9.
From Coq Require Import Permutation.
From Coq Require Import PeanoNat.

Section Vec.
Context {A : Type} (d : A) (mv : A -> A) (nothrow_move copyable : bool) (N M : nat).
Notation state := (@state A).
Notation comp := (@comp A).
Notation cell := (@cell A).
Notation Live := (@Live A).
Notation Raw := (@Raw A).
Notation blk := (@blk A).
Notation upd := (@upd A).
Notation with_bud := (@with_bud A).
Notation lives := (map Live).
Notation raws := (repeat Raw).
Notation reserve := (reserve mv nothrow_move copyable).
Notation grow := (grow mv nothrow_move copyable M).
Notation push_back := (push_back mv nothrow_move copyable M).
Notation Own := (Own (A := A) N M).
Notation FR := (FR (A := A)).
Notation Exc := (Exc (A := A) nothrow_move copyable N M).
Implicit Types s : state.
Implicit Types l : list A.

Ltac openO H := destruct H as (Ho & Hs & Hl & Hm & Hk & Hb & Hd).
Notation Post := (Post (A := A) N M).
Notation ok m s Q := (sat m s Q (fun _ _ => False)).

Notation WF := (WF (A := A) N M).
Notation world := (@world A).
Notation exec := (exec d N M mv nothrow_move copyable).
Notation meaning := (meaning d N M).

Notation WFc := (WFc (A := A) N M).
Notation kept := (kept (A := A)).
Notation execs := (execs d N M mv nothrow_move copyable).
Notation meanings := (meanings d N M).

(** Sums over memory *)
Definition sum_over (f : nat -> nat) (l : list nat) : nat := list_sum (map f l).
Lemma sum_perm f (l l' : list nat) : Permutation l l' -> sum_over f l = sum_over f l'.
Proof. unfold sum_over. induction 1; cbn [map list_sum fold_right]; unfold list_sum in *; cbn [fold_right]; lia. Qed.
Lemma sum_filter f (p : nat -> bool) (l : list nat) : (forall x, p x = false -> f x = 0%nat) -> sum_over f l = sum_over f (filter p l).
Proof.
  intros H. unfold sum_over. induction l as [|x l IH]; [reflexivity|]. cbn [map filter]. unfold list_sum in *. destruct (p x) eqn:E; cbn [map fold_right]; [lia|]. rewrite (H x E). exact IH.
Qed.
Lemma sum_image f (D : list nat) n : NoDup D -> (forall x, In x D -> (x < n)%nat) -> (forall x, ~ In x D -> f x = 0%nat) ->
  sum_over f (seq 0 n) = sum_over f D.
Proof.
  intros ND Hlt Hz.
  rewrite (sum_filter f (fun x => if in_dec Nat.eq_dec x D then true else false)).
  - apply sum_perm. apply NoDup_Permutation; [apply NoDup_filter, seq_NoDup|exact ND|].
    intros x. rewrite filter_In, in_seq. destruct (in_dec Nat.eq_dec x D) as [I|I]; split; try tauto.
    + intros HI. split; [|reflexivity]. specialize (Hlt x HI). lia.
    + intros [_ E]. discriminate E.
  - intros x. destruct (in_dec Nat.eq_dec x D); [discriminate|]. intros _. apply Hz. assumption.
Qed.
Lemma list_seq {T} (f : T -> nat) (l : list T) (df : T) : map f l = map (fun b => match nth_error l b with Some x => f x | None => f df end) (seq 0 (length l)).
Proof.
  induction l as [|x l IH]; [reflexivity|]. cbn [length seq map]. cbn [nth_error]. f_equal.
  rewrite IH at 1. rewrite <- seq_shift, map_map. reflexivity.
Qed.
Lemma live_cells_app (a b : list cell) : live_cells (a ++ b) = (live_cells a + live_cells b)%nat.
Proof. unfold live_cells. rewrite filter_app, app_length. reflexivity. Qed.
Lemma live_lives l : live_cells (lives l) = length l.
Proof. unfold live_cells. induction l; cbn; auto. Qed.
Lemma live_raws n : live_cells (raws n) = 0%nat.
Proof. unfold live_cells. induction n; cbn; auto. Qed.
Definition live_at s b : nat := match blk s b with Some c => live_cells c | None => 0%nat end.
Lemma live_sum s : live s = sum_over (live_at s) (seq 0 (length (mem s))).
Proof.
  unfold live, sum_over. rewrite (list_seq _ (mem s) None). f_equal. apply map_ext. intros b.
  unfold live_at, VecModel.blk. destruct (nth_error (mem s) b); reflexivity.
Qed.
Definition heap_at s b : nat := if Nat.leb (length (objs s)) b then match blk s b with Some _ => 1%nat | None => 0%nat end else 0%nat.
Lemma heap_sum s : (length (objs s) <= length (mem s))%nat -> heap_blocks s = sum_over (heap_at s) (seq 0 (length (mem s))).
Proof.
  intros Hle. unfold heap_blocks, sum_over.
  assert (G : forall n (l : list (option (list cell))), (n <= length l)%nat ->
    length (filter (fun b : option (list cell) => match b with Some _ => true | None => false end) (skipn n l)) =
    list_sum (map (fun b => if Nat.leb n b then match nth_error l b with Some (Some _) => 1%nat | _ => 0%nat end else 0%nat) (seq 0 (length l)))).
  { intros n l. revert n. induction l as [|x l IH]; intros n Hn; [cbn in *; assert (n = 0%nat) as -> by lia; reflexivity|].
    cbn [length seq map]. rewrite <- seq_shift, map_map. destruct n as [|n].
    - cbn [skipn Nat.leb nth_error]. specialize (IH 0%nat ltac:(lia)). cbn [skipn Nat.leb] in IH.
      cbn [filter]. destruct x; cbn [length list_sum fold_right]; unfold list_sum in *; cbn [fold_right]; rewrite IH; reflexivity.
    - cbn [skipn Nat.leb nth_error]. rewrite (IH n) by (cbn in Hn; lia). reflexivity. }
  rewrite G by assumption. f_equal. apply map_ext. intros b. unfold heap_at, VecModel.blk.
  destruct (Nat.leb (length (objs s)) b); [|reflexivity]. destruct (nth_error (mem s) b) as [[c|]|]; reflexivity.
Qed.
Lemma datas_nodup s w : WFc s w -> NoDup (map data (objs s)) /\ (forall x, In x (map data (objs s)) -> (x < length (mem s))%nat).
Proof.
  intros [HW _]. split.
  - apply NoDup_nth_error. intros i j Hi E. destruct (Nat.eq_dec i j) as [|Hne]; [assumption|exfalso].
    rewrite map_length in Hi. rewrite !nth_error_map in E.
    destruct (nth_error (objs s) i) as [vi|] eqn:Ei; [|apply nth_error_None in Ei; lia].
    destruct (nth_error (objs s) j) as [vj|] eqn:Ej; [|discriminate E]. cbn in E. injection E as E.
    exact (WF_data_neq N M s _ i j vi vj HW Hne Ei Ej E).
  - intros x Hx. apply in_map_iff in Hx. destruct Hx as (v & <- & Hv). apply In_nth_error in Hv. destruct Hv as (i & Hi).
    destruct (WF_nth N M s _ i v HW Hi) as (l & O & _). apply (Own_lt N M _ _ _ _ O).
Qed.
Lemma blk_owned s w b c : WFc s w -> blk s b = Some c -> live_cells c <> 0%nat \/ (length (objs s) <= b)%nat -> In b (map data (objs s)).
Proof.
  intros [HW _] Hb Hc. pose proof HW as (W1 & W2 & W3 & W4 & W5).
  destruct (Nat.lt_ge_cases b (length (objs s))) as [L|L].
  - destruct Hc as [Hc|Hc]; [|lia]. destruct (nth_error (objs s) b) as [v|] eqn:E; [|apply nth_error_None in E; lia].
    destruct (WF_nth N M s _ b v HW E) as (l & O & _). destruct O as (_ & _ & _ & _ & _ & Hbl & [[D _]|(_ & _ & R)]).
    + apply in_map_iff. exists v. split; [exact D|]. eapply nth_error_In; exact E.
    + rewrite Hb in R. injection R as ->. rewrite live_raws in Hc. contradiction.
  - rewrite W1 in L. destruct (W5 b c L Hb) as (i & v & Hi & <-). apply in_map. eapply nth_error_In; exact Hi.
Qed.
Lemma map_objs {T} s w (f : vec -> T) (g : list A * nat -> T) : WFc s w ->
  (forall i v l, Own s i v l -> f v = g (l, cap v)) -> map f (objs s) = map g w.
Proof.
  intros HW Hfg. apply list_ext. intros k. rewrite !nth_error_map. destruct HW as [HW HC].
  destruct (nth_error w k) as [[l c]|] eqn:E.
  - destruct (HC k l c E) as (v & Hv & Hc). destruct (WF_nth N M s _ k v HW Hv) as (l' & O & Hl').
    rewrite nth_error_map, E in Hl'. cbn in Hl'. injection Hl' as <-. rewrite Hv. cbn. f_equal. rewrite (Hfg k v l O), Hc. reflexivity.
  - destruct (nth_error (objs s) k) eqn:E2; [|reflexivity]. exfalso. destruct HW as (W1 & _). rewrite map_length in W1.
    apply nth_error_None in E. assert (k < length (objs s))%nat by (apply nth_error_Some; congruence). lia.
Qed.
Theorem live_WF s w : WFc s w -> live s = list_sum (map (fun x => length (fst x)) w).
Proof.
  intros HW. rewrite live_sum. destruct (datas_nodup s w HW) as [ND Hlt].
  rewrite (sum_image _ (map data (objs s)) _ ND Hlt).
  - unfold sum_over. rewrite map_map. f_equal. apply (map_objs s w _ _ HW). intros i v l O.
    unfold live_at. destruct O as (_ & _ & _ & _ & _ & Hb & _). rewrite Hb, live_cells_app, live_lives, live_raws. cbn [fst]. lia.
  - intros b Hn. unfold live_at. destruct (blk s b) as [c|] eqn:E; [|reflexivity].
    destruct (Nat.eq_dec (live_cells c) 0); [assumption|]. exfalso. apply Hn. eapply blk_owned; eauto.
Qed.
Theorem heap_WF s w : WFc s w -> heap_blocks s = list_sum (map (fun x => if Nat.ltb N (snd x) then 1%nat else 0%nat) w).
Proof.
  intros HW. rewrite heap_sum.
  2: { destruct HW as [(W1 & W2 & _) _]. lia. }
  destruct (datas_nodup s w HW) as [ND Hlt]. rewrite (sum_image _ (map data (objs s)) _ ND Hlt).
  - unfold sum_over. rewrite map_map. f_equal. apply (map_objs s w _ _ HW). intros i v l O. cbn [snd].
    unfold heap_at. destruct (Own_lt N M _ _ _ _ O) as (_ & _ & Hi). destruct O as (_ & _ & _ & _ & _ & Hb & [[D C]|(D & C & _)]).
    + rewrite D, C. destruct (Nat.leb_spec (length (objs s)) i); [lia|]. rewrite Nat.ltb_irrefl. reflexivity.
    + destruct (Nat.leb_spec (length (objs s)) (data v)); [|lia]. rewrite Hb. destruct (Nat.ltb_spec N (cap v)); [reflexivity|lia].
  - intros b Hn. unfold heap_at. destruct (Nat.leb_spec (length (objs s)) b) as [L|]; [|reflexivity].
    destruct (blk s b) as [c|] eqn:E; [|reflexivity]. exfalso. apply Hn. eapply blk_owned; eauto.
Qed.

(** Destroying all vectors *)
Definition Rest s (k : nat) : Prop :=
  (k <= length (objs s))%nat /\ (length (objs s) <= length (mem s))%nat /\
  (forall i, (i < k)%nat -> exists v l, Own s i v l) /\
  (forall i j vi vj, (i < k)%nat -> (j < k)%nat -> i <> j -> nth_error (objs s) i = Some vi -> nth_error (objs s) j = Some vj -> data vi <> data vj) /\
  (forall b, (k <= b)%nat -> (b < length (objs s))%nat -> blk s b = Some (raws N)) /\
  (forall b c, (length (objs s) <= b)%nat -> blk s b = Some c -> exists i v, (i < k)%nat /\ nth_error (objs s) i = Some v /\ data v = b).
Lemma destroy_all_ok k : forall s, Rest s k -> exists s', destroy_all k s = Done _ s' tt /\ Rest s' 0.
Proof.
  induction k as [|k IH]; intros s HR; [exists s; split; [reflexivity|exact HR]|].
  destruct HR as (R1 & R2 & R3 & R4 & R5 & R6). destruct (R3 k ltac:(lia)) as (v & l & O).
  cbn [destroy_all]. erewrite bind_eq by (eapply dtor_eq; exact O). apply IH.
  pose proof (blk_reset N M s k v l) as B. specialize (fun b => B b O).
  destruct (Own_lt N M _ _ _ _ O) as (K1 & K2 & K3).
  assert (Lm : length (mem (reset_state s k v)) = length (mem s)) by apply len_reset.
  assert (Lo : length (objs (reset_state s k v)) = length (objs s)) by (unfold reset_state; cbn [objs]; apply len_set_nth).
  assert (No : forall i, i <> k -> nth_error (objs (reset_state s k v)) i = nth_error (objs s) i).
  { intros i Hi. unfold reset_state; cbn [objs]. rewrite nth_set_nth. destruct (Nat.eqb_spec k i); [congruence|reflexivity]. }
  assert (Hv : nth_error (objs s) k = Some v) by apply O.
  assert (Hsmall : forall i vi li, Own s i vi li -> data vi = i \/ (length (objs s) <= data vi)%nat).
  { intros i vi li (_ & _ & _ & _ & _ & _ & [[E _]|(E & _)]); auto. }
  split; [lia|]. split; [lia|]. split; [|split; [|split]].
  - intros i Hi. destruct (R3 i ltac:(lia)) as (vi & li & Oi). exists vi, li.
    assert (Hd : data vi <> data v) by (eapply (R4 i k); [lia|lia|lia|apply Oi|exact Hv]).
    pose proof (Hsmall _ _ _ Oi) as S1. pose proof (Hsmall _ _ _ O) as S2.
    destruct Oi as (Ho & Hs & Hl & Hm & Hk & Hb & Hdd).
    split; [rewrite No by lia; exact Ho|]. do 3 (split; [assumption|]). split; [lia|].
    split; [rewrite B; destruct (Nat.eqb_spec (data vi) k); [lia|]; destruct (Nat.eqb_spec (data vi) (data v)); [contradiction|exact Hb]|].
    rewrite Lo. destruct Hdd as [E|(E1 & E2 & E3)]; [left; exact E|right]. split; [assumption|]. split; [assumption|].
    rewrite B. destruct (Nat.eqb_spec i k); [lia|]. destruct (Nat.eqb_spec i (data v)); [lia|exact E3].
  - intros i j vi vj Hi Hj Hij H1 H2. rewrite No in H1, H2 by lia. exact (R4 i j vi vj ltac:(lia) ltac:(lia) Hij H1 H2).
  - intros b Hb1 Hb2. rewrite B. destruct (Nat.eqb_spec b k); [reflexivity|]. rewrite Lo in Hb2.
    pose proof (Hsmall _ _ _ O) as S2. destruct (Nat.eqb_spec b (data v)); [lia|]. apply R5; lia.
  - intros b c Hb Hc. rewrite Lo in Hb. rewrite B in Hc. destruct (Nat.eqb_spec b k); [lia|].
    destruct (Nat.eqb_spec b (data v)); [discriminate Hc|]. destruct (R6 b c Hb Hc) as (i & vi & Hi & Hvi & E).
    assert (i <> k) by congruence. exists i, vi. split; [lia|]. split; [rewrite No by assumption; exact Hvi|exact E].
Qed.
Lemma WFc_Rest s w : WFc s w -> Rest s (length w).
Proof.
  intros HW. destruct HW as [HW HC]. pose proof HW as (W1 & W2 & W3 & W4 & W5). rewrite map_length in *.
  split; [lia|]. split; [lia|]. split; [|split; [|split]].
  - intros i Hi. destruct (nth_error (map fst w) i) as [l|] eqn:E; [|apply nth_error_None in E; rewrite map_length in E; lia].
    destruct (W3 i l E) as (v & O). eauto.
  - intros i j vi vj _ _. apply W4.
  - intros b H1 H2. lia.
  - intros b c Hb Hc. rewrite W1 in Hb. destruct (W5 b c Hb Hc) as (i & v & Hi & E). exists i, v. split; [|auto].
    rewrite <- W1. apply nth_error_Some. congruence.
Qed.
Lemma Rest_nothing s : Rest s 0 -> live s = 0%nat /\ heap_blocks s = 0%nat.
Proof.
  intros (R1 & R2 & R3 & R4 & R5 & R6).
  assert (Z : forall f (l : list nat), (forall b, f b = 0%nat) -> sum_over f l = 0%nat).
  { intros f l Hf. unfold sum_over. induction l; cbn; [reflexivity|]. rewrite Hf. exact IHl. }
  assert (Hn : forall b, (length (objs s) <= b)%nat -> blk s b = None).
  { intros b Hb. destruct (blk s b) as [c|] eqn:E; [|reflexivity]. destruct (R6 b c Hb E) as (i & v & Hi & _). lia. }
  split.
  - rewrite live_sum. apply Z. intros b. unfold live_at. destruct (Nat.lt_ge_cases b (length (objs s))).
    + rewrite R5 by lia. apply live_raws.
    + rewrite Hn by assumption. reflexivity.
  - rewrite heap_sum by assumption. apply Z. intros b. unfold heap_at. destruct (Nat.leb_spec (length (objs s)) b); [|reflexivity].
    rewrite Hn by assumption. reflexivity.
Qed.
Theorem destroy_all_clean s w : WFc s w ->
  exists s', destroy_all (length w) s = Done _ s' tt /\ live s' = 0%nat /\ heap_blocks s' = 0%nat.
Proof.
  intros HW. destruct (destroy_all_ok _ s (WFc_Rest s w HW)) as (s' & H1 & H2). exists s'. split; [exact H1|]. apply Rest_nothing. exact H2.
Qed.

(** Element access *)
Lemma contents_ok s i v l : Own s i v l -> contents i s = Done _ s l.
Proof.
  intros (Ho & Hs & _ & _ & _ & Hb & _). unfold contents. erewrite bind_eq by (apply getv_eq; exact Ho). rewrite Hs.
  apply (read_all_eq l) with (pre := []) (post := raws (cap v - length l)); [reflexivity|exact Hb].
Qed.
Lemma rd_ok s i v l k : Own s i v l ->
  rd (data v, k) s = match nth_error l k with Some x => Done _ s x | None => Undef _ end.
Proof.
  intros (Ho & Hs & Hl & _ & _ & Hb & _). unfold rd. cbn [fst snd]. rewrite Hb.
  destruct (nth_error l k) as [x|] eqn:E.
  - rewrite nth_error_app1 by (rewrite len_lives; apply nth_error_Some; congruence). rewrite nth_error_map, E. reflexivity.
  - apply nth_error_None in E. rewrite nth_error_app2 by (rewrite len_lives; assumption).
    destruct (nth_error (raws (cap v - length l)) (k - length (lives l))) eqn:E2; [|reflexivity].
    apply nth_error_In, repeat_spec in E2. subst. reflexivity.
Qed.
Lemma index_ok s i v l k : Own s i v l -> index i k s = match nth_error l k with Some x => Done _ s x | None => Undef _ end.
Proof. intros O. unfold index. erewrite bind_eq by (apply getv_eq; apply O). eapply rd_ok; exact O. Qed.
Lemma at_ok s i v l k : Own s i v l -> at_ i k s = match nth_error l k with Some x => Done _ s x | None => Thrown _ OutOfRange s end.
Proof.
  intros O. unfold at_. erewrite bind_eq by (apply getv_eq; apply O). pose proof (rd_ok s i v l k O) as HR.
  destruct O as (_ & Hs & _). rewrite Hs. destruct (Nat.leb_spec (length l) k) as [L|L].
  - apply nth_error_None in L. rewrite L. reflexivity.
  - rewrite HR. destruct (nth_error l k) eqn:E; [reflexivity|]. apply nth_error_None in E. lia.
Qed.
Lemma back_ok s i v l x : Own s i v (l ++ [x]) -> back i s = Done _ s x.
Proof.
  intros O. unfold back. erewrite bind_eq by (apply getv_eq; apply O). pose proof (rd_ok s i v _ (length l) O) as HR.
  destruct O as (_ & Hs & _). rewrite Hs, app_length, Nat.add_1_r. rewrite HR. rewrite nth_app_mid. reflexivity.
Qed.
Lemma equal_ok eqb s i j vi vj li lj : Own s i vi li -> Own s j vj lj ->
  equal eqb i j s = Done _ s (Nat.eqb (length li) (length lj) && forallb (fun p => eqb (fst p) (snd p)) (combine li lj)).
Proof.
  intros Oi Oj. unfold equal. erewrite bind_eq by (eapply contents_ok; exact Oi). erewrite bind_eq by (eapply contents_ok; exact Oj). reflexivity.
Qed.
Lemma eq_lists (eqb : A -> A -> bool) : (forall x y, eqb x y = true <-> x = y) -> forall a b,
  Nat.eqb (length a) (length b) && forallb (fun p => eqb (fst p) (snd p)) (combine a b) = true <-> a = b.
Proof.
  intros H. induction a as [|x a IH]; intros [|y b]; cbn; try (split; [discriminate|discriminate]); [tauto|].
  specialize (IH b). rewrite andb_true_iff in *. cbn. rewrite andb_true_iff, H, Nat.eqb_eq in *. split.
  - intros (L & -> & F). f_equal. apply IH. split; [|assumption]. exact L.
  - intros E. injection E as -> ->. destruct IH as [_ IH]. destruct (IH eq_refl). auto.
Qed.
End Vec.
