(** Insertion, removal, reallocation and construction of a single SmallVector. *)
From Verif Require Import Base VecModel VecProofs VecProofs2 VecProofs3.
From Coq Require Import PeanoNat.

Section Vec.
Context {A : Type} (d : A) (mv : A -> A) (nothrow_move copyable : bool) (N M : nat).
Notation state := (@state A).
Notation comp := (@comp A).
Notation cell := (@cell A).
Notation Live := (@Live A).
Notation Raw := (@Raw A).
Notation blk := (@blk A).
Notation upd := (@upd A).
Notation with_bud := (@with_bud A).
Notation lives := (map Live).
Notation raws := (repeat Raw).
Notation reserve := (reserve mv nothrow_move copyable).
Notation grow := (grow mv nothrow_move copyable M).
Notation push_back := (push_back mv nothrow_move copyable M).
Notation Own := (Own (A := A) N M).
Notation FR := (FR (A := A)).
Notation Exc := (Exc (A := A) nothrow_move copyable N M).
Implicit Types s : state.
Implicit Types l : list A.

Ltac openO H := destruct H as (Ho & Hs & Hl & Hm & Hk & Hb & Hd).
Notation Post := (Post (A := A) N M).
Notation ok m s Q := (sat m s Q (fun _ _ => False)).

(** Moving the tail and the end of the vector: erase *)
Lemma erase_sat s i v l1 l2 l3 (Q : nat -> state -> Prop) :
  Own s i v (l1 ++ l2 ++ l3) -> bud s = None ->
  (forall s', Own s' i (Vec (data v) (cap v) (length (l1 ++ l3))) (l1 ++ l3) -> FR i s s' -> Q (length l1) s') ->
  ok (erase mv nothrow_move i (length l1) (length l2)) s Q.
Proof.
  intros H Hbu HQ. pose proof H as H0. openO H. unfold erase. eapply sat_getv; [eassumption|].
  assert (Hlen : size v = (length l1 + length l2 + length l3)%nat) by (rewrite Hs, !app_length; lia).
  rewrite Hlen. destruct (Nat.ltb_spec (length l1 + length l2 + length l3) (length l1 + length l2)); [lia|].
  replace (length l1 + length l2 + length l3 - (length l1 + length l2))%nat with (length l3) by lia.
  apply sat_bind.
  destruct (move_fwd_eq mv nothrow_move l3 s (data v) (lives l1) l2 (raws (cap v - length (l1 ++ l2 ++ l3)))
              (length l1 + length l2) (length l1)) as (ys & Hys & Hmv).
  { assumption. } { rewrite len_lives. reflexivity. } { rewrite len_lives. reflexivity. }
  { rewrite Hb, !map_app, <- !app_assoc. reflexivity. }
  eapply sat_eq; [exact Hmv|]. apply sat_bind.
  replace (destroy_range (data v, (length l1 + length l2 + length l3 - length l2)%nat) (length l2))
     with (@destroy_range A (data v, (length l1 + length l3)%nat) (length ys)) by (rewrite Hys; do 2 f_equal; lia).
  eapply sat_eq; [apply (destroy_range_eq ys) with (pre := lives (l1 ++ l3)) (post := raws (cap v - length (l1 ++ l2 ++ l3)))|].
  { erewrite blk_upd_eq by exact Hb. rewrite map_app, <- !app_assoc. reflexivity. }
  { rewrite len_lives, app_length. reflexivity. }
  rewrite upd_upd, upd_bud. apply sat_bind.
  destruct (own_step N M s i v _ (l1 ++ l3) (bud s) H0) as [O2 F2]; [rewrite !app_length in *; lia|apply later_refl|].
  eapply sat_eq; [apply set_size_upd with (l' := l1 ++ l3); [assumption| |rewrite app_length; lia]|].
  { rewrite <- raws_add, Hys. do 2 f_equal. rewrite !app_length in *. lia. }
  apply sat_ret. apply HQ; assumption.
Qed.

(** insert_single *)
Lemma insert_single_sat s i v l1 l2 m x (Q : nat -> state -> Prop) :
  Own s i v (l1 ++ l2) -> bud s = None -> (length (l1 ++ l2) < M)%nat ->
  (forall s' v', Own s' i v' (l1 ++ x :: l2) -> FR i s s' -> Keep v v' (length (l1 ++ l2) + 1) ->
     (cap v' = if Nat.eqb (length (l1 ++ l2)) (cap v) then grown M (cap v) else cap v) -> Q (length l1) s') ->
  ok (insert_single mv nothrow_move copyable M i (length l1) m (Val x)) s Q.
Proof.
  intros H Hbu HlM HQ. pose proof H as H0. openO H. unfold insert_single. eapply sat_getv; [eassumption|].
  destruct (Nat.ltb_spec (size v) (length l1)) as [Lc|Lc]; [rewrite Hs, app_length in Lc; lia|clear Lc].
  destruct (Nat.eqb_spec (length l1) (size v)) as [Ec|Ec].
  - destruct l2 as [|]; [|rewrite Hs, app_length in Ec; cbn in Ec; lia]. rewrite app_nil_r in *.
    apply sat_bind. eapply push_back_sat; try eassumption.
    + intros s1 v1 H1 F1 K1 C1. eapply sat_getv; [apply H1|]. apply sat_ret.
      destruct H1 as (Ho1 & Hs1 & H1). rewrite Hs1, app_length. cbn [length]. rewrite Nat.add_sub.
      apply (HQ s1 v1); [exact (conj Ho1 (conj Hs1 H1))|assumption|assumption|assumption].
    + intros e s' (Hb0 & _). contradiction.
  - destruct l2 as [|y l2' _] using rev_ind; [rewrite app_nil_r in Hs; congruence|].
    assert (Hbud : forall s1, FR i s s1 -> bud s1 = None) by (intros s1 F1; apply F1; assumption).
    apply sat_bind. eapply ensure_sat; try eassumption; [|intros e s' (Hb0 & _); contradiction].
    intros s1 v1 H1 F1 L1 K1 C1. specialize (Hbud s1 F1).
    pose proof H1 as H1'. destruct H1' as (Ho1 & Hs1 & Hl1 & Hm1 & Hk1 & Hb1 & Hd1).
    eapply sat_getv; [eassumption|].
    set (n := length (l1 ++ l2' ++ [y])) in *.
    assert (Hn : n = (length l1 + length l2' + 1)%nat) by (subst n; rewrite !app_length; cbn; lia).
    rewrite Hs1.
    assert (Hblk : blk s1 (data v1) = Some (lives (l1 ++ l2') ++ Live y :: Raw :: raws (cap v1 - n - 1))).
    { rewrite Hb1, (raws_S (cap v1 - n)) by lia. rewrite !map_app, <- !app_assoc. reflexivity. }
    apply sat_bind. unfold move_construct. apply sat_bind. eapply sat_eq; [apply tick_move_none; assumption|].
    apply sat_bind. eapply sat_eq; [eapply take_eq; [exact Hblk|rewrite len_lives, app_length; lia]|].
    eapply sat_eq.
    { apply construct_eq with (pre := lives (l1 ++ l2') ++ [Live (mv y)]) (post := raws (cap v1 - n - 1)).
      - erewrite blk_upd_eq by exact Hblk. rewrite <- app_assoc. reflexivity.
      - rewrite app_length, len_lives, app_length. cbn. lia. }
    rewrite upd_upd, <- app_assoc. cbn [app].
    apply sat_bind.
    destruct (move_bwd_eq mv nothrow_move l2' (upd s1 (data v1) (lives (l1 ++ l2') ++ Live (mv y) :: Live y :: raws (cap v1 - n - 1)))
        (data v1) (lives l1) [mv y] (Live y :: raws (cap v1 - n - 1)) (length l1) (length l1 + 1)) as (ys & Hys & Hmv).
    { assumption. } { rewrite len_lives. reflexivity. } { rewrite len_lives. reflexivity. }
    { erewrite blk_upd_eq by exact Hb1. rewrite map_app, <- app_assoc. reflexivity. }
    replace (n - 1 - length l1)%nat with (length l2') by lia.
    eapply sat_eq; [exact Hmv|]. rewrite upd_upd.
    destruct ys as [|z [|]]; try discriminate Hys. cbn [map app].
    apply sat_bind. eapply sat_eq; [apply set_size_eq; exact Ho1|]. cbn [mem objs bud VecModel.upd].
    apply sat_bind. eapply sat_eq; [instantiate (1 := tt)|].
    { destruct m; [apply tick_move_none; exact Hbud|apply tick_none; exact Hbud]. }
    apply sat_bind. cbn [read_arg]. apply sat_ret. apply sat_bind.
    eapply sat_eq.
    { apply poke_eq with (pre := lives l1) (x := z) (post := lives l2' ++ Live y :: raws (cap v1 - n - 1)).
      - change (blk (upd s1 (data v1) (lives l1 ++ Live z :: lives l2' ++ Live y :: raws (cap v1 - n - 1))) (data v1)
          = Some (lives l1 ++ Live z :: lives l2' ++ Live y :: raws (cap v1 - n - 1))). eapply blk_upd_eq; exact Hb1.
      - rewrite len_lives. reflexivity. }
    apply sat_ret.
    destruct (own_step N M s1 i v1 _ (l1 ++ x :: l2' ++ [y]) (bud s1) H1) as [O2 F2].
    { rewrite app_length; cbn [length]; rewrite app_length; cbn [length]; lia. } { apply later_refl. }
    match goal with |- Q _ ?S => replace S with (final s1 i v1 (l1 ++ x :: l2' ++ [y]) (bud s1)) end.
    + eapply HQ; [exact O2|eapply FR_trans; eassumption| |exact C1].
      eapply Keep_trans; [exact K1|reflexivity|]. apply Keep_size.
    + assert (Hln : length (l1 ++ x :: l2' ++ [y]) = (n + 1)%nat)
        by (rewrite app_length; cbn [length]; rewrite app_length; cbn [length]; lia).
      unfold final, VecModel.upd; cbn [mem objs bud]. rewrite set_set, Hln. rewrite wrap_le by lia.
      replace (cap v1 - (n + 1))%nat with (cap v1 - n - 1)%nat by lia.
      rewrite map_app. cbn [map]. rewrite map_app, <- !app_assoc. cbn [map app]. rewrite <- app_assoc. reflexivity.
Qed.
Lemma emplace_sat s i v l1 l2 x (Q : nat -> state -> Prop) :
  Own s i v (l1 ++ l2) -> bud s = None -> (length (l1 ++ l2) < M)%nat ->
  (forall s' v', Own s' i v' (l1 ++ x :: l2) -> FR i s s' -> Keep v v' (length (l1 ++ l2) + 1) ->
     (cap v' = if Nat.eqb (length (l1 ++ l2)) (cap v) then grown M (cap v) else cap v) -> Q (length l1) s') ->
  ok (emplace mv nothrow_move copyable M i (length l1) x) s Q.
Proof.
  intros H Hbu HlM HQ. pose proof H as H0. openO H. unfold emplace. eapply sat_getv; [eassumption|].
  destruct (Nat.eqb_spec (length l1) (size v)) as [Ec|Ec].
  - destruct l2 as [|]; [|rewrite Hs, app_length in Ec; cbn in Ec; lia]. rewrite app_nil_r in *.
    apply sat_bind. eapply push_back_sat; try eassumption.
    + intros s1 v1 H1 F1 K1 C1. eapply sat_getv; [apply H1|]. apply sat_ret.
      destruct H1 as (Ho1 & Hs1 & H1). rewrite Hs1, app_length. cbn [length]. rewrite Nat.add_sub.
      apply (HQ s1 v1); [exact (conj Ho1 (conj Hs1 H1))|assumption|assumption|assumption].
    + intros e s' (Hb0 & _). contradiction.
  - apply sat_bind. eapply sat_eq; [apply tick_none; assumption|]. eapply insert_single_sat; eassumption.
Qed.

(** make_space: room for n elements between l1 and l2, the first k of them are live *)
Lemma make_space_sat s i v l1 l2 n (Q : nat -> state -> Prop) :
  Own s i v (l1 ++ l2) -> bud s = None -> (length (l1 ++ l2) + n <= M)%nat ->
  (forall s1 v1 ys, Own s1 i v1 (l1 ++ l2) -> FR i s s1 -> (length (l1 ++ l2) + n <= cap v1)%nat -> Keep v v1 (length (l1 ++ l2) + n) ->
     cap v1 = Nat.max (cap v) (length (l1 ++ l2) + n) -> bud s1 = None ->
     length ys = Nat.min (length l2) n ->
     Q (length ys) (upd s1 (data v1) (lives l1 ++ lives ys ++ raws (n - length ys) ++ lives l2 ++ raws (cap v1 - (length (l1 ++ l2) + n))))) ->
  ok (make_space mv nothrow_move copyable M i (length l1) n) s Q.
Proof.
  intros H Hbu HlM HQ. pose proof H as H0. openO H. unfold make_space. eapply sat_getv; [eassumption|].
  destruct (Nat.ltb_spec (size v) (length l1)) as [Lc|Lc]; [rewrite Hs, app_length in Lc; lia|clear Lc].
  rewrite wrap_le by lia. rewrite Hs. apply sat_bind.
  set (len := length (l1 ++ l2)) in *. assert (Hlen : len = (length l1 + length l2)%nat) by (subst len; rewrite app_length; reflexivity).
  match goal with |- sat _ _ ?R _ => assert (Hgo : forall s1 v1, Own s1 i v1 (l1 ++ l2) -> FR i s s1 -> (len + n <= cap v1)%nat ->
     Keep v v1 (len + n) -> cap v1 = Nat.max (cap v) (len + n) -> R tt s1) end.
  { intros s1 v1 H1 F1 C1 K1 Cm. cbv beta.
    pose proof H1 as H1'. destruct H1' as (Ho1 & Hs1 & Hl1 & Hm1 & Hk1 & Hb1 & Hd1).
    assert (Hb1n : bud s1 = None) by (apply F1; assumption).
    eapply sat_getv; [eassumption|]. rewrite Hs1. fold len.
    replace (len - length l1)%nat with (length l2) by lia.
    set (k := Nat.min (length l2) n).
    set (la := firstn (length l2 - k) l2). set (lb := skipn (length l2 - k) l2).
    assert (El2 : l2 = la ++ lb) by (symmetry; apply firstn_skipn).
    assert (Lb : length lb = k) by (subst lb; rewrite skipn_length; lia).
    assert (La : length la = (length l2 - k)%nat) by (subst la; rewrite firstn_length; lia).
    clearbody la lb.
    assert (Hc1 : lives (l1 ++ l2) = lives (l1 ++ la) ++ lives lb) by (rewrite El2, app_assoc, map_app; reflexivity).
    assert (Hc2 : raws (cap v1 - len) = raws (n - k) ++ raws (length lb) ++ raws (cap v1 - (len + n)))
      by (rewrite <- !raws_add; f_equal; lia).
    (* construct the last k elements in their new place *)
    apply sat_bind.
    replace (move_init mv nothrow_move (data v1, (len - k)%nat) (data v1, (len - k + n)%nat) k)
      with (move_init mv nothrow_move (data v1, (len - k)%nat) (data v1, (len - k + n)%nat) (length lb)) by (rewrite Lb; reflexivity).
    eapply sat_eq.
    { apply move_init_eq with (pre := lives (l1 ++ la)) (mid := raws (n - k)) (post := raws (cap v1 - (len + n))); [assumption| | |].
      - rewrite len_lives, app_length. lia.
      - rewrite len_lives, app_length, repeat_length. lia.
      - rewrite Hb1. fold len. rewrite Hc1, Hc2, <- app_assoc. reflexivity. }
    apply sat_bind.
    destruct (move_bwd_eq mv nothrow_move la
      (upd s1 (data v1) (lives (l1 ++ la) ++ lives (map mv lb) ++ raws (n - k) ++ lives lb ++ raws (cap v1 - (len + n))))
      (data v1) (lives l1) (map mv lb) (raws (n - k) ++ lives lb ++ raws (cap v1 - (len + n)))
      (length l1) (length l1 + k)) as (ys & Hys & Hmv).
    { assumption. } { rewrite len_lives. reflexivity. } { rewrite len_lives, !map_length. lia. }
    { erewrite blk_upd_eq by exact Hb1. rewrite map_app, <- app_assoc. reflexivity. }
    rewrite map_length in Hys.
    assert (Hrun : move_bwd mv nothrow_move (data v1, length l1) (data v1, (len - k + n - (length l2 - k))%nat) (length l2 - k)
       (upd s1 (data v1) (lives (l1 ++ la) ++ lives (map mv lb) ++ raws (n - k) ++ lives lb ++ raws (cap v1 - (len + n))))
       = Done _ (upd s1 (data v1) (lives l1 ++ lives ys ++ raws (n - length ys) ++ lives l2 ++ raws (cap v1 - (len + n)))) tt).
    { destruct (Nat.eq_dec (length la) 0) as [E0|E0].
      - rewrite <- La, E0. cbn [move_bwd]. destruct la as [|]; [|discriminate E0].
        cbn [length move_bwd] in Hmv. cbn [app] in El2.
        rewrite Hmv, upd_upd. cbn [map app]. rewrite <- El2. rewrite Hys, Lb. reflexivity.
      - assert (k = n) by lia. rewrite <- La.
        replace (len - k + n - length la)%nat with (length l1 + k)%nat by lia. rewrite Hmv, upd_upd.
        replace (n - k)%nat with 0%nat by lia. rewrite Hys, Lb. replace (n - k)%nat with 0%nat by lia. cbn [repeat app].
        rewrite El2, map_app, <- !app_assoc. reflexivity. }
    eapply sat_eq; [exact Hrun|]. apply sat_ret.
    replace k with (length ys) at 1 by lia. apply (HQ s1 v1 ys); auto. lia. }
  destruct (Nat.ltb_spec (cap v) (len + n)) as [Lc|Lc].
  - eapply (reserve_keep d); [exact H0|lia| |intros e s' (Hb0 & _); contradiction].
    intros s1 v1 H1 F1 C1 C2 C3 C4. apply (Hgo s1 v1); auto.
    + split; [assumption|]. intros Hc. destruct (C3 Hc) as [_ ->]. auto.
    + rewrite C4; lia.
  - apply sat_ret. apply (Hgo s v); auto; [eapply Own_FR; eassumption|apply Keep_refl|lia].
Qed.
End Vec.
