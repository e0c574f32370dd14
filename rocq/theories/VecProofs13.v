(** Exceptions thrown by elements and by the allocation: what is left of the vectors. *)
From Verif Require Import Base VecModel VecProofs VecProofs2 VecProofs3 VecProofs4 VecProofs5 VecProofs6 VecProofs7 VecSpec VecProofs8 VecProofs9 VecProofs10 VecProofs11 VecProofs12 VecProofs12b.
From Coq Require Import Permutation.
From Coq Require Import PeanoNat.

Section Vec.
Context {A : Type} (d : A) (mv : A -> A) (nothrow_move copyable : bool) (N M : nat).
Notation state := (@state A).
Notation comp := (@comp A).
Notation cell := (@cell A).
Notation Live := (@Live A).
Notation Raw := (@Raw A).
Notation blk := (@blk A).
Notation upd := (@upd A).
Notation with_bud := (@with_bud A).
Notation lives := (map Live).
Notation raws := (repeat Raw).
Notation reserve := (reserve mv nothrow_move copyable).
Notation grow := (grow mv nothrow_move copyable M).
Notation push_back := (push_back mv nothrow_move copyable M).
Notation Own := (Own (A := A) N M).
Notation FR := (FR (A := A)).
Notation Exc := (Exc (A := A) nothrow_move copyable N M).
Implicit Types s : state.
Implicit Types l : list A.

Ltac openO H := destruct H as (Ho & Hs & Hl & Hm & Hk & Hb & Hd).
Notation Post := (Post (A := A) N M).
Notation ok m s Q := (sat m s Q (fun _ _ => False)).

Notation WF := (WF (A := A) N M).
Notation world := (@world A).
Notation exec := (exec d N M mv nothrow_move copyable).
Notation meaning := (meaning d N M).

Notation WFc := (WFc (A := A) N M).
Notation kept := (kept (A := A)).
Notation execs := (execs d N M mv nothrow_move copyable).
Notation meanings := (meanings d N M).

(** * Insertion of one element if moves do not throw *)
Definition ExcHole (i : nat) s l1 l2 (e : exn) s' : Prop :=
  bud s <> None /\ e = UserException /\ FR i s s' /\ exists v' z, Own s' i v' (l1 ++ z :: l2).
Lemma insert_single_exc s i v l1 l2 m x : nothrow_move = true ->
  Own s i v (l1 ++ l2) -> (length (l1 ++ l2) < M)%nat ->
  sat (insert_single mv nothrow_move copyable M i (length l1) m (Val x)) s (fun _ _ => True)
    (fun e s' => Exc i s (l1 ++ l2) e s' \/ m = false /\ ExcHole i s l1 l2 e s').
Proof.
  intros Hnt H HlM. pose proof H as H0. openO H. unfold insert_single. eapply sat_getv; [eassumption|].
  destruct (Nat.ltb_spec (size v) (length l1)) as [Lc|Lc]; [rewrite Hs, app_length in Lc; lia|clear Lc].
  destruct (Nat.eqb_spec (length l1) (size v)) as [Ec|Ec].
  - apply sat_bind. eapply push_back_sat; try eassumption.
    + intros s1 v1 H1 F1 K1 C1. eapply sat_getv; [apply H1|]. apply sat_ret. exact I.
    + intros e s' HE. left. exact HE.
  - destruct l2 as [|y l2' _] using rev_ind; [rewrite app_nil_r in Hs; congruence|].
    apply sat_bind. eapply ensure_sat; try eassumption; [|intros e s' HE; left; exact HE].
    intros s1 v1 H1 F1 L1 K1 C1.
    pose proof H1 as H1'. destruct H1' as (Ho1 & Hs1 & Hl1 & Hm1 & Hk1 & Hb1 & Hd1).
    eapply sat_getv; [eassumption|].
    set (n := length (l1 ++ l2' ++ [y])) in *.
    assert (Hn : n = (length l1 + length l2' + 1)%nat) by (subst n; rewrite !app_length; cbn; lia).
    rewrite Hs1.
    assert (Hblk : blk s1 (data v1) = Some (lives (l1 ++ l2') ++ Live y :: Raw :: raws (cap v1 - n - 1))).
    { rewrite Hb1, (raws_S (cap v1 - n)) by lia. rewrite !map_app, <- !app_assoc. reflexivity. }
    assert (Etm : forall s0, tick_move nothrow_move s0 = Done _ s0 tt) by (intros s0; unfold tick_move; rewrite Hnt; reflexivity).
    apply sat_bind. unfold move_construct. apply sat_bind. eapply sat_eq; [apply Etm|].
    apply sat_bind. eapply sat_eq; [eapply take_eq; [exact Hblk|rewrite len_lives, app_length; lia]|].
    eapply sat_eq.
    { apply construct_eq with (pre := lives (l1 ++ l2') ++ [Live (mv y)]) (post := raws (cap v1 - n - 1)).
      - erewrite blk_upd_eq by exact Hblk. rewrite <- app_assoc. reflexivity.
      - rewrite app_length, len_lives, app_length. cbn. lia. }
    rewrite upd_upd, <- app_assoc. cbn [app].
    apply sat_bind. set (st := upd s1 (data v1) (lives (l1 ++ l2') ++ Live (mv y) :: Live y :: raws (cap v1 - n - 1))).
    destruct (move_bwd_eq mv nothrow_move l2' (with_bud None st)
        (data v1) (lives l1) [mv y] (Live y :: raws (cap v1 - n - 1)) (length l1) (length l1 + 1)) as (ys & Hys & Hmv).
    { reflexivity. } { rewrite len_lives. reflexivity. } { rewrite len_lives. reflexivity. }
    { change (blk (with_bud None st) (data v1)) with (blk st (data v1)). subst st. erewrite blk_upd_eq by exact Hb1. rewrite map_app, <- app_assoc. reflexivity. }
    replace (n - 1 - length l1)%nat with (length l2') by lia.
    assert (Hmv2 : move_bwd mv nothrow_move (data v1, length l1) (data v1, (length l1 + 1)%nat) (length l2') st
       = Done _ (upd st (data v1) (lives l1 ++ lives ys ++ lives l2' ++ Live y :: raws (cap v1 - n - 1))) tt).
    { assert (Es : st = with_bud (bud st) (with_bud None st)) by (destruct st; reflexivity).
      rewrite Es at 1. rewrite (BI_move_bwd mv nothrow_move Hnt), Hmv. reflexivity. }
    eapply sat_eq; [exact Hmv2|]. subst st. rewrite upd_upd.
    destruct ys as [|z [|]]; try discriminate Hys. cbn [map app].
    apply sat_bind. eapply sat_eq; [apply set_size_eq; exact Ho1|]. cbn [mem objs bud VecModel.upd].
    assert (Hln : forall u, length (l1 ++ u :: l2' ++ [y]) = (n + 1)%nat)
        by (intros u; rewrite app_length; cbn [length]; rewrite app_length; cbn [length]; lia).
    destruct (own_step N M s1 i v1 _ (l1 ++ z :: l2' ++ [y]) (bud s1) H1) as [O2 F2].
    { rewrite Hln. lia. } { apply later_refl. }
    match goal with |- sat _ ?S _ _ => replace S with (final s1 i v1 (l1 ++ z :: l2' ++ [y]) (bud s1)) end.
    2:{ unfold final, VecModel.upd; cbn [mem objs bud]. rewrite Hln. rewrite wrap_le by lia.
      replace (cap v1 - (n + 1))%nat with (cap v1 - n - 1)%nat by lia.
      rewrite map_app. cbn [map]. rewrite map_app, <- !app_assoc. cbn [map app]. rewrite <- app_assoc. reflexivity. }
    set (sf := final s1 i v1 (l1 ++ z :: l2' ++ [y]) (bud s1)) in *.
    assert (Hrest : forall g, sat (bindc (read_arg (Val x)) (fun x0 => bindc (poke (data v1, length l1) x0) (fun _ => ret (length l1)))) (with_bud g sf) (fun _ _ => True)
       (fun e s' => Exc i s (l1 ++ l2' ++ [y]) e s' \/ m = false /\ ExcHole i s l1 (l2' ++ [y]) e s')).
    { intros g. apply sat_bind. cbn [read_arg]. apply sat_ret. apply sat_bind. destruct O2 as (_ & _ & _ & _ & _ & Hb2 & _). cbn [data] in Hb2.
      eapply sat_eq.
      { apply poke_eq with (pre := lives l1) (x := z) (post := lives (l2' ++ [y]) ++ raws (cap v1 - length (l1 ++ z :: l2' ++ [y]))).
        - change (blk (with_bud g sf) (data v1)) with (blk sf (data v1)). rewrite Hb2. cbn [cap]. rewrite map_app. cbn [map]. rewrite <- app_assoc. reflexivity.
        - rewrite len_lives. reflexivity. }
      apply sat_ret. exact I. }
    apply sat_bind. destruct m.
    + eapply sat_eq; [apply Etm|]. assert (Es : sf = with_bud (bud sf) sf) by (destruct sf; reflexivity). rewrite Es at 1. apply Hrest.
    + apply sat_tick; [intros g _; apply Hrest|]. intros HB. right. split; [reflexivity|].
      split; [intros B; apply HB; apply F2; apply F1; exact B|]. split; [reflexivity|].
      split; [eapply FR_trans; [exact F1|]; eapply FR_trans; [exact F2|]; apply FR_bud; [eapply Own_FR; exact O2|intros _; reflexivity]|].
      exists (Vec (data v1) (cap v1) (length (l1 ++ z :: l2' ++ [y]))), z. apply Own_bud. exact O2.
Qed.
Lemma emplace_exc s i v l1 l2 x : nothrow_move = true ->
  Own s i v (l1 ++ l2) -> (length (l1 ++ l2) < M)%nat ->
  sat (emplace mv nothrow_move copyable M i (length l1) x) s (fun _ _ => True) (fun e s' => Exc i s (l1 ++ l2) e s').
Proof.
  intros Hnt H HlM. pose proof H as H0. openO H. unfold emplace. eapply sat_getv; [eassumption|].
  destruct (Nat.eqb_spec (length l1) (size v)) as [Ec|Ec].
  - apply sat_bind. eapply push_back_sat; try eassumption.
    + intros s1 v1 H1 F1 K1 C1. eapply sat_getv; [apply H1|]. apply sat_ret. exact I.
    + intros e s' HE. exact HE.
  - apply sat_bind. apply sat_tick; [|intros B; eapply Exc_none; eassumption]. intros g Hg.
    assert (O1 : Own (with_bud g s) i v (l1 ++ l2)) by (apply Own_bud; exact H0).
    eapply sat_conseq; [exact (insert_single_exc _ i v l1 l2 true x Hnt O1 HlM)|auto|]. cbn beta.
    intros e s' [HE|[Z _]]; [|discriminate Z]. eapply Exc_trans; [|exact HE]. apply FR_bud; [eapply Own_FR; exact H0|exact Hg].
Qed.
(** * Erasing if moves throw *)
Definition NT {X} (m : comp X) : Prop := forall s e s', m s <> Thrown _ e s'.
Lemma NT_bind {X Y} (m : comp X) (f : X -> comp Y) : NT m -> (forall x, NT (f x)) -> NT (bindc m f).
Proof. intros H1 H2 s e s'. unfold bindc. destruct (m s) eqn:E; [apply H2| |discriminate]. exfalso. eapply H1; exact E. Qed.
Lemma NT_destroy_range n : forall p, NT (destroy_range (A := A) p n).
Proof.
  induction n as [|n IH]; intros p; cbn [destroy_range]; [intros s e s'; discriminate|]. apply NT_bind; [|intros _; apply IH].
  intros s e s'. unfold destroy. destruct (blk s (fst p)); [|discriminate]. destruct (nth_error l (snd p)) as [[]|]; discriminate.
Qed.
Lemma NT_set_size i n : NT (set_size (A := A) i n).
Proof. unfold set_size. apply NT_bind; [|intros v s e s'; discriminate]. intros s e s'. unfold getv. destruct (nth_error (objs s) i); discriminate. Qed.
Lemma poke_lives b k x s l post s1 u : blk s b = Some (lives l ++ post) -> (k < length l)%nat -> poke (b, k) x s = Done _ s1 u ->
  exists l', s1 = upd s b (lives l' ++ post) /\ length l' = length l.
Proof.
  intros Hb Hk. unfold poke. cbn [fst snd]. rewrite Hb. destruct (nth_error l k) as [y|] eqn:Ey; [|apply nth_error_None in Ey; lia].
  destruct (nth_error_split l k Ey) as (a & c & -> & <-). rewrite nth_error_app1 by (rewrite len_lives; assumption).
  rewrite nth_error_map, Ey. cbn [option_map]. intros E. injection E as <- _. exists (a ++ x :: c). split; [|rewrite !app_length; reflexivity].
  f_equal. rewrite !map_app. cbn [map]. rewrite <- !app_assoc. cbn [app]. rewrite <- (len_lives a) at 1. apply set_nth_mid.
Qed.
Lemma move_fwd_exc n : forall s b k k' l post e s', blk s b = Some (lives l ++ post) -> (k + n <= length l)%nat -> (k' + n <= length l)%nat ->
  move_fwd mv nothrow_move (b, k) (b, k') n s = Thrown _ e s' ->
  e = UserException /\ exists l', s' = with_bud None (upd s b (lives l' ++ post)) /\ length l' = length l.
Proof.
  induction n as [|n IH]; intros s b k k' l post e s' Hb H1 H2 E; cbn [move_fwd] in E; [discriminate E|].
  unfold bindc in E. unfold move_assign, bindc in E.
  assert (C : tick_move nothrow_move s = Thrown _ UserException (with_bud None s) \/ exists g, tick_move nothrow_move s = Done _ (with_bud g s) tt).
  { unfold tick_move, tick. destruct nothrow_move; [right; exists (bud s); destruct s; reflexivity|].
    destruct (bud s) as [[|q]|] eqn:Eb; [left; reflexivity|right; eexists; reflexivity|right; exists None; destruct s; cbn in *; subst; reflexivity]. }
  destruct C as [C|[g C]]; rewrite C in E.
  { injection E as <- <-. split; [reflexivity|]. exists l. split; [|reflexivity]. rewrite (upd_same s b) by assumption. reflexivity. }
  unfold take, bindc in E.
  destruct (rd (b, k) (with_bud g s)) as [s1 y| |] eqn:E1; try discriminate E.
  2:{ unfold rd in E1. destruct (blk (with_bud g s) (fst (b, k))); [|discriminate E1]. destruct (nth_error l0 _) as [[]|]; discriminate E1. }
  apply rd_inv in E1. subst s1.
  destruct (poke (b, k) (mv y) (with_bud g s)) as [s1 u| |] eqn:E2; try discriminate E.
  2:{ unfold poke in E2. destruct (blk (with_bud g s) (fst (b, k))); [|discriminate E2]. destruct (nth_error l0 _) as [[]|]; discriminate E2. }
  destruct (poke_lives b k (mv y) (with_bud g s) l post s1 u Hb ltac:(lia) E2) as (l1 & -> & L1).
  assert (Hb1 : blk (upd (with_bud g s) b (lives l1 ++ post)) b = Some (lives l1 ++ post)) by (eapply blk_upd_eq; exact Hb).
  unfold ret in E.
  destruct (poke (b, k') y (upd (with_bud g s) b (lives l1 ++ post))) as [s2 u2| |] eqn:E3; try discriminate E.
  2:{ unfold poke in E3. destruct (blk _ (fst (b, k'))); [|discriminate E3]. destruct (nth_error l0 _) as [[]|]; discriminate E3. }
  destruct (poke_lives b k' y _ l1 post s2 u2 Hb1 ltac:(lia) E3) as (l2 & -> & L2). rewrite upd_upd in E.
  assert (Hb2 : blk (upd (with_bud g s) b (lives l2 ++ post)) b = Some (lives l2 ++ post)) by (eapply blk_upd_eq; exact Hb).
  destruct (IH _ b (k + 1)%nat (k' + 1)%nat l2 post e s' Hb2 ltac:(lia) ltac:(lia) E) as (He & l' & -> & L').
  split; [exact He|]. exists l'. split; [|congruence]. rewrite upd_upd. reflexivity.
Qed.
Lemma erase_exc s i v l pos n e s' : Own s i v l -> (pos + n <= length l)%nat -> erase mv nothrow_move i pos n s = Thrown _ e s' ->
  e = UserException /\ exists v' l', FR i s s' /\ Own s' i v' l' /\ length l' = length l.
Proof.
  intros H Hp E. pose proof H as H0. openO H. unfold erase in E. erewrite bind_eq in E by (apply getv_eq; exact Ho).
  destruct (Nat.ltb_spec (size v) (pos + n)); [discriminate E|]. unfold bindc at 1 in E.
  destruct (move_fwd mv nothrow_move (data v, (pos + n)%nat) (data v, pos) (size v - (pos + n)) s) as [s1 u|e1 s1|] eqn:E1; [|injection E as <- <-|discriminate E].
  { exfalso. revert E. match goal with |- ?m _ = _ -> _ => assert (X : NT m) end; [|intros E; exact (X _ _ _ E)].
    apply NT_bind; [apply NT_destroy_range|]. intros _. apply NT_bind; [apply NT_set_size|]. intros _ s2 e2 s3. discriminate. }
  destruct (move_fwd_exc (size v - (pos + n)) s (data v) (pos + n) pos l _ _ _ Hb ltac:(lia) ltac:(lia) E1) as (He & l' & -> & L').
  split; [exact He|]. destruct (own_step N M s i v _ l' None H0) as [O2 F2]; [lia|intros _; reflexivity|].
  assert (Hst : with_bud None (upd s (data v) (lives l' ++ raws (cap v - length l))) = final s i v l' None).
  { unfold final, VecModel.upd, VecModel.with_bud; cbn [mem objs bud]. rewrite L'. rewrite (set_same (objs s)) by (rewrite Ho, <- Hs; destruct v; reflexivity). reflexivity. }
  rewrite Hst. exists (Vec (data v) (cap v) (length l')), l'. auto.
Qed.
(** * Calls that may throw *)
Definition outcome1 (g : guarantee) (i : nat) s (w w' : world) r (m : comp nat) : Prop :=
  sat m s (fun r' s' => r' = r /\ WFc s' w') (fun e s' => e = UserException /\ bud s <> None /\ exists w'', WFc s' w'' /\ after_throw N nothrow_move copyable g i w w'').
Lemma any_ret {X} (m : comp X) s (Q : nat -> state -> Prop) E r :
  sat m s (fun _ s' => Q r s') E -> sat (bindc m (fun _ => ret r)) s Q E.
Proof. intros H. apply sat_bind. eapply sat_conseq; [exact H| |auto]. intros x s' HQ. apply sat_ret. exact HQ. Qed.
Lemma exc_strong s w i l c v e s' : WFc s w -> nth_error w i = Some (l, c) -> Own s i v l -> Exc i s l e s' ->
  e = UserException /\ bud s <> None /\ exists w'', WFc s' w'' /\ after_throw N nothrow_move copyable Strong i w w''.
Proof.
  intros HW Hi O (B & He & F & v' & l' & O' & HL & HE). split; [exact He|]. split; [exact B|].
  exists (put w i (l', cap v')). split; [erewrite put_set by exact Hi; eapply WFc_step1; eauto|].
  left. exists l, c, l', (cap v'). auto.
Qed.
Lemma exc_empties s w i l c v e s' : WFc s w -> nth_error w i = Some (l, c) -> Own s i v l -> Exc i s [] e s' ->
  e = UserException /\ bud s <> None /\ exists w'', WFc s' w'' /\ after_throw N nothrow_move copyable Empties i w w''.
Proof.
  intros HW Hi O (B & He & F & v' & l' & O' & HL & HE). split; [exact He|]. split; [exact B|].
  destruct l'; [|discriminate HL].
  exists (put w i ([], cap v')). split; [erewrite put_set by exact Hi; eapply WFc_step1; eauto|].
  left. exists l, c, [], (cap v'). auto.
Qed.
Lemma fin_ok s w i l c s' v' l' c' (r : nat) : WFc s w -> nth_error w i = Some (l, c) -> FR i s s' -> Own s' i v' l' -> cap v' = c' ->
  r = r /\ WFc s' (put w i (l', c')).
Proof. intros HW Hi F O C. split; [reflexivity|]. erewrite put_set by exact Hi. eapply WFc_step1; eauto. Qed.
Ltac inv_on H l c Hi := apply on_inv in H; destruct H as (l & c & l' & c' & Hi & H & ->).
Ltac inv_check H := apply check_inv in H; destruct H as (Hck & <- & <- & <-).
Lemma exc_wide s w i l c v e s' : nothrow_move = true -> WFc s w -> nth_error w i = Some (l, c) -> Own s i v l -> Exc i s l e s' ->
  forall pos, e = UserException /\ bud s <> None /\ exists w'', WFc s' w'' /\ after_throw N nothrow_move copyable (Hole pos) i w w''.
Proof.
  intros Hnt HW Hi O HE pos. destruct (exc_strong s w i l c v e s' HW Hi O HE) as (H1 & H2 & w2 & W2 & [(l0 & c0 & l1 & c1 & Hi2 & -> & _ & HL)|[]]).
  split; [exact H1|]. split; [exact H2|]. eexists. split; [exact W2|]. left. exists l0, c0, l1, c1. split; [exact Hi2|]. split; [reflexivity|].
  left. apply HL. rewrite Hnt. reflexivity.
Qed.
Lemma follow_any s w w' op r (E : exn -> state -> Prop) : WFc s w -> (N <= M)%nat -> meaning w op = Some (w', r) -> plain_call op = true ->
  (forall e s', exec op s = Thrown _ e s' -> e = UserException -> bud s <> None -> E e s') ->
  sat (exec op) s (fun r' s' => r' = r /\ WFc s' w') E.
Proof.
  intros HW HNM Hm HP HE. pose proof (exec_follow d mv nothrow_move copyable N M s w w' op r (bud s) HW HNM Hm HP) as H.
  assert (Es : with_bud (bud s) s = s) by (destruct s; reflexivity). rewrite Es in H. unfold sat.
  destruct (exec op s) as [s1 r1|e s1|]; [exact H| |exact H]. destruct H as [H1 H2]. apply HE; auto.
Qed.
Theorem exec_any s w w' op g r : WFc s w -> (N <= M)%nat -> guaranteed nothrow_move op = Some g -> meaning w op = Some (w', r) ->
  outcome1 g (target op) s w w' r (exec op).
Proof.
  intros HW HNM HG H. destruct g.
  { destruct (exec_nothrow d mv nothrow_move copyable N M s w w' op r HW HNM HG H) as (s' & E & W & _). eapply sat_eq; [exact E|]. auto. }
  - destruct op; cbn [guaranteed] in HG; try discriminate HG; try (exfalso; revert HG; clear; destruct nothrow_move; discriminate); cbn [target]; unfold outcome1.
    + cbn [VecSpec.meaning VecSpec.exec] in *. inv_on H l c Hi. inv_check H. apply Nat.ltb_lt in Hck. destruct (WFc_own _ _ _ _ _ _ _ HW Hi) as (v & O & <-).
      apply any_ret. eapply push_back_sat; try exact d; [exact O|exact Hck| |].
      * intros s' v' O' F K C. eapply fin_ok; eauto.
      * intros e s'. eapply exc_strong; eauto.
    + cbn [VecSpec.meaning VecSpec.exec] in *. inv_on H l c Hi. inv_check H. apply Nat.ltb_lt in Hck. destruct (WFc_own _ _ _ _ _ _ _ HW Hi) as (v & O & <-).
      apply any_ret. unfold write. eapply sat_getv; [apply O|]. apply sat_bind. apply sat_tick.
      * intros g Hg. destruct (nth_error l k) as [y|] eqn:Ey; [|apply nth_error_None in Ey; lia].
        destruct (nth_error_split l k Ey) as (l1 & l2 & -> & <-).
        rewrite firstn_app_len, skipn_app_S.
        pose proof O as O0. destruct O as (Ho & Hsz & Hl & Hm & Hk & Hb & Hd).
        eapply sat_eq; [apply poke_eq with (pre := lives l1) (x := y) (post := lives l2 ++ raws (cap v - length (l1 ++ y :: l2)))|].
        { change (blk (with_bud g s) (data v)) with (blk s (data v)). rewrite Hb, map_app, <- app_assoc. reflexivity. } { rewrite len_lives. reflexivity. }
        assert (E : length (l1 ++ [x] ++ l2) = length (l1 ++ y :: l2)) by (rewrite !app_length; reflexivity).
        destruct (own_step N M s i v _ (l1 ++ [x] ++ l2) g O0) as [O2 F2]; [lia|exact Hg|].
        assert (Hst : upd (with_bud g s) (data v) (lives l1 ++ Live x :: lives l2 ++ raws (cap v - length (l1 ++ y :: l2))) = final s i v (l1 ++ [x] ++ l2) g).
        { unfold final, VecModel.upd, VecModel.with_bud; cbn [mem objs bud]. rewrite E. rewrite (set_same (objs s)) by (rewrite Ho, <- Hsz; destruct v; reflexivity).
          f_equal. f_equal. f_equal. rewrite !map_app, <- !app_assoc. reflexivity. }
        rewrite Hst. eapply fin_ok; eauto.
      * intros B. eapply exc_strong; [exact HW|exact Hi|exact O|]. eapply Exc_none; eauto.
    + assert (m = true /\ nothrow_move = true) as [-> Hnt] by (revert HG; clear; destruct m, nothrow_move; (discriminate || auto)).
      eapply follow_any; [exact HW|exact HNM|exact H|reflexivity|]. intros e s' E He Hb. cbn [VecSpec.meaning VecSpec.exec] in *. inv_on H l c Hi. inv_check H.
      apply andb_true_iff in Hck. destruct Hck as [Hp Hck]. apply Nat.leb_le in Hp. apply Nat.ltb_lt in Hck.
      destruct (WFc_own _ _ _ _ _ _ _ HW Hi) as (v & O & <-). rewrite <- (firstn_skipn pos l) in O, Hck.
      pose proof (insert_single_exc s i v (firstn pos l) (skipn pos l) true x Hnt O Hck) as X.
      rewrite firstn_length_le in X by assumption. unfold sat in X. rewrite E in X. rewrite firstn_skipn in X, O.
      destruct X as [X|[Z _]]; [|discriminate Z]. eapply exc_strong; eauto.
    + assert (Hnt : nothrow_move = true) by (revert HG; clear; destruct nothrow_move; (discriminate || auto)).
      eapply follow_any; [exact HW|exact HNM|exact H|reflexivity|]. intros e s' E He Hb. cbn [VecSpec.meaning VecSpec.exec] in *. inv_on H l c Hi. inv_check H.
      apply andb_true_iff in Hck. destruct Hck as [Hp Hck]. apply Nat.leb_le in Hp. apply Nat.ltb_lt in Hck.
      destruct (WFc_own _ _ _ _ _ _ _ HW Hi) as (v & O & <-). rewrite <- (firstn_skipn pos l) in O, Hck.
      pose proof (emplace_exc s i v (firstn pos l) (skipn pos l) x Hnt O Hck) as X.
      rewrite firstn_length_le in X by assumption. unfold sat in X. rewrite E in X. rewrite firstn_skipn in X, O.
      eapply exc_strong; eauto.
    + cbn [VecSpec.meaning VecSpec.exec] in *. inv_on H l c Hi. inv_check H. apply Nat.leb_le in Hck. destruct (WFc_own _ _ _ _ _ _ _ HW Hi) as (v & O & <-).
      apply any_ret. eapply resize_sat; [exact O|exact Hck| |].
      * intros s' v' O' F C K. eapply fin_ok; eauto.
      * intros e s'. eapply exc_strong; eauto.
    + cbn [VecSpec.meaning VecSpec.exec] in *. inv_on H l c Hi. inv_check H. apply Nat.leb_le in Hck. destruct (WFc_own _ _ _ _ _ _ _ HW Hi) as (v & O & <-).
      apply any_ret. eapply sat_conseq; [eapply reserve_ok; try exact d; [exact O|exact Hck]| |].
      * intros _ s' (v' & O' & F & C & K). eapply fin_ok; eauto.
      * intros e s'. eapply exc_strong; eauto.
    + cbn [VecSpec.meaning VecSpec.exec] in *. inv_on H l c Hi. injection H as <- <- <-. destruct (WFc_own _ _ _ _ _ _ _ HW Hi) as (v & O & <-).
      apply any_ret. eapply shrink_to_fit_sat; try exact d; [exact O|exact HNM| |].
      * intros s' v' O' F C K. eapply fin_ok; eauto.
      * intros e s'. eapply exc_strong; eauto.
  - assert (AR : forall i xs, meaning w (AssignRange i xs) = Some (w', r) -> outcome1 Empties i s w w' r (exec (AssignRange i xs))).
    { clear HG H. intros i xs H. cbn [VecSpec.meaning VecSpec.exec] in *. inv_on H l c Hi. inv_check H. apply Nat.leb_le in Hck.
      destruct (WFc_own _ _ _ _ _ _ _ HW Hi) as (v & O & <-).
      unfold outcome1. apply any_ret. unfold assign_range. apply sat_bind. eapply clear_sat; [exact O|]. intros s1 O1 F1 B1.
      eapply fill_range_sat; try exact d; [exact O1|exact Hck| |].
      - intros s' v' O' F C K. eapply fin_ok; eauto. eapply FR_trans; eassumption.
      - intros e s' HE. eapply exc_empties; eauto. eapply Exc_trans; eassumption. }
    destruct op; cbn [guaranteed] in HG; try discriminate HG; try (exfalso; revert HG; clear; destruct nothrow_move; discriminate); try (exfalso; revert HG; clear; destruct m, nothrow_move; discriminate); cbn [target]; try (apply AR; exact H).
    clear AR. cbn [VecSpec.meaning VecSpec.exec] in *; unfold outcome1.
    destruct (nth_error w j) as [[xs cj]|] eqn:Hj; [|discriminate H].
    destruct (Nat.eqb_spec i j) as [<-|Hij].
    { injection H as <- <-. apply any_ret. unfold assign_copy. rewrite Nat.eqb_refl. apply sat_ret. auto. }
    inv_on H l c Hi. injection H as <- <- <-. destruct (WFc_own _ _ _ _ _ _ _ HW Hi) as (v & O & <-).
    destruct (WFc_own _ _ _ _ _ _ _ HW Hj) as (vj & Oj & <-).
    assert (Hdd : data v <> data vj) by (eapply WF_data_neq; [exact (proj1 HW)|exact Hij|apply O|apply Oj]).
    apply any_ret. unfold assign_copy. destruct (Nat.eqb_spec j i); [congruence|]. apply sat_bind.
    eapply clear_sat; [exact O|]. intros s1 O1 F1 B1.
    assert (Oj1 : Own s1 j vj xs) by (eapply Own_frame; [exact O|exact Oj|exact F1|exact Hij|exact Hdd]).
    assert (Hsz : size vj = length xs) by apply Oj. assert (Hlm : (length xs <= M)%nat) by (destruct Oj as (_ & _ & Z1 & Z2 & _); lia).
    eapply sat_getv; [apply Oj1|]. rewrite Hsz. apply sat_bind.
    eapply (reserve_keep d); [exact O1|exact Hlm| |intros e s' HE; eapply exc_empties; eauto; eapply Exc_trans; eassumption].
    intros s2 v2 O2 F2 C1 C2 C3 C4. cbn [cap data] in *.
    assert (Oj2 : Own s2 j vj xs) by (eapply Own_frame; [exact O1|exact Oj1|exact F2|exact Hij|exact Hdd]).
    assert (F02 : FR i s s2) by (eapply FR_trans; [exact F1|exact F2]).
    assert (Hdd2 : data vj <> data v2).
    { assert (W1 : WFc s1 (set_nth w i ([], cap v))) by (eapply WFc_step1; eauto).
      assert (W2 : WFc s2 (set_nth (set_nth w i ([], cap v)) i ([], cap v2))) by (eapply WFc_step1; eauto).
      intros E. symmetry in E. revert E. eapply WF_data_neq; [exact (proj1 W2)|exact Hij|apply O2|apply Oj2]. }
    eapply sat_getv; [apply O2|]. apply sat_bind.
    pose proof Oj2 as Oj2'. destruct Oj2' as (_ & _ & _ & _ & _ & Hbj & _).
    pose proof O2 as O2'. destruct O2' as (Ho2 & _ & _ & _ & _ & Hb2 & _).
    eapply uninit_copy_sat with (p1 := []) (p2 := []) (q2 := raws (cap v2 - length xs)); [exact Hdd2|reflexivity|reflexivity|exact Hbj| | |].
    { rewrite Hb2. cbn [app map length]. rewrite Nat.sub_0_r, <- raws_split by assumption. reflexivity. }
    + intros g Hg. cbn [app]. destruct (own_step N M s2 i v2 [] xs g O2) as [O3 F3]; [assumption|assumption|].
      eapply sat_eq; [apply set_size_upd with (l' := xs); [exact Ho2|reflexivity|reflexivity]|].
      eapply fin_ok; [exact HW|exact Hi| |exact O3|].
      { eapply FR_trans; [exact F02|exact F3]. }
      cbn [cap]. destruct (Nat.le_gt_cases (length xs) (cap v)); [destruct C3 as [_ ->]; [lia|cbn [cap]; lia]|rewrite C4; lia].
    + intros B. eapply exc_empties; [exact HW|exact Hi|exact O|]. eapply Exc_trans; [exact F02|]. eapply Exc_none; eauto.
  - destruct op; cbn [guaranteed] in HG; try discriminate HG; try (exfalso; revert HG; clear; destruct nothrow_move; discriminate); cbn [target]; unfold outcome1.
    assert (m = false /\ nothrow_move = true /\ pos0 = pos) as (-> & Hnt & ->)
      by (revert HG; clear; destruct m, nothrow_move; intros HG; try discriminate HG; injection HG; auto).
    eapply follow_any; [exact HW|exact HNM|exact H|reflexivity|]. intros e s' E He Hb. cbn [VecSpec.meaning VecSpec.exec] in *. inv_on H l c Hi. inv_check H.
    apply andb_true_iff in Hck. destruct Hck as [Hp Hck]. apply Nat.leb_le in Hp. apply Nat.ltb_lt in Hck.
    destruct (WFc_own _ _ _ _ _ _ _ HW Hi) as (v & O & <-). rewrite <- (firstn_skipn pos l) in O, Hck.
    pose proof (insert_single_exc s i v (firstn pos l) (skipn pos l) false x Hnt O Hck) as X.
    rewrite firstn_length_le in X by assumption. unfold sat in X. rewrite E in X. rewrite firstn_skipn in X, O.
    destruct X as [X|[_ X]]; [eapply exc_wide; eauto|].
    destruct X as (B & _ & F & v' & z & O'). split; [exact He|]. split; [exact Hb|].
    eexists. split; [eapply WFc_step1; eauto|]. erewrite <- put_set by exact Hi.
    left. eexists _, _, _, _. split; [exact Hi|]. split; [reflexivity|]. right. exists z. reflexivity.
  - destruct op; cbn [guaranteed] in HG; try discriminate HG; try (exfalso; revert HG; clear; destruct nothrow_move; discriminate);
      try (exfalso; revert HG; clear; destruct m, nothrow_move; discriminate); cbn [target]; unfold outcome1.
    eapply follow_any; [exact HW|exact HNM|exact H|reflexivity|]. intros e s' E He Hb. cbn [VecSpec.meaning VecSpec.exec] in *. inv_on H l c Hi. inv_check H. apply Nat.leb_le in Hck.
    destruct (WFc_own _ _ _ _ _ _ _ HW Hi) as (v & O & <-). destruct (erase_exc _ _ _ _ _ _ _ _ O Hck E) as (_ & v' & l2 & F & O' & L).
    split; [exact He|]. split; [exact Hb|]. eexists. split; [eapply WFc_step1; eauto|]. erewrite <- put_set by exact Hi.
    left. eexists _, _, _, _. split; [exact Hi|]. split; [reflexivity|]. exact L.
  - destruct op; cbn [guaranteed] in HG; try discriminate HG; try (exfalso; revert HG; clear; destruct nothrow_move; discriminate);
      try (exfalso; revert HG; clear; destruct m, nothrow_move; discriminate); cbn [target]; unfold outcome1.
    assert (nothrow_move = false /\ j0 = j) as (Hnt & ->) by (revert HG; clear; destruct nothrow_move; intros HG; try discriminate HG; injection HG; auto).
    eapply follow_any; [exact HW|exact HNM|exact H|reflexivity|]. intros e s' E He Hb. split; [exact He|]. split; [exact Hb|].
    destruct (swap_exc d mv nothrow_move copyable N M s w w' i j r e s' HW HNM Hnt H E) as (w2 & W2 & HT). exists w2. split; [exact W2|]. right. exact HT.
  - assert (X : exists i, (op = MoveAssign i j \/ op = NewMove i j) /\ nothrow_move = false).
    { revert HG; clear; destruct op; cbn [guaranteed]; try discriminate; try (destruct m); destruct nothrow_move; try discriminate; intros E; injection E as ->; eauto. }
    destruct X as (i & Hop & Hnt).
    eapply follow_any; [exact HW|exact HNM|exact H|destruct Hop as [-> | ->]; reflexivity|]. intros e s' E He Hb. split; [exact He|]. split; [exact Hb|].
    destruct (move_exc d mv nothrow_move copyable N M s w w' i j r e s' op HW HNM Hnt Hop H E) as (w2 & W2 & HT). exists w2. split; [exact W2|]. right.
    replace (target op) with i by (destruct Hop as [-> | ->]; reflexivity). exact HT.
Qed.
(** push_back on a vector that cannot grow any more *)
Lemma push_back_full s i v l m x : Own s i v l -> length l = M -> push_back i m (Val x) s = Thrown _ LengthError s.
Proof.
  intros O HL. assert (Hc : cap v = M) by (destruct O as (_ & _ & Z1 & Z2 & _); lia).
  unfold VecModel.push_back. erewrite bind_eq by (apply getv_eq; apply O).
  assert (Hs : size v = length l) by apply O. rewrite Hs, HL, Hc, Nat.eqb_refl.
  unfold bindc. rewrite (grow_full mv nothrow_move copyable N M s i v l O Hc). reflexivity.
Qed.
(** * Histories with exceptions *)
Lemma values_lives l : flat_map (value_of (A := A)) (lives l) = l.
Proof. induction l; cbn; congruence. Qed.
Lemma view_WF s w : WFc s w -> view s = w.
Proof.
  intros HW. unfold view. rewrite (map_objs N M s w _ (fun x => x) HW); [apply map_id|].
  intros i v l (_ & Hs & _ & _ & _ & Hb & _). rewrite Hb, Hs. f_equal.
  rewrite <- (len_lives l) at 1. rewrite firstn_app_len. apply values_lives.
Qed.
Lemma meaning_length (w w1 : world) op r : meaning w op = Some (w1, r) -> length w1 = length w.
Proof.
  intros E.
  assert (Lput : forall (u : world) i x y, nth_error u i = Some y -> length (put u i x) = length u).
  { intros u i x y Hy. rewrite (put_set u i x y Hy). apply len_set_nth. }
  assert (Lon : forall i f, on w i f = Some (w1, r) -> length w1 = length w).
  { intros i f H. apply on_inv in H. destruct H as (l & c & l' & c' & Hi & _ & ->). eapply Lput; exact Hi. }
  destruct op; cbn [VecSpec.meaning] in E; try (eapply Lon; exact E).
  + destruct (nth_error w i) eqn:Hi; [|discriminate E]. destruct (nth_error w j) eqn:Hj; [|discriminate E]. injection E as <- _.
    rewrite (put2 w i j _ _ _ _ Hi Hj), !len_set_nth. reflexivity.
  + destruct (nth_error w j) as [[]|]; [|discriminate E]. destruct (Nat.eqb i j); [injection E as <- _; reflexivity|eapply Lon; exact E].
  + destruct (Nat.eqb i j); [injection E as <- _; reflexivity|].
    destruct (nth_error w i) eqn:Hi; [|discriminate E]. destruct (nth_error w j) eqn:Hj; [|discriminate E]. injection E as <- _.
    rewrite (put2 w i j _ _ _ _ Hi Hj), !len_set_nth. reflexivity.
  + destruct (nth_error w j) as [[]|]; [|discriminate E]. destruct (Nat.eqb i j); [discriminate E|eapply Lon; exact E].
  + destruct (nth_error w i) eqn:Hi; [|discriminate E]. destruct (nth_error w j) eqn:Hj; [|discriminate E].
    destruct (Nat.eqb i j); [discriminate E|]. injection E as <- _.
    rewrite (put2 w i j _ _ _ _ Hi Hj), !len_set_nth. reflexivity.
Qed.
Lemma meanings_length ops : forall (w w1 : world) rs, meanings w ops = Some (w1, rs) -> length w1 = length w.
Proof.
  induction ops as [|op ops IH]; intros w w1 rs H; cbn [VecSpec.meanings] in H; [injection H as <- _; reflexivity|].
  destruct (meaning w op) as [[w2 r]|] eqn:E; [|discriminate H]. destruct (meanings w2 ops) as [[w3 rs2]|] eqn:E2; [|discriminate H].
  injection H as <- _. rewrite (IH _ _ _ E2). eapply meaning_length; exact E.
Qed.
Theorem attempts_ok ops : forall s w, WFc s w -> (N <= M)%nat -> (forall op, In op ops -> guaranteed nothrow_move op <> None) ->
  exists s' w', attempts d N M mv nothrow_move copyable ops s = Some s' /\ WFc s' w' /\ length w' = length w.
Proof.
  induction ops as [|op ops IH]; intros s w HW HNM HG; cbn [attempts]; [eauto|].
  rewrite (view_WF s w HW). destruct (meaning w op) as [[w1 r]|] eqn:E.
  2: { apply (IH s w HW HNM). intros o Ho. apply HG. right. exact Ho. }
  assert (HL : forall s1 w2, WFc s1 w2 -> length w2 = length w -> exists s' w', attempts d N M mv nothrow_move copyable ops s1 = Some s' /\ WFc s' w' /\ length w' = length w).
  { intros s1 w2 W2 L2. destruct (IH s1 w2 W2 HNM) as (s' & w' & A1 & A2 & A3); [intros o Ho; apply HG; right; exact Ho|].
    exists s', w'. split; [exact A1|]. split; [exact A2|congruence]. }
  assert (HG1 := HG op (or_introl eq_refl)). destruct (guaranteed nothrow_move op) as [g|] eqn:EG; [|contradiction].
  assert (X := exec_any s w w1 op g r HW HNM EG E). unfold outcome1, sat in X.
  assert (Lput : forall (u : world) i x y, nth_error u i = Some y -> length (put u i x) = length u).
  { intros u i x y Hy. rewrite (put_set u i x y Hy). apply len_set_nth. }
  destruct (exec op s) as [s1 r1|e s1|]; [| |contradiction].
  - destruct X as [_ W1]. eapply HL; [exact W1|]. eapply meaning_length; exact E.
  - destruct X as (_ & _ & w2 & W2 & [HT|HT]).
    + destruct HT as (l & c & l' & c' & Hi & -> & _). eapply HL; [exact W2|]. eapply Lput; exact Hi.
    + eapply HL; [exact W2|]. destruct g as [| | | | |j|j]; cbn [after_throw2] in HT; try contradiction HT.
      * destruct HT as (li & ci & lj & cj & li' & lj' & Hi & Hj & -> & _). rewrite (put2 w _ j _ _ _ _ Hi Hj), !len_set_nth. reflexivity.
      * destruct HT as (lj & lj' & Hj & -> & _). destruct (nth_error w (target op)) as [y|] eqn:Hi; [rewrite (put2 w _ j _ _ _ _ Hi Hj), !len_set_nth; reflexivity|].
        exfalso. revert E EG Hi Hj. clear. destruct op; cbn [guaranteed target VecSpec.meaning]; try discriminate; try (destruct m); try (destruct nothrow_move; discriminate);
          (destruct nothrow_move; [discriminate|]); intros E EG Hi Hj; injection EG as ->; rewrite Hi in E; try discriminate E.
        destruct (Nat.eqb_spec i j); [congruence|discriminate E].
Qed.
Theorem exec_safe s w w' op r g : WFc s w -> (N <= M)%nat -> meaning w op = Some (w', r) ->
  match exec op (with_bud g s) with
  | Done _ s' r' => r' = r /\ WFc s' w'
  | Thrown _ e _ => e = UserException /\ g <> None
  | Undef _ => False
  end.
Proof.
  intros HW HNM Hm. destruct (plain_call op) eqn:HP; [eapply exec_follow; eauto|].
  destruct (guaranteed nothrow_move op) as [gu|] eqn:HG; [|destruct op; discriminate].
  pose proof (exec_any (with_bud g s) w w' op gu r (WFc_bud N M s w g HW) HNM HG Hm) as H.
  unfold outcome1, sat in H. destruct (exec op (with_bud g s)); [exact H| |exact H]. destruct H as (He & Hb & _). auto.
Qed.
End Vec.
