(** The operations on a single SmallVector. *)
From Verif Require Import Base VecModel VecProofs VecProofs2.
From Coq Require Import PeanoNat.

Section Vec.
Context {A : Type} (d : A) (mv : A -> A) (nothrow_move copyable : bool) (N M : nat).
Notation state := (@state A).
Notation comp := (@comp A).
Notation cell := (@cell A).
Notation Live := (@Live A).
Notation Raw := (@Raw A).
Notation blk := (@blk A).
Notation upd := (@upd A).
Notation with_bud := (@with_bud A).
Notation lives := (map Live).
Notation raws := (repeat Raw).
Notation reserve := (reserve mv nothrow_move copyable).
Notation grow := (grow mv nothrow_move copyable M).
Notation push_back := (push_back mv nothrow_move copyable M).
Notation Own := (Own (A := A) N M).
Notation FR := (FR (A := A)).
Notation Exc := (Exc (A := A) nothrow_move copyable N M).
Implicit Types s : state.
Implicit Types l : list A.

(** The memory is kept if it is large enough. *)
Definition Keep (v v' : vec) (n : nat) : Prop :=
  (cap v <= cap v')%nat /\ ((n <= cap v)%nat -> data v' = data v /\ cap v' = cap v).
(** The result of an operation on vector i *)
Definition Post (i : nat) s (v : vec) (l' : list A) s' : Prop :=
  exists v', Own s' i v' l' /\ FR i s s' /\ Keep v v' (length l').
Lemma Keep_trans v v1 v2 n1 n : Keep v v1 n1 -> (n1 <= n)%nat -> Keep v1 v2 n -> Keep v v2 n.
Proof.
  intros [H1 H2] Hn [H3 H4]. split; [lia|]. intros H.
  destruct H2 as [E1 E2]; [lia|]. destruct H4 as [E3 E4]; [lia|]. split; congruence.
Qed.
Lemma Keep_refl v n : Keep v v n. Proof. split; auto. Qed.
Lemma Keep_size v n k : Keep v (Vec (data v) (cap v) k) n. Proof. split; auto. Qed.

Ltac openO H := destruct H as (Ho & Hs & Hl & Hm & Hk & Hb & Hd).

Lemma own_post s i v l l' g s0 v0 n0 : Own s i v l -> FR i s0 s -> Keep v0 v n0 -> (n0 <= length l')%nat ->
  (length l' <= cap v)%nat -> later (bud s) g -> Post i s0 v0 l' (final s i v l' g).
Proof.
  intros H Hf HK Hn Hl Hg. destruct (own_step N M s i v l l' g H Hl Hg) as [H1 H2].
  exists (Vec (data v) (cap v) (length l')). split; [assumption|]. split; [eapply FR_trans; eassumption|].
  eapply Keep_trans; [eassumption|eassumption|]. apply Keep_size.
Qed.
Lemma set_size_upd s i v l' g c n : nth_error (objs s) i = Some v -> c = lives l' ++ raws (cap v - length l') -> n = length l' ->
  set_size i n (with_bud g (upd s (data v) c)) = Done _ (final s i v l' g) tt.
Proof. intros H -> ->. apply set_size_final; auto. Qed.
Lemma upd_bud s b c : upd s b c = with_bud (bud s) (upd s b c).
Proof. reflexivity. Qed.

(** clear *)
Lemma clear_eq s i v l : Own s i v l -> clear i s = Done _ (final s i v [] (bud s)) tt.
Proof.
  intros H. openO H. unfold clear.
  erewrite bind_eq by (apply getv_eq; eassumption). rewrite Hs.
  erewrite bind_eq by (apply (destroy_range_eq l) with (pre := []) (post := raws (cap v - length l)); [exact Hb|reflexivity]).
  cbn [app]. rewrite <- raws_split by assumption.
  rewrite (set_size_eq _ i v) by assumption. unfold final. cbn [map app length]. rewrite Nat.sub_0_r. reflexivity.
Qed.
Lemma clear_own s i v l : Own s i v l ->
  Own (final s i v [] (bud s)) i (Vec (data v) (cap v) 0) [] /\ FR i s (final s i v [] (bud s)).
Proof. intros H. apply own_step with l; [assumption|cbn; lia|apply later_refl]. Qed.
Lemma clear_sat s i v l (Q : unit -> state -> Prop) (E : exn -> state -> Prop) : Own s i v l ->
  (forall s', Own s' i (Vec (data v) (cap v) 0) [] -> FR i s s' -> bud s' = bud s -> Q tt s') -> sat (clear i) s Q E.
Proof.
  intros H HQ. eapply sat_eq; [eapply clear_eq; eassumption|].
  destruct (clear_own _ _ _ _ H). apply HQ; auto.
Qed.

(** reserve *)
Lemma reserve_keep s i v l n (Q : unit -> state -> Prop) (E : exn -> state -> Prop) :
  Own s i v l -> (n <= M)%nat ->
  (forall s' v', Own s' i v' l -> FR i s s' -> (cap v <= cap v')%nat -> (n <= cap v')%nat ->
     ((n <= cap v)%nat -> s' = s /\ v' = v) -> ((cap v < n)%nat -> cap v' = n) -> Q tt s') ->
  (forall e s', Exc i s l e s' -> E e s') -> sat (reserve i n) s Q E.
Proof.
  intros H Hn HQ HE. eapply reserve_sat; try eassumption.
  - intros Hc. apply (HQ s v); auto; try lia. eapply Own_FR; eassumption.
  - intros Hc s' v' H1 H2 H3 H4. apply (HQ s' v'); auto; lia.
Qed.
Theorem reserve_ok s i v l n : Own s i v l -> (n <= M)%nat ->
  sat (reserve i n) s (fun _ s' => exists v', Own s' i v' l /\ FR i s s' /\ cap v' = Nat.max (cap v) n
                                   /\ ((n <= cap v)%nat -> data v' = data v)) (Exc i s l).
Proof.
  intros H Hn. eapply reserve_keep; eauto. intros s' v' H1 H2 H3 H4 H5 H6.
  exists v'. do 2 (split; [assumption|]). split.
  - destruct (Nat.le_gt_cases n (cap v)); [destruct H5 as [_ ->]; lia|rewrite H6; lia].
  - intros Hc. destruct (H5 Hc) as [_ ->]. reflexivity.
Qed.

(** growth *)
Definition grown (c : nat) : nat := Nat.min M (c + Nat.max 1 (c / 2)).
Lemma wrap_le n : (n <= M)%nat -> wrap M n = n.
Proof. intros H. unfold wrap. apply Nat.mod_small. lia. Qed.
Lemma grow_sat s i v l (Q : unit -> state -> Prop) (E : exn -> state -> Prop) :
  Own s i v l -> (cap v < M)%nat ->
  (forall s' v', Own s' i v' l -> FR i s s' -> cap v' = grown (cap v) -> data v' = length (mem s) -> Q tt s') ->
  (forall e s', Exc i s l e s' -> E e s') -> sat (grow i) s Q E.
Proof.
  intros H Hc HQ HE. pose proof H as H0. openO H. unfold VecModel.grow.
  eapply sat_getv; [eassumption|].
  destruct (Nat.eqb_spec (M - cap v) 0); [lia|].
  assert (Hd2 : (2 * (cap v / 2) <= cap v)%nat) by (apply Nat.mul_div_le; lia).
  assert (Hinc : wrap M (cap v + (if Nat.ltb (M - cap v) (cap v / 2) then M - cap v
      else if Nat.eqb (cap v / 2) 0 then 1 else cap v / 2)) = grown (cap v)).
  { unfold grown. rewrite wrap_le.
    - destruct (Nat.ltb_spec (M - cap v) (cap v / 2)); [lia|]. destruct (Nat.eqb_spec (cap v / 2) 0); lia.
    - destruct (Nat.ltb_spec (M - cap v) (cap v / 2)); [lia|]. destruct (Nat.eqb_spec (cap v / 2) 0); lia. }
  rewrite Hinc. eapply reserve_sat; try eassumption.
  - unfold grown. lia.
  - unfold grown. intros. lia.
  - intros _ s' v' H1 H2 H3 H4. eapply HQ; eassumption.
Qed.
Lemma grow_full s i v l : Own s i v l -> cap v = M -> grow i s = Thrown _ LengthError s.
Proof.
  intros H Hc. openO H. unfold VecModel.grow. erewrite bind_eq by (apply getv_eq; eassumption).
  rewrite Hc, Nat.sub_diag. reflexivity.
Qed.
Lemma ensure_sat s i v l (Q : unit -> state -> Prop) (E : exn -> state -> Prop) :
  Own s i v l -> (length l < M)%nat ->
  (forall s1 v1, Own s1 i v1 l -> FR i s s1 -> (length l < cap v1)%nat -> Keep v v1 (length l + 1) ->
     (cap v1 = if Nat.eqb (length l) (cap v) then grown (cap v) else cap v) -> Q tt s1) ->
  (forall e s', Exc i s l e s' -> E e s') ->
  sat (if Nat.eqb (size v) (cap v) then grow i else ret tt) s Q E.
Proof.
  intros H Hlt HQ HE. pose proof H as H0. openO H. rewrite Hs.
  destruct (Nat.eqb_spec (length l) (cap v)) as [E1|E1].
  - eapply grow_sat; try eassumption; [lia|]. intros s1 v1 H1 H2 H3 H4.
    apply (HQ s1 v1); auto; [rewrite H3; unfold grown; lia|].
    split; [rewrite H3; unfold grown; lia|lia].
  - apply sat_ret. apply (HQ s v); auto; [eapply Own_FR; eassumption|lia|apply Keep_refl].
Qed.

(** push_back *)
Lemma raws_S n : (0 < n)%nat -> raws n = Raw :: raws (n - 1).
Proof. intros. destruct n; [lia|]. cbn. rewrite Nat.sub_0_r. reflexivity. Qed.
Lemma push_back_sat s i v l m x (Q : unit -> state -> Prop) (E : exn -> state -> Prop) :
  Own s i v l -> (length l < M)%nat ->
  (forall s' v', Own s' i v' (l ++ [x]) -> FR i s s' -> Keep v v' (length l + 1) ->
     (cap v' = if Nat.eqb (length l) (cap v) then grown (cap v) else cap v) -> Q tt s') ->
  (forall e s', Exc i s l e s' -> E e s') ->
  sat (push_back i m (Val x)) s Q E.
Proof.
  intros H Hlt HQ HE. pose proof H as H0. openO H. unfold VecModel.push_back. eapply sat_getv; [eassumption|].
  apply sat_bind. eapply ensure_sat; try eassumption.
  intros s1 v1 H1 F1 L1 K1 C1. pose proof H1 as H1'. destruct H1' as (Ho1 & Hs1 & Hl1 & Hm1 & Hk1 & Hb1 & Hd1).
  eapply sat_getv; [eassumption|]. apply sat_bind.
  assert (Hgo : forall g, later (bud s1) g ->
    sat (bindc (read_arg (Val x)) (fun x0 => bindc (construct (data v1, size v1) x0) (fun _ => set_size i (wrap M (size v1 + 1)))))
      (with_bud g s1) Q E).
  { intros g Hg. cbn [read_arg]. apply sat_bind, sat_ret. apply sat_bind.
    eapply sat_eq; [apply construct_eq with (pre := lives l) (post := raws (cap v1 - length l - 1))|].
    - change (blk (with_bud g s1) (data v1)) with (blk s1 (data v1)). rewrite Hb1. rewrite (raws_S (cap v1 - length l)) by lia. reflexivity.
    - rewrite len_lives. assumption.
    - change (upd (with_bud g s1) (data v1) (lives l ++ Live x :: raws (cap v1 - length l - 1)))
        with (with_bud g (upd s1 (data v1) (lives l ++ Live x :: raws (cap v1 - length l - 1)))).
      destruct (own_step N M s1 i v1 l (l ++ [x]) g H1) as [O2 F2]; [rewrite app_length; cbn; lia|assumption|].
      eapply sat_eq; [apply set_size_upd with (l' := l ++ [x]); [assumption| |]|].
      + rewrite map_app, <- app_assoc, app_length. cbn [map length app]. do 3 f_equal. lia.
      + rewrite wrap_le by lia. rewrite app_length. cbn. lia.
      + eapply HQ; [exact O2|eapply FR_trans; eassumption| |exact C1].
        eapply Keep_trans; [exact K1|reflexivity|]. apply Keep_size. }
  assert (Hex : bud s1 <> None -> E UserException (with_bud None s1)).
  { intros Hb0. apply HE. eapply Exc_trans; [exact F1|]. eapply Exc_none; eassumption. }
  destruct m; [apply sat_tick_move; auto|apply sat_tick; auto].
Qed.

(** pop_back *)
Lemma pop_back_sat s i v l x (Q : unit -> state -> Prop) (E : exn -> state -> Prop) :
  Own s i v (l ++ [x]) ->
  (forall s', Own s' i (Vec (data v) (cap v) (length l)) l -> FR i s s' -> Q tt s') ->
  sat (pop_back i) s Q E.
Proof.
  intros H HQ. pose proof H as H0. openO H. rewrite app_length in *. cbn [length] in *. unfold pop_back.
  eapply sat_getv; [eassumption|]. rewrite Hs, Nat.add_1_r. apply sat_bind.
  eapply sat_eq; [apply set_size_eq; eassumption|].
  destruct (own_step N M s i v _ l (bud s) H0) as [O2 F2]; [lia|apply later_refl|].
  eapply sat_eq; [|apply (HQ _ O2 F2)].
  erewrite destroy_eq with (pre := lives l) (x := x) (post := raws (cap v - (length l + 1))).
  - unfold final, VecModel.upd; cbn [mem objs bud]. rewrite (raws_S (cap v - length l)) by lia.
    do 7 f_equal. lia.
  - change (blk s (data v) = Some (lives l ++ Live x :: raws (cap v - (length l + 1)))). rewrite Hb, map_app, <- app_assoc. reflexivity.
  - rewrite len_lives. reflexivity.
Qed.
Lemma pop_back_empty s i v : Own s i v [] -> pop_back i s = Undef _.
Proof. intros H. openO H. unfold pop_back. erewrite bind_eq by (apply getv_eq; eassumption). rewrite Hs. reflexivity. Qed.

(** fill_range, the common part of constructors and assignments *)
Lemma fill_range_sat s i v xs (Q : unit -> state -> Prop) (E : exn -> state -> Prop) :
  Own s i v [] -> (length xs <= M)%nat ->
  (forall s' v', Own s' i v' xs -> FR i s s' -> cap v' = Nat.max (cap v) (length xs) ->
     ((length xs <= cap v)%nat -> data v' = data v) -> Q tt s') ->
  (forall e s', Exc i s [] e s' -> E e s') ->
  sat (fill_range mv nothrow_move copyable M i xs) s Q E.
Proof.
  intros H Hlx HQ HE. unfold fill_range. rewrite wrap_le by assumption. apply sat_bind.
  eapply reserve_keep; try eassumption. intros s1 v1 H1 F1 C1 C2 C3 C4.
  pose proof H1 as H1'. destruct H1' as (Ho1 & Hs1 & Hl1 & Hm1 & Hk1 & Hb1 & Hd1).
  eapply sat_getv; [eassumption|]. apply sat_bind.
  eapply copy_range_sat with (pre := []); [reflexivity| | |].
  - rewrite Hb1. cbn [map app length]. rewrite Nat.sub_0_r. rewrite (raws_split (A := A) (cap v1) (length xs)) by assumption. reflexivity.
  - intros g Hg. cbn [app]. destruct (own_step N M s1 i v1 [] xs g H1) as [O2 F2]; [assumption|assumption|].
    eapply sat_eq; [apply set_size_upd with (l' := xs); [assumption|reflexivity|reflexivity]|].
    apply (HQ _ _ O2); [eapply FR_trans; eassumption| |]; cbn [cap data].
    + destruct (Nat.le_gt_cases (length xs) (cap v)); [destruct C3 as [_ ->]; lia|rewrite C4; lia].
    + intros Hc. destruct (C3 Hc) as [_ ->]. reflexivity.
  - intros Hb0. apply HE. eapply Exc_trans; [exact F1|]. eapply Exc_none; eassumption.
Qed.

(** resize(n) *)
Lemma shrink_block s i v l n : Own s i v l -> (n < length l)%nat ->
  destroy_range (data v, n) (length l - n) s = Done _ (upd s (data v) (lives (firstn n l) ++ raws (cap v - n))) tt.
Proof.
  intros H Hn. openO H.
  replace (length l - n)%nat with (length (skipn n l)) by (rewrite skipn_length; reflexivity).
  erewrite destroy_range_eq with (pre := lives (firstn n l)) (post := raws (cap v - length l)).
  - f_equal. f_equal. f_equal. rewrite <- raws_add, skipn_length. f_equal. lia.
  - rewrite Hb, app_assoc, <- map_app, firstn_skipn. reflexivity.
  - rewrite len_lives, firstn_length. lia.
Qed.
Definition resized l (n : nat) (x : A) : list A := firstn n l ++ repeat x (n - length l).
Lemma len_resized l n x : length (resized l n x) = n.
Proof. unfold resized. rewrite app_length, firstn_length, repeat_length. lia. Qed.
Lemma resized_small l n x : (n <= length l)%nat -> resized l n x = firstn n l.
Proof. intros H. unfold resized. replace (n - length l)%nat with 0%nat by lia. cbn. apply app_nil_r. Qed.
Lemma resized_big l n x : (length l <= n)%nat -> resized l n x = l ++ repeat x (n - length l).
Proof. intros H. unfold resized. rewrite firstn_all2 by assumption. reflexivity. Qed.
Lemma set_size_same s i v l : Own s i v l -> set_size i (length l) s = Done _ s tt.
Proof.
  intros H. openO H. rewrite (set_size_eq _ _ v) by assumption. rewrite set_same; [destruct s; reflexivity|].
  rewrite Ho, <- Hs. destruct v; reflexivity.
Qed.
(** Both versions of resize, given what the new elements are made with *)
Lemma resize_gen (fill : vec -> comp unit) s i v l n x (Q : unit -> state -> Prop) (E : exn -> state -> Prop) :
  Own s i v l -> (n <= M)%nat ->
  ((length l < n)%nat -> forall s1 v1 (R : unit -> state -> Prop), Own s1 i v1 l -> FR i s s1 -> (n <= cap v1)%nat ->
     (forall g, later (bud s1) g -> R tt (with_bud g (upd s1 (data v1) (lives l ++ lives (repeat x (n - length l)) ++ raws (cap v1 - n))))) ->
     (bud s1 <> None -> E UserException (with_bud None s1)) ->
     sat (fill v1) s1 R E) ->
  (forall s' v', Own s' i v' (resized l n x) -> FR i s s' -> cap v' = Nat.max (cap v) n ->
     ((n <= cap v)%nat -> data v' = data v) -> Q tt s') ->
  (forall e s', Exc i s l e s' -> E e s') ->
  sat (bindc (if Nat.ltb n (size v) then destroy_range (data v, n) (size v - n)
              else if Nat.ltb (size v) n then bindc (reserve i n) (fun _ => bindc (getv i) fill)
              else ret tt) (fun _ => set_size i n)) s Q E.
Proof.
  intros H Hn Hfill HQ HE. pose proof H as H0. openO H. rewrite Hs. apply sat_bind.
  destruct (Nat.ltb_spec n (length l)) as [L|L].
  - eapply sat_eq; [eapply shrink_block; eassumption|].
    destruct (own_step N M s i v _ (firstn n l) (bud s) H0) as [O2 F2]; [rewrite firstn_length; lia|apply later_refl|].
    rewrite upd_bud.
    eapply sat_eq; [apply set_size_upd with (l' := firstn n l); [assumption| |]|].
    + rewrite firstn_length. do 2 f_equal. lia.
    + rewrite firstn_length. lia.
    + eapply HQ; [rewrite resized_small by lia; exact O2|exact F2|cbn [cap]; lia|reflexivity].
  - destruct (Nat.ltb_spec (length l) n) as [L2|L2].
    + apply sat_bind. eapply reserve_keep; try eassumption. intros s1 v1 H1 F1 C1 C2 C3 C4.
      pose proof H1 as H1'. destruct H1' as (Ho1 & Hs1 & Hl1 & Hm1 & Hk1 & Hb1 & Hd1).
      eapply sat_getv; [eassumption|]. eapply Hfill; try eassumption.
      * intros g Hg. cbv beta.
        destruct (own_step N M s1 i v1 _ (resized l n x) g H1) as [O2 F2]; [rewrite len_resized; lia|assumption|].
        eapply sat_eq; [apply set_size_upd with (l' := resized l n x); [assumption| |]|].
        -- rewrite len_resized, resized_big by lia. rewrite map_app, <- app_assoc. reflexivity.
        -- rewrite len_resized. reflexivity.
        -- eapply HQ; [exact O2|eapply FR_trans; eassumption| |]; cbn [cap data].
           ++ destruct (Nat.le_gt_cases n (cap v)); [destruct C3 as [_ ->]; lia|rewrite C4; lia].
           ++ intros Hc. destruct (C3 Hc) as [_ ->]. reflexivity.
      * intros Hb0. apply HE. eapply Exc_trans; [exact F1|]. eapply Exc_none; eassumption.
    + apply sat_ret. replace n with (length l) by lia. eapply sat_eq; [eapply set_size_same; eassumption|].
      replace n with (length l) in HQ by lia. apply (HQ s v); [|eapply Own_FR; eassumption|lia|reflexivity].
      rewrite resized_small by lia. rewrite firstn_all. assumption.
Qed.
Lemma resize_sat s i v l n (Q : unit -> state -> Prop) (E : exn -> state -> Prop) :
  Own s i v l -> (n <= M)%nat ->
  (forall s' v', Own s' i v' (resized l n d) -> FR i s s' -> cap v' = Nat.max (cap v) n ->
     ((n <= cap v)%nat -> data v' = data v) -> Q tt s') ->
  (forall e s', Exc i s l e s' -> E e s') ->
  sat (resize d mv nothrow_move copyable i n) s Q E.
Proof.
  intros H Hn HQ HE. unfold resize. eapply sat_getv; [apply H|].
  eapply (resize_gen (fun v0 => fill_default d (data v0, size v0) (n - size v0))); eauto.
  intros Hlt s1 v1 R H1 F1 C1 HR HE1.
  destruct H1 as (Ho1 & Hs1 & Hl1 & Hm1 & Hk1 & Hb1 & Hd1). rewrite Hs1.
  eapply fill_default_sat with (pre := lives l); [rewrite len_lives; reflexivity| |exact HR|exact HE1].
  rewrite Hb1. do 2 f_equal. rewrite <- raws_add. f_equal. lia.
Qed.
Lemma resize_value_sat s i v l n x (Q : unit -> state -> Prop) :
  Own s i v l -> (n <= M)%nat -> bud s = None ->
  (forall s' v', Own s' i v' (resized l n x) -> FR i s s' -> cap v' = Nat.max (cap v) n ->
     ((n <= cap v)%nat -> data v' = data v) -> Q tt s') ->
  sat (resize_value mv nothrow_move copyable i n (Val x)) s Q (fun _ _ => False).
Proof.
  intros H Hn Hbu HQ. unfold resize_value. eapply sat_getv; [apply H|].
  eapply (resize_gen (fun v0 => copy_value (data v0, size v0) (n - size v0) (Val x))); eauto.
  - intros Hlt s1 v1 R H1 F1 C1 HR HE1.
    destruct H1 as (Ho1 & Hs1 & Hl1 & Hm1 & Hk1 & Hb1 & Hd1). rewrite Hs1.
    assert (Hb1n : bud s1 = None) by (apply F1; assumption).
    eapply sat_eq; [eapply copy_value_eq with (pre := lives l) (post := raws (cap v1 - n)); [assumption|rewrite len_lives; reflexivity|]|].
    + rewrite Hb1. do 2 f_equal. rewrite <- raws_add. f_equal. lia.
    + rewrite upd_bud. apply HR. apply later_refl.
  - intros e s' (Hb0 & _). contradiction.
Qed.

(** fill_value *)
Lemma fill_value_sat s i v n x (Q : unit -> state -> Prop) :
  Own s i v [] -> (n <= M)%nat -> bud s = None ->
  (forall s' v', Own s' i v' (repeat x n) -> FR i s s' -> cap v' = Nat.max (cap v) n ->
     ((n <= cap v)%nat -> data v' = data v) -> Q tt s') ->
  sat (fill_value mv nothrow_move copyable i n (Val x)) s Q (fun _ _ => False).
Proof.
  intros H Hn Hbu HQ. unfold fill_value. apply sat_bind.
  eapply reserve_keep; [eassumption|assumption| |intros e s' (Hb0 & _); contradiction].
  intros s1 v1 H1 F1 C1 C2 C3 C4.
  pose proof H1 as H1'. destruct H1' as (Ho1 & Hs1 & Hl1 & Hm1 & Hk1 & Hb1 & Hd1).
  assert (Hb1n : bud s1 = None) by (apply F1; assumption).
  eapply sat_getv; [eassumption|]. apply sat_bind.
  eapply sat_eq; [eapply copy_value_eq with (pre := []); [assumption|reflexivity|]|].
  - rewrite Hb1. cbn [map app length]. rewrite Nat.sub_0_r. rewrite (raws_split (A := A) (cap v1) n) by assumption. reflexivity.
  - cbn [app]. destruct (own_step N M s1 i v1 [] (repeat x n) (bud s1) H1) as [O2 F2]; [rewrite repeat_length; assumption|apply later_refl|].
    rewrite upd_bud.
    eapply sat_eq; [apply set_size_upd with (l' := repeat x n); [assumption|rewrite repeat_length; reflexivity|rewrite repeat_length; reflexivity]|].
    apply (HQ _ _ O2); [eapply FR_trans; eassumption| |]; cbn [cap data].
    + destruct (Nat.le_gt_cases n (cap v)); [destruct C3 as [_ ->]; lia|rewrite C4; lia].
    + intros Hc. destruct (C3 Hc) as [_ ->]. reflexivity.
Qed.
End Vec.
