(** Insertion of several elements, reallocation, construction and destruction. *)
From Verif Require Import Base VecModel VecProofs VecProofs2 VecProofs3 VecProofs4.
From Coq Require Import PeanoNat.

Section Vec.
Context {A : Type} (d : A) (mv : A -> A) (nothrow_move copyable : bool) (N M : nat).
Notation state := (@state A).
Notation comp := (@comp A).
Notation cell := (@cell A).
Notation Live := (@Live A).
Notation Raw := (@Raw A).
Notation blk := (@blk A).
Notation upd := (@upd A).
Notation with_bud := (@with_bud A).
Notation lives := (map Live).
Notation raws := (repeat Raw).
Notation reserve := (reserve mv nothrow_move copyable).
Notation grow := (grow mv nothrow_move copyable M).
Notation push_back := (push_back mv nothrow_move copyable M).
Notation Own := (Own (A := A) N M).
Notation FR := (FR (A := A)).
Notation Exc := (Exc (A := A) nothrow_move copyable N M).
Implicit Types s : state.
Implicit Types l : list A.

Ltac openO H := destruct H as (Ho & Hs & Hl & Hm & Hk & Hb & Hd).
Notation Post := (Post (A := A) N M).
Notation ok m s Q := (sat m s Q (fun _ _ => False)).

(** insert of several elements *)
Lemma insert_end s i v s1 v1 l1 l2 xs (Q : nat -> state -> Prop) :
  Own s1 i v1 (l1 ++ l2) -> FR i s s1 -> (length (l1 ++ l2) + length xs <= cap v1)%nat ->
  Keep v v1 (length (l1 ++ l2) + length xs) -> cap v1 = Nat.max (cap v) (length (l1 ++ l2) + length xs) ->
  (forall s' v', Own s' i v' (l1 ++ xs ++ l2) -> FR i s s' -> Keep v v' (length (l1 ++ l2) + length xs) ->
     cap v' = Nat.max (cap v) (length (l1 ++ l2) + length xs) -> Q (length l1) s') ->
  ok (bindc (set_size i (wrap M (size v1 + length xs))) (fun _ => ret (length l1)))
     (upd s1 (data v1) (lives l1 ++ lives xs ++ lives l2 ++ raws (cap v1 - (length (l1 ++ l2) + length xs)))) Q.
Proof.
  intros H1 F1 C1 K1 Cm HQ. pose proof H1 as H. openO H. apply sat_bind. rewrite upd_bud.
  assert (Hln : length (l1 ++ xs ++ l2) = (length (l1 ++ l2) + length xs)%nat) by (rewrite !app_length; lia).
  destruct (own_step N M s1 i v1 _ (l1 ++ xs ++ l2) (bud s1) H1) as [O2 F2]; [lia|apply later_refl|].
  eapply sat_eq; [apply set_size_upd with (l' := l1 ++ xs ++ l2); [assumption| |]|].
  - rewrite Hln, !map_app, <- !app_assoc. reflexivity.
  - rewrite Hs, wrap_le by lia. lia.
  - apply sat_ret. apply (HQ _ _ O2); [eapply FR_trans; eassumption| |exact Cm].
    eapply Keep_trans; [exact K1|reflexivity|]. apply Keep_size.
Qed.
Lemma insert_range_sat s i v l1 l2 xs (Q : nat -> state -> Prop) :
  Own s i v (l1 ++ l2) -> bud s = None -> (length (l1 ++ l2) + length xs <= M)%nat ->
  (forall s' v', Own s' i v' (l1 ++ xs ++ l2) -> FR i s s' -> Keep v v' (length (l1 ++ l2) + length xs) ->
     cap v' = Nat.max (cap v) (length (l1 ++ l2) + length xs) -> Q (length l1) s') ->
  ok (insert_range mv nothrow_move copyable M i (length l1) xs) s Q.
Proof.
  intros H Hbu HlM HQ. pose proof H as H0. openO H. unfold insert_range. rewrite wrap_le by lia.
  destruct (Nat.ltb_spec (length xs) 1) as [L|L].
  { destruct xs; [|cbn in L; lia]. apply sat_ret. apply (HQ s v); auto; [eapply Own_FR; eassumption|apply Keep_refl|cbn; lia]. }
  apply sat_bind. eapply make_space_sat; try eassumption.
  intros s1 v1 ys H1 F1 C1 K1 Cm Hb1n Hys.
  pose proof H1 as H1'. destruct H1' as (Ho1 & Hs1 & Hl1 & Hm1 & Hk1 & Hb1 & Hd1).
  eapply sat_getv; [exact Ho1|]. apply sat_bind.
  set (fin := raws (cap v1 - (length (l1 ++ l2) + length xs))) in *.
  assert (Lf : length (firstn (length ys) xs) = length ys) by (rewrite firstn_length; lia).
  eapply sat_eq.
  { apply copy_n_eq with (pre := lives l1) (ys := ys) (post := raws (length xs - length ys) ++ lives l2 ++ fin).
    - assumption.
    - rewrite len_lives. reflexivity.
    - symmetry. exact Lf.
    - eapply blk_upd_eq; exact Hb1. }
  rewrite upd_upd. apply sat_bind.
  assert (Hfin : ok (bindc (set_size i (wrap M (size v1 + length xs))) (fun _ => ret (length l1)))
     (upd s1 (data v1) (lives l1 ++ lives xs ++ lives l2 ++ fin)) Q).
  { eapply insert_end with (s := s) (v := v); eassumption. }
  destruct (Nat.eq_dec (length ys) (length xs)) as [E|E].
  - rewrite E, skipn_all, firstn_all, Nat.sub_diag. unfold copy_range; cbn [copy_range_loop]. apply sat_ret. exact Hfin.
  - rewrite Hs1. eapply copy_range_sat with (pre := lives l1 ++ lives (firstn (length ys) xs)) (post := lives l2 ++ fin).
    + rewrite !app_length, !len_lives. lia.
    + rewrite skipn_length, <- app_assoc. eapply blk_upd_eq; exact Hb1.
    + intros g Hg. rewrite upd_upd.
      replace ((lives l1 ++ lives (firstn (length ys) xs)) ++ lives (skipn (length ys) xs) ++ lives l2 ++ fin)
         with (lives l1 ++ lives xs ++ lives l2 ++ fin)
         by (rewrite <- app_assoc, (app_assoc (lives (firstn (length ys) xs))), <- map_app, firstn_skipn; reflexivity).
      assert (g = bud s1) as -> by (rewrite Hb1n; apply Hg; exact Hb1n).
      rewrite <- upd_bud, <- Hs1. exact Hfin.
    + intros Hx. apply Hx. exact Hb1n.
Qed.
Lemma insert_value_sat s i v l1 l2 n x (Q : nat -> state -> Prop) :
  Own s i v (l1 ++ l2) -> bud s = None -> (length (l1 ++ l2) + n <= M)%nat ->
  (forall s' v', Own s' i v' (l1 ++ repeat x n ++ l2) -> FR i s s' -> Keep v v' (length (l1 ++ l2) + n) ->
     cap v' = Nat.max (cap v) (length (l1 ++ l2) + n) -> Q (length l1) s') ->
  ok (insert_value mv nothrow_move copyable M i (length l1) n (Val x)) s Q.
Proof.
  intros H Hbu HlM HQ. pose proof H as H0. openO H. unfold insert_value.
  destruct (Nat.ltb_spec n 1) as [L|L].
  { assert (n = 0%nat) as -> by lia. apply sat_ret. apply (HQ s v); auto; [eapply Own_FR; eassumption|apply Keep_refl|lia]. }
  apply sat_bind. eapply make_space_sat; try eassumption.
  intros s1 v1 ys H1 F1 C1 K1 Cm Hb1n Hys.
  pose proof H1 as H1'. destruct H1' as (Ho1 & Hs1 & Hl1 & Hm1 & Hk1 & Hb1 & Hd1).
  eapply sat_getv; [exact Ho1|]. apply sat_bind.
  set (fin := raws (cap v1 - (length (l1 ++ l2) + n))) in *.
  eapply sat_eq.
  { rewrite fill_n_is_copy_n.
    apply copy_n_eq with (pre := lives l1) (ys := ys) (post := raws (n - length ys) ++ lives l2 ++ fin).
    - assumption.
    - rewrite len_lives. reflexivity.
    - rewrite repeat_length. reflexivity.
    - eapply blk_upd_eq; exact Hb1. }
  rewrite upd_upd. apply sat_bind.
  assert (Hfin : ok (bindc (set_size i (wrap M (size v1 + n))) (fun _ => ret (length l1)))
     (upd s1 (data v1) (lives l1 ++ lives (repeat x n) ++ lives l2 ++ fin)) Q).
  { rewrite <- (repeat_length x n) at 1.
    replace fin with (raws (cap v1 - (length (l1 ++ l2) + length (repeat x n)))) by (rewrite repeat_length; reflexivity).
    eapply insert_end with (s := s) (v := v); rewrite ?repeat_length; eassumption. }
  destruct (Nat.eq_dec (length ys) n) as [E|E].
  - rewrite E, Nat.sub_diag. cbn [copy_value]. apply sat_ret. exact Hfin.
  - rewrite Hs1. eapply sat_eq.
    { apply copy_value_eq with (pre := lives l1 ++ lives (repeat x (length ys))) (post := lives l2 ++ fin).
      - assumption.
      - rewrite !app_length, !len_lives, repeat_length. lia.
      - rewrite <- app_assoc. eapply blk_upd_eq; exact Hb1. }
    rewrite upd_upd.
    replace ((lives l1 ++ lives (repeat x (length ys))) ++ lives (repeat x (n - length ys)) ++ lives l2 ++ fin)
         with (lives l1 ++ lives (repeat x n) ++ lives l2 ++ fin).
    + rewrite <- Hs1. exact Hfin.
    + rewrite <- app_assoc, (app_assoc (lives (repeat x (length ys)))), <- map_app, <- repeat_app. do 5 f_equal. lia.
Qed.

(** Giving back the heap block, as in the destructor: vector i is empty afterwards and uses its
    internal array, once its members say so *)
Definition reset_state s (i : nat) (v : vec) : state :=
  State (if allocated i v then set_nth (set_nth (mem s) (data v) (Some (raws (cap v)))) (data v) None
         else set_nth (mem s) (data v) (Some (raws (cap v)))) (set_nth (objs s) i (Vec (data v) (cap v) 0)) (bud s).
Lemma dtor_eq s i v l : Own s i v l -> dtor i s = Done _ (reset_state s i v) tt.
Proof.
  intros H. pose proof H as H0. openO H. destruct (Own_lt N M _ _ _ _ H0) as (I1 & I2 & I3). unfold dtor.
  erewrite bind_eq by (eapply clear_eq; eassumption).
  unfold final. cbn [map app length]. rewrite Nat.sub_0_r.
  erewrite bind_eq by (apply getv_eq; cbn [objs]; rewrite nth_set_nth, Nat.eqb_refl; destruct (Nat.ltb_spec i (length (objs s))); [reflexivity|lia]).
  unfold reset_state. unfold allocated. cbn [data]. destruct (Nat.eqb (data v) i); cbn [negb]; [reflexivity|].
  erewrite free_eq; [reflexivity|].
  exact (blk_upd_eq s (data v) _ (raws (cap v)) Hb).
Qed.
Lemma blk_reset s i v l b : Own s i v l ->
  blk (reset_state s i v) b =
  if Nat.eqb b i then Some (raws N) else if Nat.eqb b (data v) then None else blk s b.
Proof.
  intros H. pose proof H as H0. openO H. destruct (Own_lt N M _ _ _ _ H0) as (I1 & I2 & I3).
  unfold reset_state, VecModel.blk. cbn [mem]. unfold allocated.
  destruct (Nat.eqb_spec (data v) i) as [E|E]; cbn [negb].
  - rewrite nth_set_nth. rewrite E in *. rewrite (Nat.eqb_sym i b).
    destruct (Nat.eqb_spec b i); cbn [andb]; [|reflexivity].
    destruct (Nat.ltb_spec i (length (mem s))); [|lia]. destruct Hd as [[_ ->]|(X & _)]; [reflexivity|lia].
  - rewrite set_set, nth_set_nth, (Nat.eqb_sym (data v) b).
    destruct Hd as [[X _]|(Y1 & Y2 & Y3)]; [contradiction|]. unfold VecModel.blk in Y3.
    destruct (Nat.eqb_spec b i) as [->|E2].
    + destruct (Nat.eqb_spec i (data v)); [congruence|]. exact Y3.
    + destruct (Nat.eqb_spec b (data v)) as [->|]; cbn [andb]; [|reflexivity].
      destruct (Nat.ltb_spec (data v) (length (mem s))); [reflexivity|lia].
Qed.
Lemma len_reset s i v : length (mem (reset_state s i v)) = length (mem s).
Proof. unfold reset_state; cbn [mem]. destruct (allocated i v); rewrite !len_set_nth; reflexivity. Qed.
Lemma recreate_own s i v l : Own s i v l -> (N <= M)%nat ->
  forall s', s' = State (mem (reset_state s i v)) (set_nth (objs s) i (Vec i N 0)) (bud s) ->
  Own s' i (Vec i N 0) [] /\ FR i s s'.
Proof.
  intros H HNM s' ->. pose proof (blk_reset s i v l) as B. specialize (fun b => B b H). pose proof H as H0. openO H.
  destruct (Own_lt N M _ _ _ _ H0) as (I1 & I2 & I3).
  assert (Hbl : forall o b, blk (State (mem (reset_state s i v)) o (bud s)) b = blk (reset_state s i v) b) by reflexivity.
  assert (Hnth : nth_error (set_nth (objs s) i (Vec i N 0)) i = Some (Vec i N 0)).
  { rewrite nth_set_nth, Nat.eqb_refl. destruct (Nat.ltb_spec i (length (objs s))); [reflexivity|lia]. }
  split.
  - split; [exact Hnth|]. cbn [size cap data length map app objs mem]. split; [reflexivity|]. split; [lia|]. split; [assumption|].
    split; [rewrite len_set_nth, len_reset; assumption|].
    split; [rewrite Hbl, B, Nat.eqb_refl, Nat.sub_0_r; reflexivity|]. left. auto.
  - split; [apply later_refl|]. cbn [objs mem]. split; [apply len_set_nth|].
    split; [intros j Hj; rewrite nth_set_nth; destruct (Nat.eqb_spec i j); [congruence|reflexivity]|].
    split; [rewrite len_reset; lia|].
    exists v, (Vec i N 0). do 4 (split; [assumption|]). cbn [data].
    split; [intros b Hbb N1 N2; rewrite Hbl, B; destruct (Nat.eqb_spec b i); [contradiction|]; destruct (Nat.eqb_spec b (data v)); [contradiction|reflexivity]|].
    split; [auto|].
    split; [intros N1 _; rewrite Hbl, B; destruct (Nat.eqb_spec (data v) i); [contradiction|]; rewrite Nat.eqb_refl; reflexivity|].
    intros b Hbb N1. rewrite Hbl, B. destruct (Nat.eqb_spec b i); [contradiction|].
    destruct (Nat.eqb_spec b (data v)); [reflexivity|]. apply blk_over. assumption.
Qed.
Lemma recreate_sat {X} s i v l (f : unit -> comp X) (Q : X -> state -> Prop) (E : exn -> state -> Prop) :
  Own s i v l -> (N <= M)%nat ->
  (forall s', Own s' i (Vec i N 0) [] -> FR i s s' -> bud s' = bud s -> sat (f tt) s' Q E) ->
  sat (bindc (dtor i) (fun _ => bindc (ctor_default N i) f)) s Q E.
Proof.
  intros H HNM HQ. apply sat_bind. eapply sat_eq; [eapply dtor_eq; exact H|]. apply sat_bind. unfold ctor_default.
  eapply sat_eq; [reflexivity|].
  set (s' := State (mem (reset_state s i v)) (set_nth (objs s) i (Vec i N 0)) (bud s)).
  replace (State (mem (reset_state s i v)) (set_nth (objs (reset_state s i v)) i (Vec i N 0)) (bud (reset_state s i v))) with s'.
  - destruct (recreate_own s i v l H HNM s' eq_refl) as [O F]. apply HQ; auto.
  - unfold s'. f_equal. unfold reset_state; cbn [objs]. rewrite set_set. reflexivity.
Qed.

(** ctor_n *)
Lemma ctor_n_is s i n : sat (ret tt) s (fun _ _ => True) (fun _ _ => True) ->
  ctor_n d mv nothrow_move copyable N i n s = bindc (ctor_default N i) (fun _ => fill_value mv nothrow_move copyable i n (Val d)) s.
Proof.
  intros _. unfold ctor_n, fill_value. unfold bindc. destruct (ctor_default N i s); [|reflexivity|reflexivity].
  destruct (reserve i n s0); [|reflexivity|reflexivity]. destruct (getv i s1); [|reflexivity|reflexivity].
  rewrite default_loop_is_copy. reflexivity.
Qed.

(** shrink_to_fit *)
Lemma shrink_to_fit_sat s i v l (Q : unit -> state -> Prop) (E : exn -> state -> Prop) :
  Own s i v l -> (N <= M)%nat ->
  (forall s' v', Own s' i v' l -> FR i s s' -> cap v' = Nat.max N (length l) -> (cap v' = cap v -> s' = s) -> Q tt s') ->
  (forall e s', Exc i s l e s' -> E e s') ->
  sat (shrink_to_fit mv nothrow_move copyable N i) s Q E.
Proof.
  intros H HNM HQ HE. pose proof H as H0. openO H. destruct (Own_lt N M _ _ _ _ H0) as (I1 & I2 & I3).
  destruct (Own_inner d mv N M _ _ _ _ H0) as [Hi1 Hi2].
  unfold shrink_to_fit. eapply sat_getv; [exact Ho|]. rewrite Hs. set (n := Nat.max N (length l)) in *.
  destruct (Nat.eqb_spec n (cap v)) as [En|En].
  { apply sat_ret. apply (HQ s v); auto. eapply Own_FR; exact H0. }
  rewrite <- Hs. assert (Hn : (N < cap v)%nat) by lia.
  destruct Hd as [[_ X]|(Y1 & Y2 & Y3)]; [lia|].
  destruct (Nat.eqb_spec n N) as [EN|EN].
  2: { eapply realloc_sat; try eassumption; try lia. intros s' v' O1 F1 C1 D1. apply (HQ s' v'); auto. lia. }
  apply sat_bind, sat_ret. apply sat_bind, sat_on_throw. rewrite Hs.
  assert (Hne : data v <> i) by lia.
  eapply (umc_sat mv nothrow_move copyable l) with (p1 := []) (q1 := raws (cap v - length l)) (p2 := []) (q2 := raws (N - length l));
    try reflexivity; try assumption.
  { cbn [app]. rewrite <- raws_split by lia. exact Y3. }
  2: { intros ys Hbn Hly Hys. cbn [app]. apply sat_ret. apply HE. split; [assumption|]. split; [reflexivity|].
       destruct (own_step N M s i v l ys None H0) as [O2 F2]; [lia|intros _; reflexivity|].
       assert (Hst : with_bud None (upd s (data v) (lives ys ++ raws (cap v - length l))) = final s i v ys None).
       { unfold final, VecModel.with_bud, VecModel.upd; cbn [mem objs]. rewrite Hly.
         rewrite (set_same (objs s)); [reflexivity|]. rewrite Ho, <- Hs. destruct v; reflexivity. }
       rewrite Hst. split; [assumption|]. eexists _, ys. split; [exact O2|]. split; assumption. }
  intros g ys Hg Hly. cbn [app]. apply sat_bind.
  replace (destroy_range (data v, 0%nat) (length l)) with (@destroy_range A (data v, 0%nat) (length ys)) by congruence.
  eapply sat_eq.
  { apply (destroy_range_eq ys) with (pre := []) (post := raws (cap v - length l)); [|reflexivity].
    change (blk (upd (upd s (data v) (lives ys ++ raws (cap v - length l))) i (lives l ++ raws (N - length l))) (data v)
      = Some (lives ys ++ raws (cap v - length l))).
    rewrite blk_upd_neq by auto. eapply blk_upd_eq; exact Hb. }
  cbn [app]. rewrite Hly, <- raws_split by lia.
  apply sat_bind. unfold allocated. destruct (Nat.eqb_spec (data v) i); [contradiction|]. cbn [negb].
  match goal with |- sat (free _) ?S _ _ => set (s2 := S) end.
  assert (B2 : forall b, blk s2 b = if Nat.eqb b (data v) then Some (raws (cap v)) else if Nat.eqb b i then Some (lives l ++ raws (N - length l)) else blk s b).
  { intros b. subst s2. rewrite blk_upd. rewrite (Nat.eqb_sym (data v) b).
    destruct (Nat.eqb_spec b (data v)); cbn [andb].
    - match goal with |- context [Nat.ltb ?a ?b] => destruct (Nat.ltb_spec a b) as [Z|Z]; [reflexivity|] end.
      change (mem (with_bud g ?S)) with (mem S) in Z. rewrite !len_upd in Z. lia.
    - change (blk (with_bud g ?S) b) with (blk S b). rewrite blk_upd, len_upd, (Nat.eqb_sym i b).
      destruct (Nat.eqb_spec b i); cbn [andb].
      + destruct (Nat.ltb_spec i (length (mem s))); [reflexivity|lia].
      + rewrite blk_upd, (Nat.eqb_sym (data v) b). destruct (Nat.eqb_spec b (data v)); [contradiction|reflexivity]. }
  assert (L2 : length (mem s2) = length (mem s)).
  { subst s2. rewrite len_upd. change (mem (with_bud g ?S)) with (mem S). rewrite !len_upd. reflexivity. }
  eapply sat_eq; [eapply free_eq; rewrite B2, Nat.eqb_refl; reflexivity|].
  eapply sat_eq; [reflexivity|].
  cbn [mem objs bud]. change (objs s2) with (objs s). change (bud s2) with g.
  assert (Hbl : forall b, blk (State (set_nth (mem s2) (data v) None) (set_nth (objs s) i (Vec i n (length l))) g) b
    = if Nat.eqb b (data v) then None else if Nat.eqb b i then Some (lives l ++ raws (N - length l)) else blk s b).
  { intros b. rewrite blk_freed, (Nat.eqb_sym (data v) b), B2. destruct (Nat.eqb b (data v)); reflexivity. }
  assert (Hnth : nth_error (set_nth (objs s) i (Vec i n (length l))) i = Some (Vec i n (length l))).
  { rewrite nth_set_nth, Nat.eqb_refl. destruct (Nat.ltb_spec i (length (objs s))); [reflexivity|lia]. }
  apply (HQ _ (Vec i n (length l))).
  - split; [exact Hnth|]. cbn [size cap data objs mem]. split; [reflexivity|]. split; [lia|]. split; [lia|].
    split; [rewrite !len_set_nth, L2; assumption|].
    split; [rewrite Hbl, Nat.eqb_refl; destruct (Nat.eqb_spec i (data v)); [congruence|]; rewrite EN; reflexivity|].
    left. auto.
  - split; [exact Hg|]. cbn [objs mem]. split; [apply len_set_nth|].
    split; [intros j Hj; rewrite nth_set_nth; destruct (Nat.eqb_spec i j); [congruence|reflexivity]|].
    split; [rewrite len_set_nth; lia|].
    exists v, (Vec i n (length l)). do 4 (split; [assumption|]). cbn [data].
    split; [intros b Hbb N1 N2; rewrite Hbl; destruct (Nat.eqb_spec b i); [contradiction|]; destruct (Nat.eqb_spec b (data v)); [contradiction|reflexivity]|].
    split; [auto|].
    split; [intros N1 _; rewrite Hbl, Nat.eqb_refl; reflexivity|].
    intros b Hbb N1. rewrite Hbl. destruct (Nat.eqb_spec b (data v)); [reflexivity|].
    destruct (Nat.eqb_spec b i); [contradiction|]. apply blk_over. assumption.
  - reflexivity.
  - cbn [cap]. intros. lia.
Qed.
End Vec.
