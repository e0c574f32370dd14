(** Swapping and copying SmallVectors. *)
From Verif Require Import Base VecModel VecProofs VecProofs2 VecProofs3 VecProofs4 VecProofs5 VecProofs6.
From Coq Require Import PeanoNat.

Section Vec.
Context {A : Type} (d : A) (mv : A -> A) (nothrow_move copyable : bool) (N M : nat).
Notation state := (@state A).
Notation comp := (@comp A).
Notation cell := (@cell A).
Notation Live := (@Live A).
Notation Raw := (@Raw A).
Notation blk := (@blk A).
Notation upd := (@upd A).
Notation with_bud := (@with_bud A).
Notation lives := (map Live).
Notation raws := (repeat Raw).
Notation reserve := (reserve mv nothrow_move copyable).
Notation grow := (grow mv nothrow_move copyable M).
Notation push_back := (push_back mv nothrow_move copyable M).
Notation Own := (Own (A := A) N M).
Notation FR := (FR (A := A)).
Notation Exc := (Exc (A := A) nothrow_move copyable N M).
Implicit Types s : state.
Implicit Types l : list A.

Ltac openO H := destruct H as (Ho & Hs & Hl & Hm & Hk & Hb & Hd).
Notation Post := (Post (A := A) N M).
Notation ok m s Q := (sat m s Q (fun _ _ => False)).

Notation WF := (WF (A := A) N M).

Lemma list_ext {T} (a b : list T) : (forall k, nth_error a k = nth_error b k) -> a = b.
Proof.
  revert b. induction a as [|x a IH]; intros [|y b] H; [reflexivity|discriminate (H 0%nat)|discriminate (H 0%nat)|].
  f_equal; [specialize (H 0%nat); cbn in H; congruence|]. apply IH. intros k. exact (H (S k)).
Qed.
Ltac set_list := apply list_ext; intros kk; rewrite !nth_set_nth, ?len_set_nth;
  repeat match goal with |- context [Nat.eqb ?a ?b] => destruct (Nat.eqb_spec a b); cbn [andb]; try congruence end;
  repeat match goal with |- context [Nat.ltb ?a ?b] => destruct (Nat.ltb_spec a b); try congruence end; try reflexivity.

Section Two.
Variables (s : state) (ls : list (list A)) (i j : nat) (vi vj : vec) (li lj : list A).
Hypothesis (HW : WF s ls) (Hij : i <> j) (Hbu : bud s = None).
Hypothesis (Oi : Own s i vi li) (Oj : Own s j vj lj).

Lemma two_facts : nth_error (objs s) i = Some vi /\ nth_error (objs s) j = Some vj /\ data vi <> data vj /\
  data vi <> j /\ data vj <> i /\ (i < length (objs s))%nat /\ (j < length (objs s))%nat /\
  length (objs s) = length ls /\ (length (objs s) <= length (mem s))%nat.
Proof.
  destruct (Own_lt N M _ _ _ _ Oi) as (I1 & I2 & I3). destruct (Own_lt N M _ _ _ _ Oj) as (J1 & J2 & J3).
  assert (Hvi : nth_error (objs s) i = Some vi) by apply Oi. assert (Hvj : nth_error (objs s) j = Some vj) by apply Oj.
  assert (Hdd : data vi <> data vj) by (eapply WF_data_neq; [exact HW|exact Hij|assumption|assumption]).
  assert (Wl : length (objs s) = length ls) by apply HW.
  do 3 (split; [assumption|]).
  destruct Oi as (_ & _ & _ & _ & Hk & _ & Hd1). destruct Oj as (_ & _ & _ & _ & _ & _ & Hd2).
  repeat split; try assumption; [destruct Hd1 as [[E _]|(E & _)]; lia|destruct Hd2 as [[E _]|(E & _)]; lia].
Qed.

(** both on the heap *)
Lemma swap_hh : data vi <> i -> data vj <> j ->
  ok (swap_heap_with_heap i j) s
     (fun _ s' => WF s' (set_nth (set_nth ls i lj) j li) /\ bud s' = None /\ mem s' = mem s /\
        nth_error (objs s') i = Some vj /\ nth_error (objs s') j = Some vi /\
        (forall k, k <> i -> k <> j -> nth_error (objs s') k = nth_error (objs s) k)).
Proof.
  intros Ni Nj. destruct two_facts as (Hvi & Hvj & Hdd & H1 & H2 & H3 & H4 & H5 & H6).
  unfold swap_heap_with_heap. eapply sat_getv; [exact Hvi|]. eapply sat_getv; [exact Hvj|].
  apply sat_bind. eapply sat_eq; [reflexivity|]. eapply sat_eq; [reflexivity|]. cbn [mem objs bud].
  set (s' := State (mem s) (set_nth (set_nth (objs s) i vj) j vi) (bud s)).
  assert (No : forall k, nth_error (objs s') k = if Nat.eqb j k then Some vi else if Nat.eqb i k then Some vj else nth_error (objs s) k).
  { intros k. unfold s'; cbn [objs]. rewrite !nth_set_nth, len_set_nth.
    destruct (Nat.ltb_spec i (length (objs s))); [|lia]. destruct (Nat.ltb_spec j (length (objs s))); [|lia]. rewrite !andb_true_r. reflexivity. }
  assert (Lo : length (objs s') = length (objs s)) by (unfold s'; cbn [objs]; rewrite !len_set_nth; reflexivity).
  assert (Lm : length (mem s') = length (mem s)) by reflexivity.
  assert (Xi : nth_error (objs s') i = Some vj) by (rewrite No; destruct (Nat.eqb_spec j i); [congruence|]; rewrite Nat.eqb_refl; reflexivity).
  assert (Xj : nth_error (objs s') j = Some vi) by (rewrite No, Nat.eqb_refl; reflexivity).
  destruct Oi as (Hoi & Hsi & Hli & Hmi & Hki & Hbi & [[X _]|(Y1 & Y2 & Y3)]); [contradiction|].
  destruct Oj as (Hoj & Hsj & Hlj & Hmj & Hkj & Hbj & [[X _]|(Z1 & Z2 & Z3)]); [contradiction|].
  assert (Oi' : Own s' i vj lj).
  { split; [exact Xi|]. do 3 (split; [assumption|]). split; [lia|]. split; [exact Hbj|]. right. rewrite Lo. auto. }
  assert (Oj' : Own s' j vi li).
  { split; [exact Xj|]. do 3 (split; [assumption|]). split; [lia|]. split; [exact Hbi|]. right. rewrite Lo. auto. }
  assert (Fk : (forall k, k <> i -> k <> j -> nth_error (objs s') k = nth_error (objs s) k)) by (intros k K1 K2; rewrite No; destruct (Nat.eqb_spec j k); [congruence|]; destruct (Nat.eqb_spec i k); [congruence|reflexivity]).
  split; [|auto].
  eapply (WF_step2 N M s ls i j vi vj) with (1 := HW) (2 := Hij) (3 := Hvi) (4 := Hvj) (5 := Oi') (6 := Oj'); auto.
  - intros b c Hb [E|E] _; auto.
Qed.

(** i on the heap, j internal *)
Lemma swap_hi : data vi <> i -> data vj = j -> (N <= M)%nat ->
  ok (swap_heap_with_internal mv nothrow_move copyable i j) s
     (fun _ s' => WF s' (set_nth (set_nth ls i lj) j li) /\ bud s' = None /\
        nth_error (objs s') j = Some vi /\ (exists v', nth_error (objs s') i = Some v' /\ data v' = i) /\
        (forall k, k <> i -> k <> j -> nth_error (objs s') k = nth_error (objs s) k)).
Proof.
  intros Ni Nj HNM. destruct two_facts as (Hvi & Hvj & Hdd & H1 & H2 & H3 & H4 & H5 & H6).
  destruct (Own_lt N M _ _ _ _ Oi) as (I1 & I2 & I3). destruct (Own_lt N M _ _ _ _ Oj) as (J1 & J2 & J3).
  destruct Oi as (Hoi & Hsi & Hli & Hmi & Hki & Hbi & [[X _]|(Y1 & Y2 & Y3)]); [contradiction|].
  destruct Oj as (Hoj & Hsj & Hlj & Hmj & Hkj & Hbj & [[_ Hcj]|(Z1 & Z2 & Z3)]); [|lia].
  unfold swap_heap_with_internal. eapply sat_getv; [exact Hvi|]. eapply sat_getv; [exact Hvj|].
  rewrite Nj, Hcj in *. rewrite Hsj. apply sat_bind.
  eapply (umc_sat mv nothrow_move copyable lj) with (p1 := []) (q1 := raws (N - length lj)) (p2 := []) (q2 := raws (N - length lj));
    [auto|reflexivity|reflexivity|exact Hbj| | |].
  { cbn [app]. rewrite <- raws_split by lia. exact Y3. }
  2: { intros ys Hn _ _. apply Hn. exact Hbu. }
  intros g ys Hg Hly. assert (g = None) as -> by (apply Hg; exact Hbu). cbn [app].
  apply sat_bind.
  replace (destroy_range (j, 0%nat) (length lj)) with (@destroy_range A (j, 0%nat) (length ys)) by congruence.
  eapply sat_eq.
  { apply (destroy_range_eq ys) with (pre := []) (post := raws (N - length lj)); [|reflexivity].
    change (blk (upd (upd s j (lives ys ++ raws (N - length lj))) i (lives lj ++ raws (N - length lj))) j
      = Some (lives ys ++ raws (N - length lj))).
    rewrite blk_upd_neq by auto. eapply blk_upd_eq; exact Hbj. }
  cbn [app]. rewrite Hly, <- raws_split by lia.
  apply sat_bind. eapply sat_eq; [reflexivity|]. eapply sat_eq; [reflexivity|]. cbn [mem objs bud VecModel.with_bud VecModel.upd].
  replace (Vec (data vi) (cap vi) (size vi)) with vi by (destruct vi; reflexivity).
  match goal with |- WF ?S _ /\ _ => set (s' := S) end.
  assert (Bl : forall b, blk s' b = if Nat.eqb b j then Some (raws N) else if Nat.eqb b i then Some (lives lj ++ raws (N - length lj)) else blk s b).
  { intros b. change (blk (upd (upd (upd s j (lives ys ++ raws (N - length lj))) i (lives lj ++ raws (N - length lj))) j (raws N)) b
      = if Nat.eqb b j then Some (raws N) else if Nat.eqb b i then Some (lives lj ++ raws (N - length lj)) else blk s b).
    rewrite !blk_upd, !len_upd. destruct (Nat.ltb_spec i (length (mem s))); [|lia]. destruct (Nat.ltb_spec j (length (mem s))); [|lia].
    rewrite !andb_true_r, (Nat.eqb_sym j b), (Nat.eqb_sym i b). destruct (Nat.eqb_spec b j); [reflexivity|]. reflexivity. }
  assert (No : forall k, nth_error (objs s') k = if Nat.eqb i k then Some (Vec i N (length lj)) else if Nat.eqb j k then Some vi else nth_error (objs s) k).
  { intros k. unfold s'; cbn [objs]. rewrite !nth_set_nth, len_set_nth.
    destruct (Nat.ltb_spec i (length (objs s))); [|lia]. destruct (Nat.ltb_spec j (length (objs s))); [|lia]. rewrite !andb_true_r. reflexivity. }
  assert (Lo : length (objs s') = length (objs s)) by (unfold s'; cbn [objs]; rewrite !len_set_nth; reflexivity).
  assert (Lm : length (mem s') = length (mem s)) by (unfold s'; cbn [mem]; rewrite !len_set_nth; reflexivity).
  assert (Xi : nth_error (objs s') i = Some (Vec i N (length lj))) by (rewrite No, Nat.eqb_refl; reflexivity).
  assert (Xj : nth_error (objs s') j = Some vi) by (rewrite No; destruct (Nat.eqb_spec i j); [congruence|]; rewrite Nat.eqb_refl; reflexivity).
  assert (Oi' : Own s' i (Vec i N (length lj)) lj).
  { split; [exact Xi|]. cbn [size cap data]. split; [reflexivity|]. split; [lia|]. split; [lia|]. split; [lia|].
    split; [rewrite Bl; destruct (Nat.eqb_spec i j); [congruence|]; rewrite Nat.eqb_refl; reflexivity|]. left. auto. }
  assert (Oj' : Own s' j vi li).
  { split; [exact Xj|]. do 3 (split; [assumption|]). split; [lia|].
    split; [rewrite Bl; destruct (Nat.eqb_spec (data vi) j); [congruence|]; destruct (Nat.eqb_spec (data vi) i); [congruence|exact Hbi]|].
    right. rewrite Lo. split; [assumption|]. split; [assumption|]. rewrite Bl, Nat.eqb_refl. reflexivity. }
  split; [|split; [reflexivity|split; [exact Xj|split; [eexists; split; [exact Xi|reflexivity]|intros k K1 K2; rewrite No; destruct (Nat.eqb_spec i k); [congruence|]; destruct (Nat.eqb_spec j k); [congruence|reflexivity]]]]].
  eapply (WF_step2 N M s ls i j vi vj) with (1 := HW) (2 := Hij) (3 := Hvi) (4 := Hvj) (5 := Oi') (6 := Oj'); auto; cbn [data].
  - intros k K1 K2. rewrite No. destruct (Nat.eqb_spec i k); [congruence|]. destruct (Nat.eqb_spec j k); [congruence|reflexivity].
  - intros b N1 N2 N3 N4. rewrite Bl. destruct (Nat.eqb_spec b j); [congruence|]. destruct (Nat.eqb_spec b i); [congruence|reflexivity].
  - intros b c Hb [E|E] _; [auto|lia].
Qed.

(** both internal *)
Lemma swap_ii_end s2 : data vi = i -> data vj = j ->
  s2 = upd (upd s i (lives lj ++ raws (N - length lj))) j (lives li ++ raws (N - length li)) ->
  ok (bindc (set_size i (length lj)) (fun _ => set_size j (length li))) s2
     (fun _ s' => WF s' (set_nth (set_nth ls i lj) j li) /\ bud s' = None /\
        nth_error (objs s') i = Some (Vec i N (length lj)) /\ nth_error (objs s') j = Some (Vec j N (length li)) /\
        (forall k, k <> i -> k <> j -> nth_error (objs s') k = nth_error (objs s) k)).
Proof.
  intros Ni Nj ->. destruct two_facts as (Hvi & Hvj & Hdd & H1 & H2 & H3 & H4 & H5 & H6).
  destruct (Own_lt N M _ _ _ _ Oi) as (I1 & I2 & I3). destruct (Own_lt N M _ _ _ _ Oj) as (J1 & J2 & J3).
  destruct Oi as (Hoi & Hsi & Hli & Hmi & Hki & Hbi & [[_ Hci]|(Y1 & Y2 & Y3)]); [|lia].
  destruct Oj as (Hoj & Hsj & Hlj & Hmj & Hkj & Hbj & [[_ Hcj]|(Z1 & Z2 & Z3)]); [|lia].
  apply sat_bind. eapply sat_eq; [apply set_size_eq with (v := vi); exact Hvi|].
  eapply sat_eq; [apply set_size_eq with (v := vj); cbn [objs VecModel.upd]; rewrite nth_set_nth; destruct (Nat.eqb_spec i j); [contradiction|exact Hvj]|].
  cbn [mem objs bud VecModel.upd]. rewrite Ni, Nj, Hci, Hcj in *.
  match goal with |- WF ?S _ /\ _ => set (s' := S) end.
  assert (Bl : forall b, blk s' b = if Nat.eqb b j then Some (lives li ++ raws (N - length li)) else if Nat.eqb b i then Some (lives lj ++ raws (N - length lj)) else blk s b).
  { intros b. change (blk (upd (upd s i (lives lj ++ raws (N - length lj))) j (lives li ++ raws (N - length li))) b
      = if Nat.eqb b j then Some (lives li ++ raws (N - length li)) else if Nat.eqb b i then Some (lives lj ++ raws (N - length lj)) else blk s b).
    rewrite !blk_upd, !len_upd. destruct (Nat.ltb_spec i (length (mem s))); [|lia]. destruct (Nat.ltb_spec j (length (mem s))); [|lia].
    rewrite !andb_true_r, (Nat.eqb_sym j b), (Nat.eqb_sym i b). reflexivity. }
  assert (No : forall k, nth_error (objs s') k = if Nat.eqb j k then Some (Vec j N (length li)) else if Nat.eqb i k then Some (Vec i N (length lj)) else nth_error (objs s) k).
  { intros k. unfold s'; cbn [objs]. rewrite !nth_set_nth, len_set_nth.
    destruct (Nat.ltb_spec i (length (objs s))); [|lia]. destruct (Nat.ltb_spec j (length (objs s))); [|lia]. rewrite !andb_true_r. reflexivity. }
  assert (Lo : length (objs s') = length (objs s)) by (unfold s'; cbn [objs]; rewrite !len_set_nth; reflexivity).
  assert (Lm : length (mem s') = length (mem s)) by (unfold s'; cbn [mem]; rewrite !len_set_nth; reflexivity).
  assert (Xj : nth_error (objs s') j = Some (Vec j N (length li))) by (rewrite No, Nat.eqb_refl; reflexivity).
  assert (Xi : nth_error (objs s') i = Some (Vec i N (length lj))) by (rewrite No; destruct (Nat.eqb_spec j i); [congruence|]; rewrite Nat.eqb_refl; reflexivity).
  assert (Oi' : Own s' i (Vec i N (length lj)) lj).
  { split; [exact Xi|]. cbn [size cap data]. split; [reflexivity|]. split; [lia|]. split; [lia|]. split; [lia|].
    split; [rewrite Bl; destruct (Nat.eqb_spec i j); [congruence|]; rewrite Nat.eqb_refl; reflexivity|]. left. auto. }
  assert (Oj' : Own s' j (Vec j N (length li)) li).
  { split; [exact Xj|]. cbn [size cap data]. split; [reflexivity|]. split; [lia|]. split; [lia|]. split; [lia|].
    split; [rewrite Bl, Nat.eqb_refl; reflexivity|]. left. auto. }
  assert (Fk : (forall k, k <> i -> k <> j -> nth_error (objs s') k = nth_error (objs s) k)) by (intros k K1 K2; rewrite No; destruct (Nat.eqb_spec j k); [congruence|]; destruct (Nat.eqb_spec i k); [congruence|reflexivity]).
  split; [|auto].
  eapply (WF_step2 N M s ls i j vi vj) with (1 := HW) (2 := Hij) (3 := Hvi) (4 := Hvj) (5 := Oi') (6 := Oj'); auto; cbn [data].
  - intros b N1 N2 N3 N4. rewrite Bl. destruct (Nat.eqb_spec b j); [congruence|]. destruct (Nat.eqb_spec b i); [congruence|reflexivity].
  - intros b c Hb [E|E] _; lia.
Qed.
Lemma lives_parts (l : list A) n : lives l = lives (firstn n l) ++ lives (skipn n l).
Proof. rewrite <- map_app, firstn_skipn. reflexivity. Qed.
Lemma raws_parts a b c : (b <= a)%nat -> (c <= b)%nat -> raws (a - c) = raws (b - c) ++ raws (a - b).
Proof. intros. rewrite <- raws_add. f_equal. lia. Qed.
Lemma swap_ii : data vi = i -> data vj = j ->
  ok (swap_internal_with_internal mv nothrow_move copyable i j) s
     (fun _ s' => WF s' (set_nth (set_nth ls i lj) j li) /\ bud s' = None /\
        nth_error (objs s') i = Some (Vec i N (length lj)) /\ nth_error (objs s') j = Some (Vec j N (length li)) /\
        (forall k, k <> i -> k <> j -> nth_error (objs s') k = nth_error (objs s) k)).
Proof.
  intros Ni Nj. destruct two_facts as (Hvi & Hvj & Hdd & H1 & H2 & H3 & H4 & H5 & H6).
  pose proof (swap_ii_end _ Ni Nj eq_refl) as Hend.
  destruct Oi as (Hoi & Hsi & Hli & Hmi & Hki & Hbi & [[_ Hci]|(Y1 & Y2 & Y3)]); [|lia].
  destruct Oj as (Hoj & Hsj & Hlj & Hmj & Hkj & Hbj & [[_ Hcj]|(Z1 & Z2 & Z3)]); [|lia].
  unfold swap_internal_with_internal. eapply sat_getv; [exact Hvi|]. eapply sat_getv; [exact Hvj|].
  rewrite Hsi, Hsj, Ni, Nj, Hci, Hcj in *. apply sat_bind.
  destruct (Nat.leb_spec (length li) (length lj)) as [L|L].
  - set (k := length li) in *. apply sat_bind.
    assert (Lf : length (firstn k lj) = k) by (rewrite firstn_length; lia).
    assert (Lk : length (skipn k lj) = (length lj - k)%nat) by apply skipn_length.
    eapply sat_eq.
    { apply swap_elements_eq with (ys := firstn k lj) (p1 := []) (p2 := []) (q1 := raws (N - k)) (q2 := lives (skipn k lj) ++ raws (N - length lj));
        [assumption|assumption|lia|reflexivity|reflexivity|exact Hbi|].
      rewrite Hbj. cbn [app]. rewrite app_assoc, <- lives_parts. reflexivity. }
    cbn [app]. apply sat_bind. rewrite <- Lk.
    eapply (umc_sat mv nothrow_move copyable (skipn k lj)) with (p1 := lives li) (q1 := raws (N - length lj)) (p2 := lives (firstn k lj)) (q2 := raws (N - length lj));
      [auto|rewrite len_lives; reflexivity|rewrite len_lives; lia| | | |].
    { eapply blk_upd_eq. rewrite blk_upd_neq by auto. exact Hbj. }
    { rewrite blk_upd_neq by auto. erewrite blk_upd_eq by exact Hbi. rewrite Lk, <- raws_parts by lia. reflexivity. }
    2: { intros ys Hn _ _. apply Hn. exact Hbu. }
    intros g ys Hg Hly. assert (g = None) as -> by (apply Hg; exact Hbu).
    rewrite <- Hly. eapply sat_eq.
    { apply (destroy_range_eq ys) with (pre := lives li) (post := raws (N - length lj)); [|rewrite len_lives; reflexivity].
      change (blk (upd (upd (upd (upd s i (lives (firstn k lj) ++ raws (N - k))) j (lives li ++ lives (skipn k lj) ++ raws (N - length lj)))
         j (lives li ++ lives ys ++ raws (N - length lj))) i (lives (firstn k lj) ++ lives (skipn k lj) ++ raws (N - length lj))) j
        = Some (lives li ++ lives ys ++ raws (N - length lj))).
      rewrite blk_upd_neq by auto. eapply blk_upd_eq. eapply blk_upd_eq. rewrite blk_upd_neq by auto. exact Hbj. }
    rewrite Hly, Lk, <- raws_parts by lia. rewrite (app_assoc (lives (firstn k lj))), <- lives_parts.
    match goal with |- sat _ ?S _ _ => replace S with (upd (upd s i (lives lj ++ raws (N - length lj))) j (lives li ++ raws (N - k))); [exact Hend|] end.
    unfold VecModel.with_bud, VecModel.upd; cbn [mem objs bud]. rewrite Hbu. f_equal. set_list.
  - set (k := length lj) in *. apply sat_bind.
    assert (Lf : length (firstn k li) = k) by (rewrite firstn_length; lia).
    assert (Lk : length (skipn k li) = (length li - k)%nat) by apply skipn_length.
    replace (swap_elements mv nothrow_move (i, 0%nat) (j, 0%nat) k) with (swap_elements mv nothrow_move (i, 0%nat) (j, 0%nat) (length (firstn k li))) by congruence.
    eapply sat_eq.
    { apply swap_elements_eq with (ys := lj) (p1 := []) (p2 := []) (q1 := lives (skipn k li) ++ raws (N - length li)) (q2 := raws (N - k));
        [assumption|assumption|lia|reflexivity|reflexivity| |exact Hbj].
      rewrite Hbi. cbn [app]. rewrite app_assoc, <- lives_parts. reflexivity. }
    cbn [app]. apply sat_bind. rewrite <- Lk.
    eapply (umc_sat mv nothrow_move copyable (skipn k li)) with (p1 := lives lj) (q1 := raws (N - length li)) (p2 := lives (firstn k li)) (q2 := raws (N - length li));
      [auto|rewrite len_lives; reflexivity|rewrite len_lives; lia| | | |].
    { rewrite blk_upd_neq by auto. eapply blk_upd_eq. exact Hbi. }
    { erewrite blk_upd_eq; [|rewrite blk_upd_neq by auto; exact Hbj]. rewrite Lk, <- raws_parts by lia. reflexivity. }
    2: { intros ys Hn _ _. apply Hn. exact Hbu. }
    intros g ys Hg Hly. assert (g = None) as -> by (apply Hg; exact Hbu).
    rewrite <- Hly. eapply sat_eq.
    { apply (destroy_range_eq ys) with (pre := lives lj) (post := raws (N - length li)); [|rewrite len_lives; reflexivity].
      change (blk (upd (upd (upd (upd s i (lives lj ++ lives (skipn k li) ++ raws (N - length li))) j (lives (firstn k li) ++ raws (N - k)))
         i (lives lj ++ lives ys ++ raws (N - length li))) j (lives (firstn k li) ++ lives (skipn k li) ++ raws (N - length li))) i
        = Some (lives lj ++ lives ys ++ raws (N - length li))).
      rewrite blk_upd_neq by auto. eapply blk_upd_eq. rewrite blk_upd_neq by auto. eapply blk_upd_eq. exact Hbi. }
    rewrite Hly, Lk, <- raws_parts by lia. rewrite (app_assoc (lives (firstn k li))), <- lives_parts.
    match goal with |- sat _ ?S _ _ => replace S with (upd (upd s i (lives lj ++ raws (N - k))) j (lives li ++ raws (N - length li))); [exact Hend|] end.
    unfold VecModel.with_bud, VecModel.upd; cbn [mem objs bud]. rewrite Hbu. f_equal.
    set_list.
Qed.
End Two.
End Vec.
