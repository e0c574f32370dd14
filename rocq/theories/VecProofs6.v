(** Several SmallVectors: separation, copying, moving, swapping. *)
From Verif Require Import Base VecModel VecProofs VecProofs2 VecProofs3 VecProofs4 VecProofs5.
From Coq Require Import PeanoNat.

Section Vec.
Context {A : Type} (d : A) (mv : A -> A) (nothrow_move copyable : bool) (N M : nat).
Notation state := (@state A).
Notation comp := (@comp A).
Notation cell := (@cell A).
Notation Live := (@Live A).
Notation Raw := (@Raw A).
Notation blk := (@blk A).
Notation upd := (@upd A).
Notation with_bud := (@with_bud A).
Notation lives := (map Live).
Notation raws := (repeat Raw).
Notation reserve := (reserve mv nothrow_move copyable).
Notation grow := (grow mv nothrow_move copyable M).
Notation push_back := (push_back mv nothrow_move copyable M).
Notation Own := (Own (A := A) N M).
Notation FR := (FR (A := A)).
Notation Exc := (Exc (A := A) nothrow_move copyable N M).
Implicit Types s : state.
Implicit Types l : list A.

Ltac openO H := destruct H as (Ho & Hs & Hl & Hm & Hk & Hb & Hd).
Notation Post := (Post (A := A) N M).
Notation ok m s Q := (sat m s Q (fun _ _ => False)).

(** Vectors 0, 1, ... hold the sequences ls, they do not share memory, and every block on the
    heap belongs to one of them. *)
Definition WF s (ls : list (list A)) : Prop :=
  length (objs s) = length ls /\ (length ls <= length (mem s))%nat /\
  (forall i l, nth_error ls i = Some l -> exists v, Own s i v l) /\
  (forall i j vi vj, i <> j -> nth_error (objs s) i = Some vi -> nth_error (objs s) j = Some vj -> data vi <> data vj) /\
  (forall b c, (length ls <= b)%nat -> blk s b = Some c -> exists i v, nth_error (objs s) i = Some v /\ data v = b).
Lemma WF_own s ls i l : WF s ls -> nth_error ls i = Some l -> exists v, Own s i v l.
Proof. intros (_ & _ & H & _). apply H. Qed.
Lemma WF_nth s ls i v : WF s ls -> nth_error (objs s) i = Some v -> exists l, Own s i v l /\ nth_error ls i = Some l.
Proof.
  intros (H1 & H2 & H3 & _) Hv. assert (i < length ls)%nat by (rewrite <- H1; apply nth_error_Some; congruence).
  destruct (nth_error ls i) as [l|] eqn:E; [|apply nth_error_None in E; lia].
  exists l. split; [|reflexivity]. destruct (H3 i l E) as (v' & O). replace v with v'; [exact O|].
  destruct O as (Ho & _). congruence.
Qed.
(** Two of the vectors have changed *)
Lemma WF_step2 s ls i j vi vj s' vi' vj' li lj :
  WF s ls -> i <> j -> nth_error (objs s) i = Some vi -> nth_error (objs s) j = Some vj ->
  Own s' i vi' li -> Own s' j vj' lj ->
  length (objs s') = length (objs s) -> (forall k, k <> i -> k <> j -> nth_error (objs s') k = nth_error (objs s) k) ->
  length (mem s') = length (mem s) ->
  (forall b, b <> i -> b <> j -> b <> data vi -> b <> data vj -> blk s' b = blk s b) ->
  data vi' <> data vj' ->
  (data vi' = i \/ data vi' = j \/ data vi' = data vi \/ data vi' = data vj) ->
  (data vj' = i \/ data vj' = j \/ data vj' = data vi \/ data vj' = data vj) ->
  (forall b c, (length ls <= b)%nat -> b = data vi \/ b = data vj -> blk s' b = Some c -> b = data vi' \/ b = data vj') ->
  WF s' (set_nth (set_nth ls i li) j lj).
Proof.
  intros HW Hij Hvi Hvj Oi Oj Lo Fo Lm Fb Hdd Di Dj Hfr. pose proof HW as HW0.
  destruct HW as (W1 & W2 & W3 & W4 & W5).
  assert (Ii : (i < length ls)%nat) by (rewrite <- W1; apply nth_error_Some; congruence).
  assert (Ij : (j < length ls)%nat) by (rewrite <- W1; apply nth_error_Some; congruence).
  destruct (WF_nth s ls i vi HW0 Hvi) as (li0 & Oi0 & _). destruct (WF_nth s ls j vj HW0 Hvj) as (lj0 & Oj0 & _).
  assert (Hsmall : forall k vk, nth_error (objs s) k = Some vk -> (data vk < length ls)%nat -> data vk = k).
  { intros k vk Hk Hlt. destruct (WF_nth s ls k vk HW0 Hk) as (lk & Ok & _). destruct Ok as (_ & _ & _ & _ & _ & _ & [[E _]|(E & _)]); [exact E|lia]. }
  assert (Hoth : forall k vk, k <> i -> k <> j -> nth_error (objs s) k = Some vk ->
     data vk <> i /\ data vk <> j /\ data vk <> data vi /\ data vk <> data vj).
  { intros k vk K1 K2 Hk. split; [intros E; rewrite <- (Hsmall k vk Hk) in K1; [congruence|lia]|].
    split; [intros E; rewrite <- (Hsmall k vk Hk) in K2; [congruence|lia]|].
    split; [eapply W4; [|exact Hk|exact Hvi]; assumption|eapply W4; [|exact Hk|exact Hvj]; assumption]. }
  assert (Nk : forall k vk, k <> i -> k <> j -> nth_error (objs s') k = Some vk -> data vk <> data vi' /\ data vk <> data vj').
  { intros k vk K1 K2 Hk. rewrite Fo in Hk by assumption. destruct (Hoth k vk K1 K2 Hk) as (X1 & X2 & X3 & X4).
    split; [destruct Di as [->|[->|[->| ->]]]; assumption|destruct Dj as [->|[->|[->| ->]]]; assumption]. }
  assert (Hvi' : nth_error (objs s') i = Some vi') by apply Oi.
  assert (Hvj' : nth_error (objs s') j = Some vj') by apply Oj.
  split; [rewrite !len_set_nth; lia|]. split; [rewrite !len_set_nth; lia|].
  split; [|split].
  - intros k l Hk. rewrite nth_set_nth, len_set_nth in Hk. destruct (Nat.eqb_spec j k) as [<-|Kj].
    { destruct (Nat.ltb_spec j (length ls)); [|lia]. cbn [andb] in Hk. injection Hk as <-. exists vj'. exact Oj. }
    cbn [andb] in Hk. rewrite nth_set_nth in Hk. destruct (Nat.eqb_spec i k) as [<-|Ki].
    { destruct (Nat.ltb_spec i (length ls)); [|lia]. cbn [andb] in Hk. injection Hk as <-. exists vi'. exact Oi. }
    cbn [andb] in Hk. destruct (W3 k l Hk) as (v & O). exists v.
    destruct (Own_lt N M _ _ _ _ O) as (J1 & J2 & J3).
    destruct O as (Ho & Hs & Hl & Hm & Hk' & Hb & Hd). destruct (Hoth k v) as (X1 & X2 & X3 & X4); auto.
    split; [rewrite Fo by auto; exact Ho|]. do 3 (split; [assumption|]). split; [lia|].
    split; [rewrite Fb by auto; exact Hb|]. rewrite Lo. destruct Hd as [Hd|(E1 & E2 & E3)]; [left; exact Hd|right].
    split; [assumption|]. split; [assumption|]. rewrite Fb; auto.
    + intros E. apply Ki. symmetry. rewrite E. apply Hsmall; [assumption|lia].
    + intros E. apply Kj. symmetry. rewrite E. apply Hsmall; [assumption|lia].
  - intros k1 k2 v1 v2 Hne H1 H2. destruct (Nat.eq_dec k1 i) as [->|A1].
    { rewrite Hvi' in H1. injection H1 as <-. destruct (Nat.eq_dec k2 j) as [->|B1].
      - rewrite Hvj' in H2. injection H2 as <-. exact Hdd.
      - destruct (Nk k2 v2) as [X _]; auto. }
    destruct (Nat.eq_dec k1 j) as [->|A2].
    { rewrite Hvj' in H1. injection H1 as <-. destruct (Nat.eq_dec k2 i) as [->|B1].
      - rewrite Hvi' in H2. injection H2 as <-. auto.
      - destruct (Nk k2 v2) as [_ X]; auto. }
    destruct (Nat.eq_dec k2 i) as [->|B1]; [rewrite Hvi' in H2; injection H2 as <-; eapply Nk; [exact A1|exact A2|eassumption]|].
    destruct (Nat.eq_dec k2 j) as [->|B2]; [rewrite Hvj' in H2; injection H2 as <-; eapply Nk; [exact A1|exact A2|eassumption]|].
    rewrite Fo in H1, H2 by assumption. exact (W4 k1 k2 v1 v2 Hne H1 H2).
  - intros b c Hb Hc. rewrite !len_set_nth in Hb.
    destruct (Nat.eq_dec b (data vi)) as [Ei|Ei]; [|destruct (Nat.eq_dec b (data vj)) as [Ej|Ej]].
    + destruct (Hfr b c Hb (or_introl Ei) Hc) as [->| ->]; eauto.
    + destruct (Hfr b c Hb (or_intror Ej) Hc) as [->| ->]; eauto.
    + rewrite Fb in Hc by (auto; lia). destruct (W5 b c Hb Hc) as (k & v & Hk & E).
      destruct (Nat.eq_dec k i) as [->|A1]; [congruence|]. destruct (Nat.eq_dec k j) as [->|A2]; [congruence|].
      exists k, v. split; [|exact E]. rewrite Fo; auto.
Qed.
(** One of the vectors has changed *)
Lemma WF_step1 s ls i s' v' l' : WF s ls -> FR i s s' -> Own s' i v' l' -> WF s' (set_nth ls i l').
Proof.
  intros HW HF O'. pose proof HW as HW0. pose proof HF as HF0.
  destruct HF as (_ & Lo & Fo & Lm & v & v'' & Hv & Hv'' & Hi & Hdl & U & D & F & NN).
  assert (v'' = v') as -> by (destruct O' as (O' & _); congruence). clear Hv''.
  destruct HW as (W1 & W2 & W3 & W4 & W5).
  assert (Ii : (i < length ls)%nat) by (rewrite <- W1; apply nth_error_Some; congruence).
  assert (Hsmall : forall k vk, nth_error (objs s) k = Some vk -> (data vk < length ls)%nat -> data vk = k).
  { intros k vk Hk Hlt. destruct (WF_nth s ls k vk HW0 Hk) as (lk & Ok & _). destruct Ok as (_ & _ & _ & _ & _ & _ & [[E _]|(E & _)]); [exact E|lia]. }
  assert (Nk : forall k vk, k <> i -> nth_error (objs s') k = Some vk -> data vk <> data v').
  { intros k vk K Hk. rewrite Fo in Hk by assumption. destruct (WF_nth s ls k vk HW0 Hk) as (lk & Ok & _).
    destruct (Own_lt N M _ _ _ _ Ok) as (J1 & J2 & J3). destruct D as [->|[->|D]].
    - intros E. apply K. rewrite <- E. symmetry. apply Hsmall; [assumption|lia].
    - eapply W4; [|exact Hk|exact Hv]; assumption.
    - lia. }
  assert (Hv' : nth_error (objs s') i = Some v') by apply O'.
  split; [rewrite len_set_nth; lia|]. split; [rewrite len_set_nth; lia|]. split; [|split].
  - intros k l Hk. rewrite nth_set_nth in Hk. destruct (Nat.eqb_spec i k) as [<-|Ki].
    { destruct (Nat.ltb_spec i (length ls)); [|lia]. cbn [andb] in Hk. injection Hk as <-. exists v'. exact O'. }
    cbn [andb] in Hk. destruct (W3 k l Hk) as (vk & Ok). exists vk.
    destruct (WF_nth s ls i v HW0 Hv) as (l0 & Oi & _).
    eapply Own_frame; [exact Oi|exact Ok|exact HF0|exact Ki|].
    apply (W4 i k v vk Ki Hv). apply Ok.
  - intros k1 k2 v1 v2 Hne H1 H2. destruct (Nat.eq_dec k1 i) as [->|A1].
    { rewrite Hv' in H1. injection H1 as <-. intros E. exact (Nk k2 v2 (not_eq_sym Hne) H2 (eq_sym E)). }
    destruct (Nat.eq_dec k2 i) as [->|B1].
    { rewrite Hv' in H2. injection H2 as <-. exact (Nk k1 v1 Hne H1). }
    rewrite Fo in H1, H2 by assumption. exact (W4 k1 k2 v1 v2 Hne H1 H2).
  - intros b c Hb Hc. rewrite len_set_nth in Hb.
    destruct (Nat.eq_dec b (data v')) as [E|E]; [eauto|].
    destruct (Nat.lt_ge_cases b (length (mem s))) as [L|L].
    + destruct (Nat.eq_dec b (data v)) as [E2|E2].
      * rewrite E2, F in Hc; [discriminate Hc|lia|congruence].
      * rewrite U in Hc by (auto; lia). destruct (W5 b c Hb Hc) as (k & vk & Hk & Ek).
        destruct (Nat.eq_dec k i) as [->|K]; [congruence|]. exists k, vk. split; [rewrite Fo; auto|exact Ek].
    + rewrite NN in Hc by assumption. discriminate Hc.
Qed.

Lemma set_nth_id ls i (l : list A) : nth_error ls i = Some l -> set_nth ls i l = ls.
Proof. apply set_same. Qed.

(** Taking over the elements of vector j after vector i has been destroyed *)
Lemma WF_data_neq s ls i j vi vj : WF s ls -> i <> j -> nth_error (objs s) i = Some vi -> nth_error (objs s) j = Some vj -> data vi <> data vj.
Proof. intros (_ & _ & _ & W & _). apply W. Qed.
Lemma move_after_reset s ls i j vi vj li lj x : WF s ls -> nth_error ls i = Some li -> nth_error ls j = Some lj -> i <> j ->
  bud s = None -> (N <= M)%nat -> Own s i vi li -> Own s j vj lj ->
  ok (move_all_from mv nothrow_move copyable N i j) (State (mem (reset_state s i vi)) (set_nth (objs s) i x) (bud s))
     (fun _ s' => WF s' (set_nth (set_nth ls i lj) j []) /\ bud s' = None /\
        (data vj <> j -> nth_error (objs s') i = Some vj) /\
        (data vj = j -> exists v', nth_error (objs s') i = Some v' /\ data v' = i) /\
        (exists v', nth_error (objs s') j = Some v' /\ data v' = j) /\
        (forall k, k <> i -> k <> j -> nth_error (objs s') k = nth_error (objs s) k)).
Proof.
  intros HW Hi Hj Hij Hbu HNM Oi Oj.
  pose proof (blk_reset N M s i vi li) as B. specialize (fun b => B b Oi).
  destruct (Own_lt N M _ _ _ _ Oi) as (I1 & I2 & I3). destruct (Own_lt N M _ _ _ _ Oj) as (J1 & J2 & J3).
  assert (Hvi : nth_error (objs s) i = Some vi) by apply Oi. assert (Hvj : nth_error (objs s) j = Some vj) by apply Oj.
  assert (Hdd : data vi <> data vj) by (eapply WF_data_neq; [exact HW|exact Hij|assumption|assumption]).
  pose proof Oj as Oj'. destruct Oj' as (Ho & Hs & Hl & Hm & Hk & Hb & Hd).
  assert (Wl : length (objs s) = length ls) by apply HW.
  assert (Hdi : (length ls <= data vi)%nat \/ data vi = i).
  { destruct Oi as (_ & _ & _ & _ & _ & _ & [[E _]|(E & _)]); [auto|left; lia]. }
  assert (Hjd : j <> data vi) by lia.
  assert (Hdji : data vj <> i) by (destruct Hd as [[E _]|(E & _)]; lia).
  assert (Lr : length (mem (reset_state s i vi)) = length (mem s)) by apply len_reset.
  set (s1 := State (mem (reset_state s i vi)) (set_nth (objs s) i x) (bud s)).
  assert (B1 : forall b, blk s1 b = if Nat.eqb b i then Some (raws N) else if Nat.eqb b (data vi) then None else blk s b) by exact B.
  assert (L1 : length (mem s1) = length (mem s)) by exact Lr.
  assert (Hb1 : blk s1 (data vj) = Some (lives lj ++ raws (cap vj - length lj))).
  { rewrite B1. destruct (Nat.eqb_spec (data vj) i); [contradiction|]. destruct (Nat.eqb_spec (data vj) (data vi)); [congruence|exact Hb]. }
  assert (Hi1 : blk s1 i = Some (raws N)) by (rewrite B1, Nat.eqb_refl; reflexivity).
  assert (No : forall y k, nth_error (set_nth (objs s) i y) k = if Nat.eqb i k then Some y else nth_error (objs s) k).
  { intros y k. rewrite nth_set_nth. destruct (Nat.eqb_spec i k); cbn [andb]; [|reflexivity].
    destruct (Nat.ltb_spec i (length (objs s))); [reflexivity|lia]. }
  unfold move_all_from. eapply sat_getv with (v := vj).
  { unfold s1; cbn [objs]. rewrite No. destruct (Nat.eqb_spec i j); [contradiction|exact Ho]. }
  unfold allocated. destruct (Nat.eqb_spec (data vj) j) as [Ej|Ej]; cbn [negb].
  - (* internal array *)
    destruct Hd as [[_ Hc]|(X & _)]; [|lia]. rewrite Ej in *.
    eapply sat_getv with (v := x); [unfold s1; cbn [objs]; rewrite No, Nat.eqb_refl; reflexivity|].
    apply sat_bind. eapply sat_eq; [reflexivity|]. cbn [mem objs bud s1]. rewrite set_set.
    set (s2 := State (mem (reset_state s i vi)) (set_nth (objs s) i (Vec i N (size x))) (bud s)).
    apply sat_bind. rewrite Hs.
    eapply (umc_sat mv nothrow_move copyable lj) with (p1 := []) (q1 := raws (cap vj - length lj)) (p2 := []) (q2 := raws (N - length lj));
      [auto|reflexivity|reflexivity|exact Hb1| | |].
    { cbn [app]. rewrite <- raws_split by lia. exact Hi1. }
    2: { intros ys Hn _ _. apply Hn. exact Hbu. }
    intros g ys Hg Hly. assert (g = None) as -> by (apply Hg; exact Hbu). cbn [app].
    apply sat_bind. eapply sat_eq.
    { apply set_size_eq with (v := Vec i N (size x)). cbn [objs VecModel.with_bud VecModel.upd s2]. rewrite No, Nat.eqb_refl. reflexivity. }
    cbn [mem objs bud data cap VecModel.with_bud VecModel.upd s2]. rewrite set_set.
    (* the final state *)
    set (cj := lives ys ++ raws (cap vj - length lj)). set (ci := lives lj ++ raws (N - length lj)).
    set (s3 := State (set_nth (set_nth (mem (reset_state s i vi)) j (Some cj)) i (Some ci)) (set_nth (objs s) i (Vec i N (length lj))) None).
    assert (B3 : forall b, blk s3 b = if Nat.eqb b i then Some ci else if Nat.eqb b j then Some cj else if Nat.eqb b (data vi) then None else blk s b).
    { intros b. change (blk (upd (upd s1 j cj) i ci) b = if Nat.eqb b i then Some ci else if Nat.eqb b j then Some cj else if Nat.eqb b (data vi) then None else blk s b).
      rewrite !blk_upd, len_upd, L1. rewrite (Nat.eqb_sym i b), (Nat.eqb_sym j b). destruct (Nat.ltb_spec i (length (mem s))); [|lia]. destruct (Nat.ltb_spec j (length (mem s))); [|lia].
      rewrite !andb_true_r. destruct (Nat.eqb_spec b i); [reflexivity|]. destruct (Nat.eqb_spec b j); [reflexivity|].
      rewrite B1. destruct (Nat.eqb_spec b i); [contradiction|reflexivity]. }
    assert (L3 : length (mem s3) = length (mem s)) by (unfold s3; cbn [mem]; rewrite !len_set_nth; exact Lr).
    assert (Oj3 : Own s3 j vj ys).
    { split; [unfold s3; cbn [objs]; rewrite No; destruct (Nat.eqb_spec i j); [contradiction|exact Ho]|].
      split; [congruence|]. split; [lia|]. split; [assumption|].
      split; [rewrite L3; unfold s3; cbn [objs]; rewrite len_set_nth; assumption|].
      split; [rewrite B3, Ej; destruct (Nat.eqb_spec j i); [congruence|]; rewrite Nat.eqb_refl; unfold cj; rewrite Hly; reflexivity|].
      left. auto. }
    assert (Oi3 : Own s3 i (Vec i N (length lj)) lj).
    { split; [unfold s3; cbn [objs]; rewrite No, Nat.eqb_refl; reflexivity|]. cbn [size cap data].
      split; [reflexivity|]. split; [lia|]. split; [lia|].
      split; [rewrite L3; unfold s3; cbn [objs]; rewrite len_set_nth; assumption|].
      split; [rewrite B3, Nat.eqb_refl; reflexivity|]. left. auto. }
    eapply sat_eq; [eapply clear_eq; exact Oj3|].
    destruct (clear_own N M _ _ _ _ Oj3) as [Oj4 F4].
    assert (Oi4 : Own (final s3 j vj [] (bud s3)) i (Vec i N (length lj)) lj).
    { eapply Own_frame; [exact Oj3|exact Oi3|exact F4|auto|]. cbn [data]. lia. }
    assert (Fk : forall k, k <> i -> k <> j -> nth_error (objs (final s3 j vj [] (bud s3))) k = nth_error (objs s) k).
    { intros k K1 K2. unfold final, s3; cbn [objs]. rewrite nth_set_nth. destruct (Nat.eqb_spec j k); [congruence|]. cbn [andb].
      rewrite No. destruct (Nat.eqb_spec i k); [congruence|reflexivity]. }
    split; [|split; [reflexivity|split; [contradiction|split; [intros _; eexists; split; [apply Oi4|reflexivity]|split; [eexists; split; [apply Oj4|exact Ej]|exact Fk]]]]].
    eapply (WF_step2 s ls i j vi vj) with (1 := HW) (2 := Hij) (3 := Hvi) (4 := Hvj) (5 := Oi4) (6 := Oj4).
    + unfold final, s3; cbn [objs]. rewrite !len_set_nth. reflexivity.
    + exact Fk.
    + unfold final; cbn [mem]. rewrite len_set_nth. exact L3.
    + intros b N1 N2 N3 N4. rewrite blk_final, Ej. destruct (Nat.eqb_spec j b); [congruence|]. cbn [andb]. rewrite B3.
      destruct (Nat.eqb_spec b i); [congruence|]. destruct (Nat.eqb_spec b j); [congruence|]. destruct (Nat.eqb_spec b (data vi)); [congruence|reflexivity].
    + cbn [data]. lia.
    + cbn [data]. auto.
    + cbn [data]. auto.
    + cbn [data]. intros b c Hbb [E|E] Hc2; [|right; exact E].
      rewrite blk_final in Hc2. destruct (Nat.eqb_spec (data vj) b); [right; congruence|]. cbn [andb] in Hc2. rewrite B3 in Hc2.
      destruct (Nat.eqb_spec b i); [left; assumption|]. destruct (Nat.eqb_spec b j); [congruence|].
      destruct (Nat.eqb_spec b (data vi)); [discriminate Hc2|contradiction].
  - (* heap *)
    destruct Hd as [[X _]|(Y1 & Y2 & Y3)]; [contradiction|].
    apply sat_bind. eapply sat_eq; [reflexivity|]. eapply sat_eq; [reflexivity|]. cbn [mem objs bud s1]. rewrite set_set.
    replace (Vec (data vj) (cap vj) (size vj)) with vj by (destruct vj; reflexivity).
    set (s3 := State (mem (reset_state s i vi)) (set_nth (set_nth (objs s) i vj) j (Vec j N 0)) (bud s)).
    assert (B3 : forall b, blk s3 b = if Nat.eqb b i then Some (raws N) else if Nat.eqb b (data vi) then None else blk s b) by exact B.
    assert (L3 : length (mem s3) = length (mem s)) by exact Lr.
    assert (N3 : forall k, nth_error (objs s3) k = if Nat.eqb j k then Some (Vec j N 0) else if Nat.eqb i k then Some vj else nth_error (objs s) k).
    { intros k. unfold s3; cbn [objs]. rewrite nth_set_nth, len_set_nth, No. destruct (Nat.eqb_spec j k); cbn [andb]; [|reflexivity].
      destruct (Nat.ltb_spec j (length (objs s))); [reflexivity|lia]. }
    assert (Lo3 : length (objs s3) = length (objs s)) by (unfold s3; cbn [objs]; rewrite !len_set_nth; reflexivity).
    assert (Ni : nth_error (objs s3) i = Some vj).
    { rewrite N3. destruct (Nat.eqb_spec j i); [congruence|]. rewrite Nat.eqb_refl. reflexivity. }
    assert (Oi3 : Own s3 i vj lj).
    { split; [exact Ni|]. do 3 (split; [assumption|]). split; [lia|]. split; [exact Hb1|]. right. rewrite Lo3.
      split; [assumption|]. split; [assumption|]. exact Hi1. }
    assert (Oj3 : Own s3 j (Vec j N 0) []).
    { split; [rewrite N3, Nat.eqb_refl; reflexivity|]. cbn [size cap data length map app]. split; [reflexivity|]. split; [lia|]. split; [assumption|].
      split; [lia|]. split; [|left; auto]. rewrite B3, Nat.sub_0_r. destruct (Nat.eqb_spec j i); [congruence|].
      destruct (Nat.eqb_spec j (data vi)); [contradiction|exact Y3]. }
    split; [|split; [exact Hbu|split; [intros _; exact Ni|split; [contradiction|split; [eexists; split; [apply Oj3|reflexivity]|
      intros k K1 K2; rewrite N3; destruct (Nat.eqb_spec j k); [congruence|]; destruct (Nat.eqb_spec i k); [congruence|reflexivity]]]]]].
    eapply (WF_step2 s ls i j vi vj) with (1 := HW) (2 := Hij) (3 := Hvi) (4 := Hvj) (5 := Oi3) (6 := Oj3).
    + exact Lo3.
    + intros k K1 K2. rewrite N3. destruct (Nat.eqb_spec j k); [congruence|]. destruct (Nat.eqb_spec i k); [congruence|reflexivity].
    + exact L3.
    + intros b N1 N2 N4 N5. rewrite B3. destruct (Nat.eqb_spec b i); [congruence|]. destruct (Nat.eqb_spec b (data vi)); [congruence|reflexivity].
    + cbn [data]. exact Ej.
    + auto.
    + cbn [data]. auto.
    + cbn [data]. intros b c Hbb [E|E] Hc2; [|left; exact E]. rewrite B3 in Hc2.
      destruct (Nat.eqb_spec b i); [lia|]. destruct (Nat.eqb_spec b (data vi)); [discriminate Hc2|contradiction].
Qed.
End Vec.
