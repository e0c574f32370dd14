(** Ownership and the effect of the operations on a single SmallVector. *)
From Verif Require Import Base VecModel VecProofs.
From Coq Require Import PeanoNat.

Section Vec.
Context {A : Type} (d : A) (mv : A -> A) (nothrow_move copyable : bool) (N M : nat).
Notation state := (@state A).
Notation comp := (@comp A).
Notation cell := (@cell A).
Notation Live := (@Live A).
Notation Raw := (@Raw A).
Notation blk := (@blk A).
Notation upd := (@upd A).
Notation with_bud := (@with_bud A).
Notation lives := (map Live).
Notation raws := (repeat Raw).
Notation reserve := (reserve mv nothrow_move copyable).
Notation grow := (grow mv nothrow_move copyable M).
Notation push_back := (push_back mv nothrow_move copyable M).
Implicit Types s : state.
Implicit Types l : list A.

(** Vector i, with the members v, holds the elements l. *)
Definition Own s (i : nat) (v : vec) l : Prop :=
  nth_error (objs s) i = Some v /\ size v = length l /\ (length l <= cap v)%nat /\ (cap v <= M)%nat /\
  (length (objs s) <= length (mem s))%nat /\
  blk s (data v) = Some (lives l ++ raws (cap v - length l)) /\
  ((data v = i /\ cap v = N) \/
   ((length (objs s) <= data v)%nat /\ (N < cap v)%nat /\ blk s i = Some (raws N))).
(** Between s and s' only vector i was changed, and it gave back memory it does not use. *)
Definition FR (i : nat) s s' : Prop :=
  later (bud s) (bud s') /\ length (objs s') = length (objs s) /\
  (forall j, j <> i -> nth_error (objs s') j = nth_error (objs s) j) /\
  (length (mem s) <= length (mem s'))%nat /\
  exists v v', nth_error (objs s) i = Some v /\ nth_error (objs s') i = Some v' /\
  (i < length (mem s))%nat /\ (data v < length (mem s))%nat /\
  (forall b, (b < length (mem s))%nat -> b <> i -> b <> data v -> blk s' b = blk s b) /\
  (data v' = i \/ data v' = data v \/ (length (mem s) <= data v')%nat) /\
  (data v <> i -> data v <> data v' -> blk s' (data v) = None) /\
  (forall b, (length (mem s) <= b)%nat -> b <> data v' -> blk s' b = None).

Lemma blk_over s b : (length (mem s) <= b)%nat -> blk s b = None.
Proof. intros H. unfold VecModel.blk. rewrite (proj2 (nth_error_None _ _)) by assumption. reflexivity. Qed.
Lemma FR_trans i s s1 s2 : FR i s s1 -> FR i s1 s2 -> FR i s s2.
Proof.
  intros (B1 & L1 & O1 & M1 & v & v1 & Hv & Hv1 & Hi & Hd & U1 & D1 & F1 & N1)
         (B2 & L2 & O2 & M2 & v1' & v2 & Hv1' & Hv2 & Hi2 & Hd2 & U2 & D2 & F2 & N2).
  rewrite Hv1 in Hv1'. injection Hv1' as <-.
  split; [eapply later_trans; eassumption|]. split; [congruence|].
  split; [intros j Hj; rewrite O2, O1 by assumption; reflexivity|]. split; [lia|].
  exists v, v2. do 4 (split; [assumption|]).
  split.
  { intros b Hb H1 H2. rewrite U2; [apply U1; assumption|lia|assumption|].
    destruct D1 as [E|[E|E]]; [rewrite E; assumption|rewrite E; assumption|lia]. }
  split.
  { destruct D2 as [E|[E|E]]; [left; assumption| |right; right; lia].
    rewrite E. destruct D1 as [E'|[E'|E']]; auto. }
  split.
  { intros Hne Hne2. destruct (Nat.eq_dec (data v) (data v1)) as [E|E].
    - rewrite E. apply F2; congruence.
    - rewrite U2; [apply F1; assumption|lia|assumption|assumption]. }
  intros b Hb Hne. destruct (Nat.eq_dec b (data v1)) as [E|E].
  - rewrite E in *. apply F2; [lia|assumption].
  - destruct (Nat.lt_ge_cases b (length (mem s1))).
    + rewrite U2; [apply N1; assumption|assumption|lia|assumption].
    + apply N2; assumption.
Qed.
Lemma FR_refl i s v : nth_error (objs s) i = Some v -> (i < length (mem s))%nat -> (data v < length (mem s))%nat ->
  FR i s s.
Proof.
  intros Hv Hi Hd. split; [apply later_refl|]. split; [reflexivity|]. split; [reflexivity|]. split; [lia|].
  exists v, v. do 4 (split; [assumption|]). split; [reflexivity|]. split; [auto|].
  split; [congruence|]. intros b Hb _. apply blk_over. assumption.
Qed.
Lemma FR_bud i s s' g : FR i s s' -> later (bud s) g -> FR i s (with_bud g s').
Proof. intros (B & H) Hg. split; [exact Hg|exact H]. Qed.

Lemma Own_lt s i v l : Own s i v l -> (i < length (mem s))%nat /\ (data v < length (mem s))%nat /\ (i < length (objs s))%nat.
Proof.
  intros (Ho & Hs & Hl & Hm & Hk & Hb & Hd).
  pose proof (blk_lt _ _ _ Hb) as Hlt.
  assert (i < length (objs s))%nat by (apply nth_error_Some; congruence).
  destruct Hd as [[E _]|(_ & _ & E)]; [rewrite <- E; rewrite <- E in *; auto|].
  apply blk_lt in E. auto.
Qed.
Lemma Own_FR s i v l : Own s i v l -> FR i s s.
Proof. intros H. destruct (Own_lt _ _ _ _ H) as (H1 & H2 & H3). destruct H as (Ho & _). eapply FR_refl; eassumption. Qed.
Lemma Own_bud s i v l g : Own s i v l -> Own (with_bud g s) i v l.
Proof. exact (fun H => H). Qed.
(** The other vectors are not affected. *)
Lemma Own_frame i j s s' vi vj li lj : Own s i vi li -> Own s j vj lj -> FR i s s' -> i <> j -> data vi <> data vj ->
  Own s' j vj lj.
Proof.
  intros Hi Hj Hf Hne Hdd.
  destruct (Own_lt _ _ _ _ Hi) as (I1 & I2 & I3). destruct (Own_lt _ _ _ _ Hj) as (J1 & J2 & J3).
  destruct Hi as (Ho & Hs & Hl & Hm & Hk & Hb & Hd). destruct Hj as (Ho' & Hs' & Hl' & Hm' & Hk' & Hb' & Hd').
  destruct Hf as (_ & L1 & O1 & M1 & v & v1 & Hv & Hv1 & _ & _ & U1 & _).
  rewrite Ho in Hv. injection Hv as <-.
  split; [rewrite O1 by auto; assumption|]. do 3 (split; [assumption|]). split; [lia|].
  split; [rewrite U1; [assumption|assumption|lia|auto]|].
  rewrite L1. destruct Hd' as [E|(E1 & E2 & E3)]; [left; assumption|right].
  split; [assumption|]. split; [assumption|]. rewrite U1; [assumption|lia|auto|lia].
Qed.

(** The usual last step of an operation: other elements in the same memory *)
Definition final s (i : nat) (v : vec) l g : state :=
  State (set_nth (mem s) (data v) (Some (lives l ++ raws (cap v - length l))))
        (set_nth (objs s) i (Vec (data v) (cap v) (length l))) g.
Lemma blk_final s i v l g b :
  blk (final s i v l g) b =
  if Nat.eqb (data v) b && Nat.ltb (data v) (length (mem s)) then Some (lives l ++ raws (cap v - length l)) else blk s b.
Proof. exact (blk_upd s (data v) _ b). Qed.
Lemma own_step s i v l l' g : Own s i v l -> (length l' <= cap v)%nat -> later (bud s) g ->
  Own (final s i v l' g) i (Vec (data v) (cap v) (length l')) l' /\ FR i s (final s i v l' g).
Proof.
  intros H Hl' Hg. destruct (Own_lt _ _ _ _ H) as (I1 & I2 & I3). destruct H as (Ho & Hs & Hl & Hm & Hk & Hb & Hd).
  assert (Hbf : blk (final s i v l' g) (data v) = Some (lives l' ++ raws (cap v - length l'))).
  { rewrite blk_final, Nat.eqb_refl. destruct (Nat.ltb_spec (data v) (length (mem s))); [reflexivity|lia]. }
  assert (Hoo : nth_error (objs (final s i v l' g)) i = Some (Vec (data v) (cap v) (length l'))).
  { unfold final; cbn [objs]. rewrite nth_set_nth, Nat.eqb_refl. destruct (Nat.ltb_spec i (length (objs s))); [reflexivity|lia]. }
  split.
  - split; [assumption|]. cbn [size cap data]. do 3 (split; [auto|]).
    split; [unfold final; cbn [objs mem]; rewrite !len_set_nth; assumption|]. split; [assumption|].
    replace (length (objs (final s i v l' g))) with (length (objs s)) by (unfold final; cbn [objs]; rewrite len_set_nth; reflexivity).
    destruct Hd as [E|(E1 & E2 & E3)]; [left; assumption|right].
    split; [assumption|]. split; [assumption|]. rewrite blk_final.
    destruct (Nat.eqb_spec (data v) i); [lia|]. exact E3.
  - split; [assumption|]. unfold final at 1; cbn [objs]. split; [apply len_set_nth|].
    split; [intros j Hj; unfold final; cbn [objs]; rewrite nth_set_nth; destruct (Nat.eqb_spec i j); [congruence|reflexivity]|].
    split; [unfold final; cbn [mem]; rewrite len_set_nth; lia|].
    exists v, (Vec (data v) (cap v) (length l')). do 4 (split; [assumption|]). cbn [data].
    split; [intros b Hbb Hne1 Hne2; rewrite blk_final; destruct (Nat.eqb_spec (data v) b); [congruence|reflexivity]|].
    split; [auto|]. split; [congruence|].
    intros b Hbb Hne. rewrite blk_final. destruct (Nat.eqb_spec (data v) b); [congruence|].
    apply blk_over. assumption.
Qed.
Lemma final_same s i v l : Own s i v l -> final s i v l (bud s) = s.
Proof.
  intros (Ho & Hs & Hl & Hm & Hk & Hb & Hd). unfold final.
  rewrite set_same.
  - rewrite set_same; [destruct s; reflexivity|]. rewrite Ho, <- Hs. destruct v; reflexivity.
  - unfold VecModel.blk in Hb. destruct (nth_error (mem s) (data v)) as [o|]; congruence.
Qed.
Lemma getv_eq s i v : nth_error (objs s) i = Some v -> getv i s = Done _ s v.
Proof. unfold getv. intros ->. reflexivity. Qed.
Lemma set_size_eq s i v n : nth_error (objs s) i = Some v ->
  set_size i n s = Done _ (State (mem s) (set_nth (objs s) i (Vec (data v) (cap v) n)) (bud s)) tt.
Proof. intros H. unfold set_size. erewrite bind_eq by (apply getv_eq; eassumption). reflexivity. Qed.
(** set_size after the data block was given its final contents *)
Lemma set_size_final s i v l g n : nth_error (objs s) i = Some v -> n = length l ->
  set_size i n (with_bud g (upd s (data v) (lives l ++ raws (cap v - length l)))) = Done _ (final s i v l g) tt.
Proof. intros H ->. rewrite (set_size_eq _ _ v) by assumption. reflexivity. Qed.

(** What holds after an exception: the elements are unchanged (or, for types that can neither
    be copied nor moved safely, of unspecified value), nothing is leaked. *)
Definition Exc (i : nat) s l (e : exn) s' : Prop :=
  bud s <> None /\ e = UserException /\ FR i s s' /\
  exists v' l', Own s' i v' l' /\ length l' = length l /\ (nothrow_move || copyable = true -> l' = l).
Lemma Exc_trans i s s1 l e s2 : FR i s s1 -> Exc i s1 l e s2 -> Exc i s l e s2.
Proof.
  intros Hf (Hb & He & Hf2 & H). split; [|split; [assumption|split; [eapply FR_trans; eassumption|assumption]]].
  intros Hn. apply Hb. destruct Hf as (Hl & _). exact (Hl Hn).
Qed.
Lemma Exc_none i s v l : Own s i v l -> bud s <> None -> Exc i s l UserException (with_bud None s).
Proof.
  intros H Hb. split; [assumption|]. split; [reflexivity|].
  split; [apply FR_bud; [eapply Own_FR; eassumption|intros _; reflexivity]|].
  exists v, l. split; [apply Own_bud; assumption|]. auto.
Qed.

(** getv *)
Lemma sat_getv {X} s i v (f : vec -> comp X) (Q : X -> state -> Prop) E :
  nth_error (objs s) i = Some v -> sat (f v) s Q E -> sat (bindc (getv i) f) s Q E.
Proof. intros H Hs. apply sat_bind. eapply sat_eq; [apply getv_eq; eassumption|assumption]. Qed.

(** alloc *)
Definition alloced s (n : nat) g : state := State (mem s ++ [Some (raws n)]) (objs s) g.
Lemma sat_alloc {X} s n (f : nat -> comp X) (Q : X -> state -> Prop) E :
  (forall g, later (bud s) g -> sat (f (length (mem s))) (alloced s n g) Q E) ->
  (bud s <> None -> E UserException (with_bud None s)) ->
  sat (bindc (alloc n) f) s Q E.
Proof.
  intros H1 H2. apply sat_bind. unfold alloc. apply sat_bind. apply sat_tick; [|assumption].
  intros g Hg. eapply sat_eq; [reflexivity|]. exact (H1 g Hg).
Qed.
Lemma blk_alloced s n g b :
  blk (alloced s n g) b = if Nat.eqb b (length (mem s)) then Some (raws n) else blk s b.
Proof.
  unfold VecModel.blk, alloced; cbn [mem]. destruct (Nat.eqb_spec b (length (mem s))) as [->|H].
  - rewrite nth_error_app2, Nat.sub_diag by lia. reflexivity.
  - destruct (Nat.lt_ge_cases b (length (mem s))).
    + rewrite nth_error_app1 by assumption. reflexivity.
    + rewrite !(proj2 (nth_error_None _ _)); [reflexivity|lia|rewrite app_length; cbn; lia].
Qed.
Lemma all_raw n : forallb (@is_raw A) (raws n) = true.
Proof. induction n; cbn; auto. Qed.
Lemma free_eq s b n : blk s b = Some (raws n) ->
  free b s = Done _ (State (set_nth (mem s) b None) (objs s) (bud s)) tt.
Proof. intros H. unfold free. rewrite H, all_raw. reflexivity. Qed.
Lemma blk_freed s b o g b' :
  blk (State (set_nth (mem s) b None) o g) b' = if Nat.eqb b b' then None else blk s b'.
Proof.
  unfold VecModel.blk; cbn [mem]. rewrite nth_set_nth.
  destruct (Nat.eqb_spec b b') as [->|H]; cbn [andb]; [|reflexivity].
  destruct (Nat.ltb_spec b' (length (mem s))); [reflexivity|].
  rewrite (proj2 (nth_error_None _ _)) by assumption. reflexivity.
Qed.

(** Moving the elements to another block [nb] (in reserve and shrink_to_fit) *)
Lemma len_lives l : length (lives l) = length l.
Proof. apply map_length. Qed.
Lemma raws_add a b : raws (a + b) = raws a ++ raws b.
Proof. apply repeat_app. Qed.
Lemma raws_split n k : (k <= n)%nat -> raws n = raws k ++ raws (n - k).
Proof. intros. rewrite <- raws_add. f_equal. lia. Qed.

(** Reallocation, as in reserve and shrink_to_fit *)
Lemma realloc_sat s i v l n (Q : unit -> state -> Prop) (E : exn -> state -> Prop) :
  Own s i v l -> (n <= M)%nat -> (length l <= n)%nat -> (N < n)%nat ->
  (forall s' v', Own s' i v' l -> FR i s s' -> cap v' = n -> data v' = length (mem s) -> Q tt s') ->
  (forall e s', Exc i s l e s' -> E e s') ->
  sat (bindc (alloc n) (fun nb =>
       bindc (on_throw (uninit_move_or_copy mv nothrow_move copyable (data v, 0%nat) (nb, 0%nat) (size v)) (free nb)) (fun _ =>
       bindc (destroy_range (data v, 0%nat) (size v)) (fun _ =>
       bindc (if allocated i v then free (data v) else ret tt) (fun _ =>
       setv i (Vec nb n (size v))))))) s Q E.
Proof.
  intros H Hn Hln HNn HQ2 HE. pose proof H as H0.
  destruct (Own_lt _ _ _ _ H) as (I1 & I2 & I3). destruct H as (Ho & Hs & Hl & Hm & Hk & Hb & Hd).
  set (nb := length (mem s)).
  assert (Hnb : data v <> nb) by (subst nb; lia).
  apply sat_alloc; [|intros Hbu; apply HE; eapply Exc_none; eassumption].
  intros g Hg. apply sat_bind. apply sat_on_throw. rewrite Hs.
  assert (Hb1 : blk (alloced s n g) (data v) = Some (lives l ++ raws (cap v - length l))).
  { rewrite blk_alloced. destruct (Nat.eqb_spec (data v) (length (mem s))); [lia|assumption]. }
  assert (Hb2 : blk (alloced s n g) nb = Some (raws n)).
  { rewrite blk_alloced. subst nb. rewrite Nat.eqb_refl. reflexivity. }
  assert (Hbi : data v <> i -> blk (alloced s n g) i = Some (raws N)).
  { intros Hne. rewrite blk_alloced. destruct (Nat.eqb_spec i (length (mem s))); [lia|].
    destruct Hd as [[? _]|(_ & _ & ?)]; [contradiction|assumption]. }
  eapply (umc_sat mv nothrow_move copyable l) with (p1 := []) (q1 := raws (cap v - length l)) (p2 := []) (q2 := raws (n - length l));
    try reflexivity; try assumption.
  { cbn [app]. rewrite <- raws_split by lia. exact Hb2. }
  { intros g1 ys Hg1 Hly. cbn [app].
    apply sat_bind.
    replace (destroy_range (data v, 0%nat) (length l)) with (@destroy_range A (data v, 0%nat) (length ys)) by congruence.
    set (s1 := with_bud g1 (upd (upd (alloced s n g) (data v) (lives ys ++ raws (cap v - length l))) nb
                         (lives l ++ raws (n - length l)))).
    assert (B1 : blk s1 (data v) = Some ([] ++ lives ys ++ raws (cap v - length l))).
    { change (blk (upd (upd (alloced s n g) (data v) (lives ys ++ raws (cap v - length l))) nb
                         (lives l ++ raws (n - length l))) (data v) = Some (lives ys ++ raws (cap v - length l))).
      rewrite blk_upd_neq by auto. eapply blk_upd_eq; exact Hb1. }
    eapply sat_eq; [apply (destroy_range_eq ys) with (pre := []) (post := raws (cap v - length l)); [exact B1|reflexivity]|].
    cbn [app]. rewrite Hly, <- raws_split by lia.
    set (s2 := upd s1 (data v) (raws (cap v))).
    set (v' := Vec nb n (length l)).
    assert (Bnb : blk s2 nb = Some (lives l ++ raws (n - length l))).
    { subst s2. rewrite blk_upd_neq by assumption.
      change (blk (upd (upd (alloced s n g) (data v) (lives ys ++ raws (cap v - length l))) nb
                         (lives l ++ raws (n - length l))) nb = Some (lives l ++ raws (n - length l))).
      eapply blk_upd_eq. rewrite blk_upd_neq by assumption. exact Hb2. }
    assert (Bo : forall b, b <> data v -> b <> nb -> blk s2 b = blk s b).
    { intros b N1 N2. subst s2. rewrite blk_upd_neq by auto.
      change (blk (upd (upd (alloced s n g) (data v) (lives ys ++ raws (cap v - length l))) nb
                         (lives l ++ raws (n - length l))) b = blk s b).
      rewrite !blk_upd_neq by auto. rewrite blk_alloced. destruct (Nat.eqb_spec b (length (mem s))); [contradiction|reflexivity]. }
    assert (Bd : blk s2 (data v) = Some (raws (cap v))) by (eapply blk_upd_eq; exact B1).
    assert (Lm : length (mem s2) = S (length (mem s))).
    { subst s2. rewrite len_upd. unfold s1, VecModel.with_bud; cbn [mem]. rewrite !len_upd.
      unfold alloced; cbn [mem]. rewrite app_length. cbn. lia. }
    assert (Os : objs s2 = objs s) by reflexivity.
    assert (Hbud : later (bud s) (bud s2)) by (exact (later_trans _ _ _ Hg Hg1)).
    (* after giving back the old heap block, if any *)
    assert (Hfin : forall s3, objs s3 = objs s -> bud s3 = bud s2 -> length (mem s3) = length (mem s2) ->
      (forall b, b <> data v -> blk s3 b = blk s2 b) ->
      (data v = i -> blk s3 i = blk s2 i) -> (data v <> i -> blk s3 (data v) = None) ->
      sat (setv i v') s3 Q E).
    { intros s3 O3 G3 L3 B3 Bi3 Bf3. eapply sat_eq; [reflexivity|].
      assert (Hbl : forall o b, blk (State (mem s3) o (bud s3)) b = blk s3 b) by reflexivity.
      apply (HQ2 _ v').
      - split; [cbn [objs]; rewrite O3, nth_set_nth, Nat.eqb_refl; destruct (Nat.ltb_spec i (length (objs s))); [reflexivity|lia]|].
        subst v'; cbn [size cap data]. split; [reflexivity|]. split; [lia|]. split; [assumption|].
        split; [cbn [objs mem]; rewrite len_set_nth, O3, L3, Lm; lia|].
        split; [rewrite Hbl, B3 by auto; exact Bnb|].
        right. cbn [objs]. rewrite len_set_nth, O3, Hbl.
        split; [assumption|].
        split; [assumption|].
        destruct (Nat.eq_dec (data v) i) as [E1|E1].
        + rewrite Bi3 by assumption. rewrite <- E1. rewrite Bd. destruct Hd as [[_ E2]|(E2 & _)]; [congruence|lia].
        + rewrite B3 by auto. rewrite Bo; [|auto|subst nb; lia].
          destruct Hd as [[E2 _]|(_ & _ & E2)]; [contradiction|assumption].
      - split; [cbn [bud]; rewrite G3; exact Hbud|]. cbn [objs mem].
        rewrite O3. split; [apply len_set_nth|].
        split; [intros j Hj; rewrite nth_set_nth; destruct (Nat.eqb_spec i j); [congruence|reflexivity]|].
        split; [lia|].
        exists v, v'. split; [assumption|].
        split; [rewrite nth_set_nth, Nat.eqb_refl; destruct (Nat.ltb_spec i (length (objs s))); [reflexivity|lia]|].
        split; [assumption|]. split; [assumption|]. subst v'; cbn [data].
        split; [intros b Hbb N1 N2; rewrite Hbl, B3 by assumption; apply Bo; [assumption|subst nb; lia]|].
        split; [right; right; subst nb; lia|].
        split; [intros N1 _; rewrite Hbl; apply Bf3; assumption|].
        intros b Hbb N1. rewrite Hbl, B3 by lia. rewrite Bo; [|lia|assumption]. apply blk_over. assumption.
      - reflexivity.
      - reflexivity. }
    unfold allocated. apply sat_bind. destruct (Nat.eqb_spec (data v) i) as [E1|E1]; cbn [negb].
    - apply sat_ret. apply Hfin; auto. congruence.
    - eapply sat_eq; [eapply free_eq; exact Bd|]. apply Hfin; auto.
      + cbn [mem]. apply len_set_nth.
      + intros b N1. rewrite blk_freed. destruct (Nat.eqb_spec (data v) b); [congruence|reflexivity].
      + congruence.
      + intros _. rewrite blk_freed, Nat.eqb_refl. reflexivity. }
  { intros ys Hbn Hly Hys. cbn [app].
    assert (Hbs : bud s <> None) by (intros Hx; apply Hbn; exact (Hg Hx)).
    set (s1 := with_bud None (upd (alloced s n g) (data v) (lives ys ++ raws (cap v - length l)))).
    assert (Bnb : blk s1 nb = Some (raws n)).
    { change (blk (upd (alloced s n g) (data v) (lives ys ++ raws (cap v - length l))) nb = Some (raws n)).
      rewrite blk_upd_neq by assumption. exact Hb2. }
    eapply sat_eq; [eapply free_eq; exact Bnb|].
    apply HE. split; [assumption|]. split; [reflexivity|].
    assert (Hbl : forall b, blk (State (set_nth (mem s1) nb None) (objs s1) (bud s1)) b =
      if Nat.eqb b (data v) then Some (lives ys ++ raws (cap v - length l)) else blk s b).
    { intros b. rewrite blk_freed.
      change (blk s1 b) with (blk (upd (alloced s n g) (data v) (lives ys ++ raws (cap v - length l))) b).
      rewrite blk_upd, blk_alloced. unfold alloced; cbn [mem]. rewrite app_length. cbn [length].
      rewrite (Nat.eqb_sym (data v) b). fold nb.
      destruct (Nat.eqb_spec nb b) as [<-|N1].
      - destruct (Nat.eqb_spec nb (data v)); [congruence|]. symmetry. apply blk_over. subst nb. lia.
      - destruct (Nat.eqb_spec b (data v)); cbn [andb].
        + destruct (Nat.ltb_spec (data v) (nb + 1)); [reflexivity|subst nb; lia].
        + destruct (Nat.eqb_spec b nb); [congruence|reflexivity]. }
    split.
    - split; [intros Hx; contradiction|]. cbn [objs mem]. split; [reflexivity|]. split; [reflexivity|].
      split; [rewrite len_set_nth; subst s1; unfold VecModel.with_bud; cbn [mem]; rewrite len_upd; unfold alloced; cbn [mem]; rewrite app_length; lia|].
      exists v, v. do 4 (split; [assumption|]).
      split; [intros b Hbb N1 N2; rewrite Hbl; destruct (Nat.eqb_spec b (data v)); [contradiction|reflexivity]|].
      split; [auto|]. split; [congruence|].
      intros b Hbb N1. rewrite Hbl. destruct (Nat.eqb_spec b (data v)); [contradiction|]. apply blk_over. assumption.
    - exists v, ys. split; [|split; assumption].
      split; [exact Ho|]. split; [congruence|]. split; [lia|]. split; [assumption|].
      split; [cbn [objs mem]; rewrite len_set_nth; unfold s1, VecModel.with_bud; cbn [mem objs]; rewrite len_upd; unfold alloced, VecModel.upd; cbn [mem objs]; rewrite app_length; lia|].
      split; [rewrite Hbl, Nat.eqb_refl, Hly; reflexivity|].
      cbn [objs]. destruct Hd as [Hd|(E1 & E2 & E3)]; [left; assumption|right].
      split; [assumption|]. split; [assumption|].
      rewrite Hbl. destruct (Nat.eqb_spec i (data v)); [lia|assumption]. }
Qed.
Lemma Own_inner s i v l : Own s i v l -> (N <= cap v)%nat /\ (data v = i <-> cap v = N).
Proof.
  intros H. destruct (Own_lt _ _ _ _ H) as (_ & _ & I3).
  destruct H as (Ho & Hs & Hl & Hm & Hk & Hb & [[E1 E2]|(E1 & E2 & E3)]); [split; [lia|tauto]|].
  split; [lia|]. split; lia.
Qed.
Lemma reserve_sat s i v l n (Q : unit -> state -> Prop) (E : exn -> state -> Prop) :
  Own s i v l -> (n <= M)%nat ->
  ((n <= cap v)%nat -> Q tt s) ->
  ((cap v < n)%nat -> forall s' v', Own s' i v' l -> FR i s s' -> cap v' = n -> data v' = length (mem s) -> Q tt s') ->
  (forall e s', Exc i s l e s' -> E e s') ->
  sat (reserve i n) s Q E.
Proof.
  intros H Hn HQ1 HQ2 HE. pose proof (Own_inner _ _ _ _ H) as [Hi _]. pose proof H as H0.
  destruct H as (Ho & Hs & Hl & Hm & Hk & Hb & Hd).
  unfold VecModel.reserve. eapply sat_getv; [eassumption|].
  destruct (Nat.leb_spec n (cap v)); [apply sat_ret; apply HQ1; assumption|].
  eapply realloc_sat; eauto; lia.
Qed.
End Vec.
