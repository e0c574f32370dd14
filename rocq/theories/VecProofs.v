(** Basic facts about the memory model of SmallVector and its element loops. *)
From Verif Require Import Base VecModel.
From Coq Require Import PeanoNat.

Section Basics.
Context {T : Type}.
Implicit Types l : list T.
Lemma len_set_nth l i x : length (set_nth l i x) = length l.
Proof. revert i; induction l as [|a l IH]; intros [|i]; cbn; auto. Qed.
Lemma nth_set_nth l i x j :
  nth_error (set_nth l i x) j = if Nat.eqb i j && Nat.ltb i (length l) then Some x else nth_error l j.
Proof.
  revert i j; induction l as [|a l IH]; intros i j.
  - cbn [set_nth length]. replace (Nat.ltb i 0) with false by (symmetry; apply Nat.ltb_ge; lia).
    rewrite Bool.andb_false_r. reflexivity.
  - destruct i as [|i], j as [|j]; cbn [set_nth nth_error]; try reflexivity.
    rewrite IH. cbn [length].
    change (Nat.eqb (S i) (S j)) with (Nat.eqb i j). change (Nat.ltb (S i) (S (length l))) with (Nat.ltb i (length l)).
    reflexivity.
Qed.
Lemma set_set l i x y : set_nth (set_nth l i x) i y = set_nth l i y.
Proof. revert i; induction l as [|a l IH]; intros [|i]; cbn; f_equal; auto. Qed.
Lemma set_comm l i j x y : i <> j -> set_nth (set_nth l i x) j y = set_nth (set_nth l j y) i x.
Proof. revert i j; induction l as [|a l IH]; intros [|i] [|j] H; cbn; f_equal; auto; congruence. Qed.
Lemma set_same l i x : nth_error l i = Some x -> set_nth l i x = l.
Proof. revert i; induction l as [|a l IH]; intros [|i] H; cbn in *; try discriminate H; f_equal; auto; congruence. Qed.
Lemma set_app l x y r : set_nth (l ++ x :: r) (length l) y = l ++ y :: r.
Proof. induction l as [|a l IH]; cbn; f_equal; auto. Qed.
Lemma nth_app_mid l (x : T) r : nth_error (l ++ x :: r) (length l) = Some x.
Proof. induction l as [|a l IH]; cbn; auto. Qed.
Lemma set_at l x y r k : k = length l -> set_nth (l ++ x :: r) k y = l ++ y :: r.
Proof. intros ->. apply set_app. Qed.
Lemma nth_at l (x : T) r k : k = length l -> nth_error (l ++ x :: r) k = Some x.
Proof. intros ->. apply nth_app_mid. Qed.
Lemma set_over l i x : (length l <= i)%nat -> set_nth l i x = l.
Proof. revert i; induction l as [|a l IH]; intros [|i] H; cbn in *; try lia; f_equal; auto with arith. Qed.
End Basics.

Section Vec.
Context {A : Type} (d : A) (mv : A -> A) (nothrow_move copyable : bool) (N M : nat).
Notation state := (@state A).
Notation comp := (@comp A).
Notation cell := (@cell A).
Notation Live := (@Live A).
Notation Raw := (@Raw A).
Notation blk := (@blk A).
Notation upd := (@upd A).
Notation with_bud := (@with_bud A).
Implicit Types s : state.

(** * Outcomes *)
Definition sat {X} (m : comp X) (s : state) (Q : X -> state -> Prop) (E : exn -> state -> Prop) : Prop :=
  match m s with Done _ s' x => Q x s' | Thrown _ e s' => E e s' | Undef _ => False end.
Lemma sat_ret {X} (x : X) s (Q : X -> state -> Prop) E : Q x s -> sat (ret x) s Q E.
Proof. exact (fun H => H). Qed.
Lemma sat_bind {X Y} (m : comp X) (f : X -> comp Y) s (Q : Y -> state -> Prop) E :
  sat m s (fun x s1 => sat (f x) s1 Q E) E -> sat (bindc m f) s Q E.
Proof. unfold sat, bindc. destruct (m s); auto. Qed.
Lemma sat_conseq {X} (m : comp X) s (Q Q' : X -> state -> Prop) (E E' : exn -> state -> Prop) :
  sat m s Q E -> (forall x s', Q x s' -> Q' x s') -> (forall e s', E e s' -> E' e s') -> sat m s Q' E'.
Proof. unfold sat. destruct (m s); auto. Qed.
Lemma sat_eq {X} (m : comp X) s s' x (Q : X -> state -> Prop) E : m s = Done _ s' x -> Q x s' -> sat m s Q E.
Proof. unfold sat. intros ->. auto. Qed.
Lemma sat_on_throw {X} (m : comp X) h s (Q : X -> state -> Prop) E :
  sat m s Q (fun e s1 => sat h s1 (fun _ s2 => E e s2) E) -> sat (on_throw m h) s Q E.
Proof. unfold sat, on_throw. destruct (m s); auto. destruct (h s0); auto. Qed.
Lemma sat_done {X} (m : comp X) s (Q : X -> state -> Prop) : sat m s Q (fun _ _ => False) -> exists s' x, m s = Done _ s' x /\ Q x s'.
Proof. unfold sat. destruct (m s); intros H; try contradiction. eauto. Qed.
(** budgets *)
Definition later (g g' : option nat) : Prop := g = None -> g' = None.
Lemma later_refl g : later g g. Proof. exact (fun H => H). Qed.
Lemma later_trans a b c : later a b -> later b c -> later a c.
Proof. unfold later. auto. Qed.
Lemma sat_tick s (Q : unit -> state -> Prop) (E : exn -> state -> Prop) :
  (forall g, later (bud s) g -> Q tt (with_bud g s)) -> (bud s <> None -> E UserException (with_bud None s)) ->
  sat tick s Q E.
Proof.
  intros H1 H2. unfold sat, tick. destruct (bud s) as [[|k]|] eqn:Eb.
  - apply H2. discriminate.
  - apply H1. discriminate.
  - specialize (H1 None (later_refl _)). unfold with_bud in H1. destruct s; cbn in *; subst; exact H1.
Qed.
Lemma with_bud_same s : with_bud (bud s) s = s.
Proof. destruct s; reflexivity. Qed.
Lemma sat_tick_move s (Q : unit -> state -> Prop) (E : exn -> state -> Prop) :
  (forall g, later (bud s) g -> Q tt (with_bud g s)) ->
  (nothrow_move = false -> bud s <> None -> E UserException (with_bud None s)) ->
  sat (tick_move nothrow_move) s Q E.
Proof.
  intros H1 H2. unfold tick_move. destruct nothrow_move.
  - apply sat_ret. rewrite <- (with_bud_same s). apply H1. apply later_refl.
  - apply sat_tick; auto.
Qed.

(** * Blocks *)
Lemma blk_lt s b c : blk s b = Some c -> (b < length (mem s))%nat.
Proof.
  unfold VecModel.blk. intros H. apply nth_error_Some. destruct (nth_error (mem s) b); [discriminate|discriminate H].
Qed.
Lemma blk_upd s b c b' : blk (upd s b c) b' = if Nat.eqb b b' && Nat.ltb b (length (mem s)) then Some c else blk s b'.
Proof.
  unfold VecModel.blk, VecModel.upd; cbn [mem]. rewrite nth_set_nth.
  destruct (Nat.eqb b b' && Nat.ltb b (length (mem s))); reflexivity.
Qed.
Lemma blk_upd_eq s b c0 c : blk s b = Some c0 -> blk (upd s b c) b = Some c.
Proof.
  intros H. apply blk_lt in H. rewrite blk_upd, Nat.eqb_refl.
  destruct (Nat.ltb_spec b (length (mem s))); [reflexivity|lia].
Qed.
Lemma blk_upd_neq s b c b' : b <> b' -> blk (upd s b c) b' = blk s b'.
Proof. intros H. rewrite blk_upd. destruct (Nat.eqb_spec b b'); [contradiction|reflexivity]. Qed.
Lemma upd_upd s b c1 c2 : upd (upd s b c1) b c2 = upd s b c2.
Proof. unfold VecModel.upd; cbn [mem objs bud]. rewrite set_set. reflexivity. Qed.
Lemma upd_comm s b1 b2 c1 c2 : b1 <> b2 -> upd (upd s b1 c1) b2 c2 = upd (upd s b2 c2) b1 c1.
Proof. intros H. unfold VecModel.upd; cbn [mem objs bud]. rewrite set_comm by assumption. reflexivity. Qed.
Lemma upd_same s b c : blk s b = Some c -> upd s b c = s.
Proof.
  intros H. unfold VecModel.upd. rewrite set_same; [destruct s; reflexivity|].
  unfold VecModel.blk in H. destruct (nth_error (mem s) b) as [o|]; congruence.
Qed.
Lemma len_upd s b c : length (mem (upd s b c)) = length (mem s).
Proof. unfold VecModel.upd; cbn [mem]. apply len_set_nth. Qed.

Lemma upd4 s sb db a b c e g g' : sb <> db ->
  with_bud g' (upd (upd (with_bud g (upd (upd s sb a) db b)) sb c) db e) = with_bud g' (upd (upd s sb c) db e).
Proof.
  intros Hne. unfold VecModel.with_bud, VecModel.upd; cbn [mem objs bud]. f_equal.
  rewrite (set_comm (set_nth (mem s) sb (Some a)) db sb) by auto. rewrite !set_set. reflexivity.
Qed.

(** * Element operations *)
Lemma rd_eq s b pre x post k :
  blk s b = Some (pre ++ Live x :: post) -> k = length pre -> rd (b, k) s = Done _ s x.
Proof. intros H ->. unfold rd; cbn [fst snd]. rewrite H, nth_app_mid. reflexivity. Qed.
Lemma poke_eq s b pre x y post k :
  blk s b = Some (pre ++ Live x :: post) -> k = length pre ->
  poke (b, k) y s = Done _ (upd s b (pre ++ Live y :: post)) tt.
Proof. intros H ->. unfold poke; cbn [fst snd]. rewrite H, nth_app_mid, set_app. reflexivity. Qed.
Lemma construct_eq s b pre y post k :
  blk s b = Some (pre ++ Raw :: post) -> k = length pre ->
  construct (b, k) y s = Done _ (upd s b (pre ++ Live y :: post)) tt.
Proof. intros H ->. unfold construct; cbn [fst snd]. rewrite H, nth_app_mid, set_app. reflexivity. Qed.
Lemma destroy_eq s b pre x post k :
  blk s b = Some (pre ++ Live x :: post) -> k = length pre ->
  destroy (b, k) s = Done _ (upd s b (pre ++ Raw :: post)) tt.
Proof. intros H ->. unfold destroy; cbn [fst snd]. rewrite H, nth_app_mid, set_app. reflexivity. Qed.
Lemma take_eq s b pre x post k :
  blk s b = Some (pre ++ Live x :: post) -> k = length pre ->
  take mv (b, k) s = Done _ (upd s b (pre ++ Live (mv x) :: post)) x.
Proof.
  intros H Hk. unfold take, bindc. rewrite (rd_eq _ _ _ _ _ _ H Hk).
  rewrite (poke_eq _ _ _ _ (mv x) _ _ H Hk). reflexivity.
Qed.

Notation lives := (map Live).
Notation raws := (repeat Raw).

Lemma off_pair b k i : off (b, k) i = (b, (k + i)%nat).
Proof. reflexivity. Qed.

Lemma destroy_range_eq xs : forall s b pre post k,
  blk s b = Some (pre ++ lives xs ++ post) -> k = length pre ->
  destroy_range (b, k) (length xs) s = Done _ (upd s b (pre ++ raws (length xs) ++ post)) tt.
Proof.
  induction xs as [|x xs IH]; intros s b pre post k H Hk; cbn [length destroy_range map app repeat] in *.
  - unfold ret. rewrite (upd_same _ _ _ H). reflexivity.
  - unfold bindc. rewrite (destroy_eq _ _ _ _ _ _ H Hk). rewrite off_pair.
    rewrite (IH _ b (pre ++ [Raw]) post).
    + rewrite upd_upd, <- app_assoc. reflexivity.
    + rewrite <- app_assoc. cbn [app]. eapply blk_upd_eq; eassumption.
    + rewrite app_length. cbn. lia.
Qed.

(** copying or moving one element into a raw cell of another block *)
Definition transfers (ctor : ptr -> ptr -> comp unit) (f : A -> A) (thr : bool) : Prop :=
  forall s sb db p1 x q1 p2 q2 (Q : unit -> state -> Prop) (E : exn -> state -> Prop),
  sb <> db -> blk s sb = Some (p1 ++ Live x :: q1) -> blk s db = Some (p2 ++ Raw :: q2) ->
  (forall g, later (bud s) g ->
     Q tt (with_bud g (upd (upd s sb (p1 ++ Live (f x) :: q1)) db (p2 ++ Live x :: q2)))) ->
  (thr = true -> bud s <> None -> E UserException (with_bud None s)) ->
  sat (ctor (db, length p2) (sb, length p1)) s Q E.
Lemma transfers_move : transfers (move_construct mv nothrow_move) mv (negb nothrow_move).
Proof.
  intros s sb db p1 x q1 p2 q2 Q E Hne H1 H2 HQ HE. unfold move_construct.
  apply sat_bind. apply sat_tick_move; [|intros E1; apply HE; rewrite E1; reflexivity].
  intros g Hg. apply sat_bind.
  eapply sat_eq; [apply take_eq with (pre := p1) (post := q1); [exact H1|reflexivity]|].
  eapply sat_eq; [apply construct_eq with (pre := p2) (post := q2); [|reflexivity]|].
  - rewrite blk_upd_neq by assumption. exact H2.
  - apply HQ. assumption.
Qed.
Lemma transfers_copy : transfers copy_construct (fun x => x) true.
Proof.
  intros s sb db p1 x q1 p2 q2 Q E Hne H1 H2 HQ HE. unfold copy_construct.
  apply sat_bind. apply sat_tick; [|apply HE; reflexivity].
  intros g Hg. apply sat_bind.
  eapply sat_eq; [apply rd_eq with (pre := p1) (post := q1); [exact H1|reflexivity]|].
  eapply sat_eq; [apply construct_eq with (pre := p2) (post := q2); [exact H2|reflexivity]|].
  specialize (HQ g Hg). rewrite (upd_same s sb) in HQ by assumption. exact HQ.
Qed.
Lemma uninit_loop_sat ctor f thr : transfers ctor f thr ->
  forall xs2 s sb db p1 q1 p2 q2 ys xs1 (Q : unit -> state -> Prop) (E : exn -> state -> Prop) so do,
  sb <> db -> length ys = length xs1 -> so = length p1 -> do = length p2 ->
  blk s sb = Some (p1 ++ lives ys ++ lives xs2 ++ q1) ->
  blk s db = Some (p2 ++ lives xs1 ++ raws (length xs2) ++ q2) ->
  (forall g, later (bud s) g ->
     Q tt (with_bud g (upd (upd s sb (p1 ++ lives (ys ++ map f xs2) ++ q1)) db (p2 ++ lives (xs1 ++ xs2) ++ q2)))) ->
  (forall k, thr = true -> bud s <> None ->
     E UserException (with_bud None
       (upd (upd s sb (p1 ++ lives (ys ++ map f (firstn k xs2) ++ skipn k xs2) ++ q1))
            db (p2 ++ raws (length xs1 + length xs2) ++ q2)))) ->
  sat (uninit_loop ctor (sb, so) (db, do) (length xs1) (length xs2)) s Q E.
Proof.
  intros Hc. induction xs2 as [|x xs2 IH]; intros s sb db p1 q1 p2 q2 ys xs1 Q E so do Hne Hl -> -> H1 H2 HQ HE;
    cbn [length uninit_loop map app repeat] in *.
  - specialize (HQ (bud s) (later_refl _)). rewrite !app_nil_r in HQ.
    rewrite (upd_same s sb) in HQ by assumption. rewrite (upd_same s db) in HQ by assumption.
    rewrite with_bud_same in HQ. apply sat_ret. assumption.
  - apply sat_bind. apply sat_on_throw. rewrite !off_pair.
    assert (E1 : (length p2 + length xs1 = length (p2 ++ lives xs1))%nat) by (rewrite app_length, map_length; lia).
    assert (E2 : (length p1 + length xs1 = length (p1 ++ lives ys))%nat) by (rewrite app_length, map_length; lia).
    rewrite E1, E2.
    eapply Hc with (x := x) (q1 := lives xs2 ++ q1) (q2 := raws (length xs2) ++ q2).
    + exact Hne.
    + rewrite <- app_assoc. exact H1.
    + rewrite <- app_assoc. exact H2.
    + intros g Hg.
      replace (S (length xs1)) with (length (xs1 ++ [x])) by (rewrite app_length; cbn; lia).
      eapply IH with (p1 := p1) (q1 := q1) (p2 := p2) (q2 := q2) (ys := ys ++ [f x]); try reflexivity; try assumption.
      * rewrite !app_length, Hl. reflexivity.
      * change (blk (upd (upd s sb ((p1 ++ lives ys) ++ Live (f x) :: lives xs2 ++ q1)) db
                  ((p2 ++ lives xs1) ++ Live x :: raws (length xs2) ++ q2)) sb
                = Some (p1 ++ lives (ys ++ [f x]) ++ lives xs2 ++ q1)).
        rewrite blk_upd_neq by (intros Hx; apply Hne; auto).
        erewrite blk_upd_eq by eassumption. rewrite map_app, <- !app_assoc. reflexivity.
      * change (blk (upd (upd s sb ((p1 ++ lives ys) ++ Live (f x) :: lives xs2 ++ q1)) db
                  ((p2 ++ lives xs1) ++ Live x :: raws (length xs2) ++ q2)) db
                = Some (p2 ++ lives (xs1 ++ [x]) ++ raws (length xs2) ++ q2)).
        erewrite blk_upd_eq by (rewrite blk_upd_neq; [exact H2|exact Hne]).
        rewrite map_app, <- !app_assoc. reflexivity.
      * intros g' Hg'. specialize (HQ g' (later_trans _ _ _ Hg Hg')).
        rewrite <- !app_assoc. cbn [app].
        rewrite upd4 by assumption. exact HQ.
      * intros k Ht Hb. specialize (HE (S k) Ht). cbn [firstn skipn map app] in HE.
        rewrite app_length. cbn [length].
        replace (length xs1 + 1 + length xs2)%nat with (length xs1 + S (length xs2))%nat by lia.
        rewrite <- !app_assoc. cbn [app].
        assert (Hb' : bud s <> None) by (intros Hn; apply Hb; exact (Hg Hn)).
        specialize (HE Hb').
        rewrite upd4 by assumption. exact HE.
    + intros Ht Hb. eapply sat_eq.
      * apply (destroy_range_eq xs1) with (pre := p2) (post := raws (S (length xs2)) ++ q2); [exact H2|reflexivity].
      * specialize (HE 0%nat Ht Hb). cbn [firstn skipn map app] in HE.
        rewrite repeat_app, <- app_assoc, map_app, <- app_assoc in HE. cbn [map app] in HE.
        rewrite (upd_same s sb) in HE by assumption. exact HE.
Qed.
(** uninitialized_move_or_copy *)
Lemma umc_sat xs s sb db p1 q1 p2 q2 so do (Q : unit -> state -> Prop) (E : exn -> state -> Prop) :
  sb <> db -> so = length p1 -> do = length p2 ->
  blk s sb = Some (p1 ++ lives xs ++ q1) -> blk s db = Some (p2 ++ raws (length xs) ++ q2) ->
  (forall g ys, later (bud s) g -> length ys = length xs ->
     Q tt (with_bud g (upd (upd s sb (p1 ++ lives ys ++ q1)) db (p2 ++ lives xs ++ q2)))) ->
  (forall ys, bud s <> None -> length ys = length xs ->
     (nothrow_move || copyable = true -> ys = xs) ->
     E UserException (with_bud None (upd s sb (p1 ++ lives ys ++ q1)))) ->
  sat (uninit_move_or_copy mv nothrow_move copyable (sb, so) (db, do) (length xs)) s Q E.
Proof.
  intros Hne Hs Hd H1 H2 HQ HE.
  assert (Hgen : forall ctor f thr, transfers ctor f thr ->
    (thr = true -> nothrow_move || copyable = true -> forall x, f x = x) ->
    sat (uninit_loop ctor (sb, so) (db, do) 0 (length xs)) s Q E).
  { intros ctor f thr Hc Hf.
    change 0%nat with (length (@nil A)).
    eapply (uninit_loop_sat ctor f thr Hc xs) with (p1 := p1) (q1 := q1) (p2 := p2) (q2 := q2) (ys := []);
      try assumption; try reflexivity.
    - intros g Hg. cbn [app]. apply HQ; [assumption|apply map_length].
    - intros k Ht Hb. cbn [app length Nat.add].
      specialize (HE (map f (firstn k xs) ++ skipn k xs) Hb).
      rewrite upd_comm by assumption. rewrite (upd_same s db) by assumption. apply HE.
      + rewrite app_length, map_length, <- app_length, firstn_skipn. reflexivity.
      + intros Hn. rewrite (map_ext _ (fun x => x)) by (intros; apply Hf; assumption).
        rewrite map_id, firstn_skipn. reflexivity. }
  unfold uninit_move_or_copy, uninit_move, uninit_copy.
  destruct nothrow_move eqn:En; [|destruct copyable eqn:Ec].
  - rewrite <- En. apply (Hgen _ mv (negb nothrow_move)); [apply transfers_move|]. rewrite En. discriminate.
  - apply (Hgen _ (fun x => x) true); [apply transfers_copy|auto].
  - rewrite <- En at 1. apply (Hgen _ mv (negb nothrow_move)); [apply transfers_move|]. cbn. discriminate.
Qed.
Lemma uninit_copy_sat xs s sb db p1 q1 p2 q2 so do (Q : unit -> state -> Prop) (E : exn -> state -> Prop) :
  sb <> db -> so = length p1 -> do = length p2 ->
  blk s sb = Some (p1 ++ lives xs ++ q1) -> blk s db = Some (p2 ++ raws (length xs) ++ q2) ->
  (forall g, later (bud s) g -> Q tt (with_bud g (upd s db (p2 ++ lives xs ++ q2)))) ->
  (bud s <> None -> E UserException (with_bud None s)) ->
  sat (uninit_copy (sb, so) (db, do) (length xs)) s Q E.
Proof.
  intros Hne Hs Hd H1 H2 HQ HE. unfold uninit_copy. change 0%nat with (length (@nil A)).
  eapply (uninit_loop_sat _ _ _ transfers_copy xs) with (p1 := p1) (q1 := q1) (p2 := p2) (q2 := q2) (ys := []);
    try assumption; try reflexivity.
  - intros g Hg. cbn [app]. rewrite map_id, (upd_same s sb) by assumption. apply HQ. assumption.
  - intros k _ Hb. cbn [app length Nat.add]. rewrite map_id, firstn_skipn.
    rewrite upd_comm by assumption. rewrite (upd_same s db) by assumption. rewrite (upd_same s sb) by assumption.
    apply HE. assumption.
Qed.

(** loops that construct elements from given values and clean up after an exception *)
Lemma copy_range_loop_sat xs2 : forall s b pre post xs1 (Q : unit -> state -> Prop) (E : exn -> state -> Prop) k,
  k = length pre -> blk s b = Some (pre ++ lives xs1 ++ raws (length xs2) ++ post) ->
  (forall g, later (bud s) g -> Q tt (with_bud g (upd s b (pre ++ lives (xs1 ++ xs2) ++ post)))) ->
  (bud s <> None -> E UserException (with_bud None (upd s b (pre ++ raws (length xs1 + length xs2) ++ post)))) ->
  sat (copy_range_loop (b, k) (length xs1) xs2) s Q E.
Proof.
  induction xs2 as [|x xs2 IH]; intros s b pre post xs1 Q E k -> H HQ HE;
    cbn [length copy_range_loop map app repeat] in *.
  - specialize (HQ (bud s) (later_refl _)). rewrite app_nil_r in HQ.
    rewrite (upd_same s b) in HQ by assumption. rewrite with_bud_same in HQ. apply sat_ret. assumption.
  - apply sat_bind, sat_on_throw, sat_bind. apply sat_tick.
    + intros g Hg. rewrite off_pair. eapply sat_eq.
      * apply construct_eq with (pre := pre ++ lives xs1) (post := raws (length xs2) ++ post);
          [rewrite <- app_assoc; exact H|rewrite app_length, map_length; lia].
      * replace (S (length xs1)) with (length (xs1 ++ [x])) by (rewrite app_length; cbn; lia).
        eapply IH with (pre := pre) (post := post).
        -- reflexivity.
        -- erewrite blk_upd_eq by exact H. rewrite map_app, <- !app_assoc. reflexivity.
        -- intros g' Hg'. rewrite upd_upd, <- app_assoc. apply (HQ g' (later_trans _ _ _ Hg Hg')).
        -- intros Hb. rewrite upd_upd, app_length. cbn [length].
           replace (length xs1 + 1 + length xs2)%nat with (length xs1 + S (length xs2))%nat by lia.
           apply HE. intros Hn. apply Hb. exact (Hg Hn).
    + intros Hb. eapply sat_eq.
      * apply (destroy_range_eq xs1) with (pre := pre) (post := raws (S (length xs2)) ++ post); [exact H|reflexivity].
      * specialize (HE Hb). rewrite repeat_app, <- app_assoc in HE. exact HE.
Qed.
Lemma copy_range_sat xs s b pre post (Q : unit -> state -> Prop) (E : exn -> state -> Prop) k :
  k = length pre -> blk s b = Some (pre ++ raws (length xs) ++ post) ->
  (forall g, later (bud s) g -> Q tt (with_bud g (upd s b (pre ++ lives xs ++ post)))) ->
  (bud s <> None -> E UserException (with_bud None s)) ->
  sat (copy_range (b, k) xs) s Q E.
Proof.
  intros -> H HQ HE. unfold copy_range. change 0%nat with (length (@nil A)).
  eapply copy_range_loop_sat with (pre := pre) (post := post); [reflexivity|exact H|exact HQ|].
  intros Hb. cbn [length Nat.add]. rewrite (upd_same s b) by assumption. apply HE. assumption.
Qed.
Lemma fill_default_is_copy n : forall p k, fill_default_loop d p k n = copy_range_loop p k (repeat d n).
Proof. induction n as [|n IH]; intros p k; cbn [fill_default_loop repeat copy_range_loop]; [reflexivity|]. rewrite IH. reflexivity. Qed.
Lemma fill_default_sat n s b pre post (Q : unit -> state -> Prop) (E : exn -> state -> Prop) k :
  k = length pre -> blk s b = Some (pre ++ raws n ++ post) ->
  (forall g, later (bud s) g -> Q tt (with_bud g (upd s b (pre ++ lives (repeat d n) ++ post)))) ->
  (bud s <> None -> E UserException (with_bud None s)) ->
  sat (fill_default d (b, k) n) s Q E.
Proof.
  intros Hk H HQ HE. unfold fill_default. rewrite fill_default_is_copy.
  apply copy_range_sat with (pre := pre) (post := post); auto. rewrite repeat_length. assumption.
Qed.

(** loops without clean-up, when nothing throws *)
Lemma tick_none s : bud s = None -> tick s = Done _ s tt.
Proof. unfold tick. intros ->. reflexivity. Qed.
Lemma tick_move_none s : bud s = None -> tick_move nothrow_move s = Done _ s tt.
Proof. unfold tick_move. intros H. destruct nothrow_move; [reflexivity|apply tick_none; assumption]. Qed.
Lemma bind_eq {X Y} (m : comp X) (f : X -> comp Y) s s' x : m s = Done _ s' x -> bindc m f s = f x s'.
Proof. unfold bindc. intros ->. reflexivity. Qed.

Lemma copy_value_eq n x : forall s b pre post k,
  bud s = None -> k = length pre -> blk s b = Some (pre ++ raws n ++ post) ->
  copy_value (b, k) n (Val x) s = Done _ (upd s b (pre ++ lives (repeat x n) ++ post)) tt.
Proof.
  induction n as [|n IH]; intros s b pre post k Hb Hk H; cbn [copy_value repeat map app] in *.
  - rewrite (upd_same s b) by assumption. reflexivity.
  - cbn [read_arg]. erewrite bind_eq; [|erewrite bind_eq by (apply tick_none; assumption); cbn;
      unfold bindc, ret; eapply construct_eq; eassumption].
    rewrite off_pair, (IH _ b (pre ++ [Live x]) post).
    + rewrite upd_upd, <- app_assoc. reflexivity.
    + exact Hb.
    + rewrite app_length. cbn. lia.
    + erewrite blk_upd_eq by eassumption. rewrite <- app_assoc. reflexivity.
Qed.
Lemma default_loop_is_copy n : forall p s, default_loop d p n s = copy_value p n (Val d) s.
Proof.
  induction n as [|n IH]; intros p s; cbn [default_loop copy_value read_arg]; [reflexivity|].
  unfold bindc, ret. destruct (tick s); auto. destruct (construct p d s0); auto.
Qed.
Lemma copy_n_eq xs : forall s b pre ys post k,
  bud s = None -> k = length pre -> length ys = length xs -> blk s b = Some (pre ++ lives ys ++ post) ->
  copy_n xs (b, k) s = Done _ (upd s b (pre ++ lives xs ++ post)) tt.
Proof.
  induction xs as [|x xs IH]; intros s b pre ys post k Hb Hk Hl H; destruct ys as [|y ys]; try discriminate Hl;
    cbn [copy_n map app] in *.
  - rewrite (upd_same s b) by assumption. reflexivity.
  - erewrite bind_eq; [|erewrite bind_eq by (apply tick_none; assumption); eapply poke_eq; eassumption].
    rewrite off_pair, (IH _ b (pre ++ [Live x]) ys post).
    + rewrite upd_upd, <- app_assoc. reflexivity.
    + exact Hb.
    + rewrite app_length. cbn. lia.
    + cbn in Hl. congruence.
    + erewrite blk_upd_eq by eassumption. rewrite <- app_assoc. reflexivity.
Qed.
Lemma fill_n_is_copy_n n x : forall p s, fill_n p n (Val x) s = copy_n (repeat x n) p s.
Proof.
  induction n as [|n IH]; intros p s; cbn [fill_n repeat copy_n read_arg]; [reflexivity|].
  unfold bindc, ret. destruct (tick s); auto. destruct (poke p x s0); auto.
Qed.
Lemma move_assign_eq s b p1 y mid x q1 : bud s = None ->
  blk s b = Some (p1 ++ Live y :: mid ++ Live x :: q1) ->
  move_assign mv nothrow_move (b, length p1) (b, (length p1 + S (length mid))%nat) s
  = Done _ (upd s b (p1 ++ Live x :: mid ++ Live (mv x) :: q1)) tt.
Proof.
  intros Hb H. unfold move_assign.
  erewrite bind_eq by (apply tick_move_none; assumption).
  erewrite bind_eq.
  2:{ apply take_eq with (pre := p1 ++ Live y :: mid) (post := q1) (x := x);
      [rewrite <- app_assoc; exact H|rewrite app_length; cbn; lia]. }
  erewrite poke_eq with (pre := p1) (x := y) (post := mid ++ Live (mv x) :: q1).
  - rewrite upd_upd. reflexivity.
  - erewrite blk_upd_eq by eassumption. rewrite <- app_assoc. reflexivity.
  - reflexivity.
Qed.
Lemma move_assign_self s b p1 x q1 : bud s = None -> blk s b = Some (p1 ++ Live x :: q1) ->
  move_assign mv nothrow_move (b, length p1) (b, length p1) s = Done _ s tt.
Proof.
  intros Hb H. unfold move_assign.
  erewrite bind_eq by (apply tick_move_none; assumption).
  erewrite bind_eq by (eapply take_eq; [exact H|reflexivity]).
  erewrite poke_eq by (try reflexivity; eapply blk_upd_eq; eassumption).
  rewrite upd_upd, (upd_same s b) by assumption. reflexivity.
Qed.
Lemma move_assign_back s b p1 x mid y q1 : bud s = None ->
  blk s b = Some (p1 ++ Live x :: mid ++ Live y :: q1) ->
  move_assign mv nothrow_move (b, (length p1 + S (length mid))%nat) (b, length p1) s
  = Done _ (upd s b (p1 ++ Live (mv x) :: mid ++ Live x :: q1)) tt.
Proof.
  intros Hb H. unfold move_assign.
  erewrite bind_eq by (apply tick_move_none; assumption).
  erewrite bind_eq by (eapply take_eq; [exact H|reflexivity]).
  erewrite poke_eq with (pre := p1 ++ Live (mv x) :: mid) (x := y) (post := q1).
  - rewrite upd_upd, <- app_assoc. reflexivity.
  - erewrite blk_upd_eq by eassumption. rewrite <- app_assoc. reflexivity.
  - rewrite app_length. cbn. lia.
Qed.
Lemma move_fwd_eq xs : forall s b pre gap post k k',
  bud s = None -> k = (length pre + length gap)%nat -> k' = length pre ->
  blk s b = Some (pre ++ lives gap ++ lives xs ++ post) ->
  exists ys, length ys = length gap /\
  move_fwd mv nothrow_move (b, k) (b, k') (length xs) s = Done _ (upd s b (pre ++ lives xs ++ lives ys ++ post)) tt.
Proof.
  induction xs as [|x xs IH]; intros s b pre gap post k k' Hb -> -> H; cbn [length move_fwd map app] in *.
  - exists gap. split; [reflexivity|]. rewrite (upd_same s b) by assumption. reflexivity.
  - rewrite !off_pair. destruct gap as [|g gap]; cbn [length map app] in *.
    + rewrite Nat.add_0_r. destruct (IH s b (pre ++ [Live x]) [] post (length pre + 1) (length pre + 1))%nat as (ys & Hy & E).
      * assumption.
      * rewrite app_length. cbn. lia.
      * rewrite app_length. cbn. lia.
      * rewrite <- app_assoc. exact H.
      * exists ys. split; [assumption|]. erewrite bind_eq by (eapply move_assign_self; eassumption).
        rewrite E, <- app_assoc. reflexivity.
    + destruct (IH (upd s b (pre ++ Live x :: lives gap ++ Live (mv x) :: lives xs ++ post)) b (pre ++ [Live x]) (gap ++ [mv x]) post
                  (length pre + S (length gap) + 1) (length pre + 1))%nat as (ys & Hy & E).
      * assumption.
      * rewrite !app_length. cbn. lia.
      * rewrite app_length. cbn. lia.
      * erewrite blk_upd_eq by eassumption. rewrite map_app, <- !app_assoc. reflexivity.
      * exists ys. split; [rewrite Hy, app_length; cbn; lia|].
        erewrite bind_eq.
        2:{ replace (S (length gap)) with (S (length (lives gap))) by (rewrite map_length; reflexivity).
            apply move_assign_eq with (q1 := lives xs ++ post) (mid := lives gap) (y := g) (x := x); [assumption|].
            exact H. }
        rewrite E, upd_upd, <- app_assoc. reflexivity.
Qed.
Lemma move_bwd_eq xs : forall s b pre gap post k k',
  bud s = None -> k = length pre -> k' = (length pre + length gap)%nat ->
  blk s b = Some (pre ++ lives xs ++ lives gap ++ post) ->
  exists ys, length ys = length gap /\
  move_bwd mv nothrow_move (b, k) (b, k') (length xs) s = Done _ (upd s b (pre ++ lives ys ++ lives xs ++ post)) tt.
Proof.
  induction xs as [|x xs IH] using rev_ind; intros s b pre gap post k k' Hb -> -> H; cbn [map app] in *.
  - exists gap. split; [reflexivity|]. rewrite (upd_same s b) by assumption. reflexivity.
  - rewrite app_length. cbn [length]. rewrite Nat.add_1_r. cbn [move_bwd]. rewrite !off_pair.
    rewrite map_app, <- !app_assoc in H. cbn [map app] in H.
    destruct gap as [|g gap] using rev_ind; [|clear IHgap]; cbn [length map app] in *.
    + rewrite Nat.add_0_r. destruct (IH s b pre [] (Live x :: post) (length pre) (length pre))%nat as (ys & Hy & E).
      * assumption.
      * reflexivity.
      * cbn. lia.
      * exact H.
      * exists ys. split; [assumption|].
        erewrite bind_eq.
        2:{ replace (length pre + length xs)%nat with (length (pre ++ lives xs)) by (rewrite app_length, map_length; reflexivity).
            eapply move_assign_self; [assumption|rewrite <- app_assoc; exact H]. }
        rewrite E. destruct ys; [|discriminate Hy]. cbn [map app]. rewrite map_app, <- app_assoc. reflexivity.
    + rewrite map_app, <- app_assoc in H. cbn [map app] in H.
      destruct (IH (upd s b (pre ++ lives xs ++ Live (mv x) :: lives gap ++ Live x :: post)) b pre (mv x :: gap) (Live x :: post)
                  (length pre) (length pre + S (length gap))%nat) as (ys & Hy & E).
      * assumption.
      * reflexivity.
      * reflexivity.
      * erewrite blk_upd_eq by eassumption. reflexivity.
      * exists ys. split; [rewrite Hy, app_length; cbn; lia|].
        erewrite bind_eq.
        2:{ replace (length pre + length (gap ++ [g]) + length xs)%nat
              with (length (pre ++ lives xs) + S (length (lives gap)))%nat
              by (rewrite !app_length, !map_length; cbn; lia).
            replace (length pre + length xs)%nat with (length (pre ++ lives xs)) by (rewrite app_length, map_length; reflexivity).
            apply move_assign_back with (x := x) (y := g) (q1 := post); [assumption|].
            rewrite <- app_assoc. exact H. }
        rewrite <- app_assoc.
        replace (length pre + length (gap ++ [g]))%nat with (length pre + S (length gap))%nat by (rewrite app_length; cbn; lia).
        rewrite E, upd_upd, map_app, <- app_assoc. reflexivity.
Qed.
Lemma move_init_eq xs : forall s b pre mid post k k',
  bud s = None -> k = length pre -> k' = (length pre + length xs + length mid)%nat ->
  blk s b = Some (pre ++ lives xs ++ mid ++ raws (length xs) ++ post) ->
  move_init mv nothrow_move (b, k) (b, k') (length xs) s
  = Done _ (upd s b (pre ++ lives (map mv xs) ++ mid ++ lives xs ++ post)) tt.
Proof.
  induction xs as [|x xs IH]; intros s b pre mid post k k' Hb -> -> H; cbn [length move_init map app repeat] in *.
  - rewrite (upd_same s b) by assumption. reflexivity.
  - rewrite !off_pair. unfold move_construct.
    erewrite bind_eq.
    2:{ erewrite bind_eq by (apply tick_move_none; assumption).
        erewrite bind_eq by (eapply take_eq; [exact H|reflexivity]).
        eapply construct_eq with (pre := pre ++ Live (mv x) :: lives xs ++ mid) (post := raws (length xs) ++ post).
        - erewrite blk_upd_eq by eassumption. rewrite <- !app_assoc. cbn [app]. rewrite <- app_assoc. reflexivity.
        - rewrite app_length. cbn [length]. rewrite app_length, map_length. lia. }
    rewrite (IH _ b (pre ++ [Live (mv x)]) (mid ++ [Live x]) post).
    + rewrite !upd_upd, <- !app_assoc. reflexivity.
    + exact Hb.
    + rewrite app_length. cbn. lia.
    + rewrite !app_length. cbn. lia.
    + rewrite upd_upd. erewrite blk_upd_eq by eassumption. rewrite <- !app_assoc. cbn [app]. rewrite <- app_assoc. reflexivity.
Qed.
Lemma read_all_eq xs : forall s b pre post k,
  k = length pre -> blk s b = Some (pre ++ lives xs ++ post) -> read_all (b, k) (length xs) s = Done _ s xs.
Proof.
  induction xs as [|x xs IH]; intros s b pre post k -> H; cbn [length read_all map app] in *; [reflexivity|].
  erewrite bind_eq by (eapply rd_eq; [exact H|reflexivity]). rewrite off_pair.
  erewrite bind_eq.
  2:{ eapply IH with (pre := pre ++ [Live x]) (post := post); [rewrite app_length; reflexivity|rewrite <- app_assoc; exact H]. }
  reflexivity.
Qed.
Lemma swap_elements_eq xs : forall ys s b1 b2 p1 p2 q1 q2 k1 k2,
  bud s = None -> b1 <> b2 -> length xs = length ys -> k1 = length p1 -> k2 = length p2 ->
  blk s b1 = Some (p1 ++ lives xs ++ q1) -> blk s b2 = Some (p2 ++ lives ys ++ q2) ->
  swap_elements mv nothrow_move (b1, k1) (b2, k2) (length xs) s
  = Done _ (upd (upd s b1 (p1 ++ lives ys ++ q1)) b2 (p2 ++ lives xs ++ q2)) tt.
Proof.
  induction xs as [|x xs IH]; intros [|y ys] s b1 b2 p1 p2 q1 q2 k1 k2 Hb Hne Hl -> -> H1 H2; try discriminate Hl;
    cbn [length swap_elements map app] in *.
  - rewrite (upd_same s b1) by assumption. rewrite (upd_same s b2) by assumption. reflexivity.
  - erewrite bind_eq by (apply tick_move_none; assumption).
    erewrite bind_eq by (eapply take_eq; [exact H1|reflexivity]).
    assert (H2' : blk (upd s b1 (p1 ++ Live (mv x) :: lives xs ++ q1)) b2 = Some (p2 ++ Live y :: lives ys ++ q2))
      by (rewrite blk_upd_neq by assumption; exact H2).
    erewrite bind_eq.
    2:{ unfold move_assign. erewrite bind_eq by (apply tick_move_none; assumption).
        erewrite bind_eq by (eapply take_eq; [exact H2'|reflexivity]).
        eapply poke_eq; [|reflexivity]. rewrite blk_upd_neq by auto. eapply blk_upd_eq; exact H1. }
    erewrite bind_eq by (apply tick_move_none; assumption).
    erewrite bind_eq.
    2:{ eapply poke_eq; [|reflexivity]. rewrite blk_upd_neq by assumption. eapply blk_upd_eq; exact H2'. }
    rewrite !off_pair, (IH ys _ b1 b2 (p1 ++ [Live y]) (p2 ++ [Live x]) q1 q2).
    + f_equal. rewrite <- !app_assoc. cbn [app].
      rewrite (upd_comm _ b2 b1) by auto. rewrite !upd_upd.
      rewrite (upd_comm _ b1 b2) by auto. rewrite upd_upd.
      rewrite (upd_comm (upd s b1 _) b2 b1) by auto. rewrite !upd_upd.
      rewrite ?(upd_comm _ b2 b1) by auto. rewrite ?upd_upd. reflexivity.
    + exact Hb.
    + assumption.
    + congruence.
    + rewrite app_length; reflexivity.
    + rewrite app_length; reflexivity.
    + rewrite blk_upd_neq by auto.
      erewrite blk_upd_eq; [rewrite <- app_assoc; reflexivity|].
      rewrite blk_upd_neq by auto. eapply blk_upd_eq; exact H1.
    + erewrite blk_upd_eq; [rewrite <- app_assoc; reflexivity|].
      rewrite blk_upd_neq by auto. eapply blk_upd_eq; exact H2'.
Qed.
End Vec.
