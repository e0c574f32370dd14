(** Exceptions in any call: it never has undefined behavior, and if it returns it has the effect
    of the same call without exceptions. *)
From Verif Require Import Base VecModel VecProofs VecProofs2 VecProofs3 VecProofs4 VecProofs5 VecProofs6 VecProofs7 VecSpec VecProofs8 VecProofs9 VecProofs10 VecProofs11.
From Coq Require Import PeanoNat.

Section Vec.
Context {A : Type} (d : A) (mv : A -> A) (nothrow_move copyable : bool) (N M : nat).
Notation state := (@state A).
Notation comp := (@comp A).
Notation cell := (@cell A).
Notation Live := (@Live A).
Notation Raw := (@Raw A).
Notation blk := (@blk A).
Notation upd := (@upd A).
Notation with_bud := (@with_bud A).
Notation exec := (exec d N M mv nothrow_move copyable).
Notation meaning := (meaning d N M).
Notation WFc := (WFc (A := A) N M).
Implicit Types s : state.

(** Which cells of block b are raw *)
Definition rm s (b : nat) : option (list bool) := option_map (map is_raw) (blk s b).
Definition same_raw s s' : Prop := forall b, rm s' b = rm s b.

(** With a budget, the run follows the run without exceptions until it throws, in which case the
    state is related to the first one by P *)
Definition TrP (P : state -> state -> Prop) {X} (m : comp X) s : Prop :=
  forall s1 x, m (with_bud None s) = Done _ s1 x -> bud s1 = None /\
  forall g, match m (with_bud g s) with
            | Done _ s2 y => y = x /\ with_bud None s2 = s1 /\ later g (bud s2)
            | Thrown _ e s2 => e = UserException /\ g <> None /\ P s s2
            | Undef _ => False
            end.
Definition Tr {X} (m : comp X) : Prop := forall s, TrP (fun _ _ => True) m s.
Lemma wb_id s : bud s = None -> with_bud None s = s.
Proof. destruct s; cbn. intros ->. reflexivity. Qed.
Lemma wb_wb s g g' : with_bud g (with_bud g' s) = with_bud g s.
Proof. reflexivity. Qed.
Lemma wb_of s s1 : with_bud None s = s1 -> s = with_bud (bud s) s1.
Proof. intros <-. destruct s; reflexivity. Qed.
Lemma TrP_bind (P : state -> state -> Prop) {X Y} (m : comp X) (f : X -> comp Y) s :
  TrP P m s -> (forall s1 x, m (with_bud None s) = Done _ s1 x -> TrP (fun a b => P s b) (f x) s1) -> TrP P (bindc m f) s.
Proof.
  intros H1 H2 s2 y E. unfold bindc in E. destruct (m (with_bud None s)) as [s1 x| |] eqn:E1; try discriminate E.
  destruct (H1 s1 x E1) as [B1 G1]. specialize (H2 s1 x eq_refl).
  assert (E2 : f x (with_bud None s1) = Done _ s2 y) by (rewrite wb_id by assumption; exact E).
  destruct (H2 s2 y E2) as [B2 G2]. split; [exact B2|]. intros g. unfold bindc. specialize (G1 g).
  destruct (m (with_bud g s)) as [s1' x'|e s1'|]; [|exact G1|contradiction].
  destruct G1 as (-> & Hs & Hl). specialize (G2 (bud s1')). rewrite <- (wb_of _ _ Hs) in G2.
  destruct (f x s1') as [s2' y'|e s2'|]; [| |contradiction].
  - destruct G2 as (G2 & G3 & G4). split; [exact G2|]. split; [exact G3|]. eapply later_trans; eassumption.
  - destruct G2 as (G2 & G3 & G4). split; [exact G2|]. split; [|exact G4]. intros ->. apply G3. apply Hl. reflexivity.
Qed.
Lemma TrP_weak (P P' : state -> state -> Prop) {X} (m : comp X) s : (forall s', P s s' -> P' s s') -> TrP P m s -> TrP P' m s.
Proof.
  intros HP H s1 x E. destruct (H s1 x E) as [B G]. split; [exact B|]. intros g. specialize (G g).
  destruct (m (with_bud g s)); auto. destruct G as (? & ? & ?). auto.
Qed.
Lemma Tr_bind {X Y} (m : comp X) (f : X -> comp Y) : Tr m -> (forall x, Tr (f x)) -> Tr (bindc m f).
Proof. intros H1 H2 s. apply TrP_bind; [apply H1|]. intros s1 x _. apply H2. Qed.
Lemma Tr_BI {X} (m : comp X) : BI m -> forall P s, TrP P m s.
Proof.
  intros H P s s1 x E. assert (E0 := E). rewrite H in E. destruct (m s) as [s0 x0| |] eqn:Em; cbn [rebud] in E; try discriminate E.
  injection E as <- <-. split; [reflexivity|]. intros g. rewrite H, Em. cbn [rebud].
  split; [reflexivity|]. split; [reflexivity|]. exact (fun E => E).
Qed.
Lemma Tr_bi {X} (m : comp X) : BI m -> Tr m.
Proof. intros H s. apply Tr_BI. exact H. Qed.
Lemma TrP_tick (P : state -> state -> Prop) s : P s (with_bud None s) -> TrP P tick s.
Proof.
  intros HP s1 x E. cbn in E. injection E as <- <-. split; [reflexivity|]. intros [[|k]|]; cbn.
  - split; [reflexivity|]. split; [discriminate|exact HP].
  - split; [reflexivity|]. split; [reflexivity|]. discriminate.
  - split; [reflexivity|]. split; [reflexivity|]. exact (fun E => E).
Qed.
Lemma Tr_tick : Tr tick. Proof. intros s. apply TrP_tick. exact I. Qed.
Lemma TrP_tick_move (P : state -> state -> Prop) s : P s (with_bud None s) -> TrP P (tick_move nothrow_move) s.
Proof. intros HP. unfold tick_move. destruct nothrow_move; [apply Tr_BI; apply BI_ret|apply TrP_tick; exact HP]. Qed.
Lemma Tr_tick_move : Tr (tick_move nothrow_move). Proof. intros s. apply TrP_tick_move. exact I. Qed.
Lemma Tr_if {X} (b : bool) (m1 m2 : comp X) : Tr m1 -> Tr m2 -> Tr (if b then m1 else m2).
Proof. destruct b; auto. Qed.
Lemma Tr_undef {X} : Tr (undef (X := X)). Proof. intros s s1 x E. discriminate E. Qed.
Lemma Tr_throw {X} e : Tr (throw_ (X := X) e). Proof. intros s s1 x E. discriminate E. Qed.

Create HintDb tr discriminated.
Hint Resolve Tr_tick Tr_tick_move Tr_undef Tr_throw : tr.
Ltac tr := repeat first [solve [auto with tr] | apply Tr_bind; [|intros ?] | apply Tr_if
  | solve [apply Tr_bi; first [apply BI_ret|apply BI_rd|apply BI_construct|apply BI_poke|apply BI_destroy|apply BI_free|apply BI_getv|apply BI_setv
    |apply BI_set_size|apply BI_take|apply BI_destroy_range|apply BI_clear|apply BI_dtor|apply BI_pop_back|apply BI_ctor_default]]].
Lemma Tr_move_construct p q : Tr (move_construct mv nothrow_move p q). Proof. unfold move_construct. tr. Qed.
Lemma Tr_move_assign p q : Tr (move_assign mv nothrow_move p q). Proof. unfold move_assign. tr. Qed.
Lemma Tr_read_arg a : Tr (read_arg a). Proof. destruct a; cbn [read_arg]; tr. Qed.
Hint Resolve Tr_move_construct Tr_move_assign Tr_read_arg : tr.
Lemma Tr_move_fwd n : forall p q, Tr (move_fwd mv nothrow_move p q n).
Proof. induction n; intros p q; cbn [move_fwd]; tr. Qed.
Lemma Tr_move_bwd n : forall p q, Tr (move_bwd mv nothrow_move p q n).
Proof. induction n; intros p q; cbn [move_bwd]; tr. Qed.
Lemma Tr_fill_n n a : forall p, Tr (fill_n p n a).
Proof. induction n; intros p; cbn [fill_n]; tr. Qed.
Lemma Tr_copy_n xs : forall p, Tr (copy_n xs p).
Proof. induction xs; intros p; cbn [copy_n]; tr. Qed.
Lemma Tr_copy_value n a : forall p, Tr (copy_value p n a).
Proof. induction n; intros p; cbn [copy_value]; tr. Qed.
Lemma Tr_move_init n : forall p q, Tr (move_init mv nothrow_move p q n).
Proof. induction n; intros p q; cbn [move_init]; tr. Qed.
Lemma Tr_default_loop n : forall p, Tr (default_loop d p n).
Proof. induction n; intros p; cbn [default_loop]; tr. Qed.
Lemma Tr_swap_elements n : forall p q, Tr (swap_elements mv nothrow_move p q n).
Proof. induction n; intros p q; cbn [swap_elements]; tr. Qed.
Lemma Tr_read_all n : forall p, Tr (read_all (A := A) p n).
Proof. induction n; intros p; cbn [read_all]; tr. Qed.
Lemma Tr_contents j : Tr (contents (A := A) j).
Proof. unfold contents. tr. apply Tr_read_all. Qed.
Hint Resolve Tr_move_fwd Tr_move_bwd Tr_fill_n Tr_copy_n Tr_copy_value Tr_move_init Tr_default_loop Tr_swap_elements Tr_read_all Tr_contents : tr.

(** * Loops that clean up *)
Lemma map_set_nth {X Y} (f : X -> Y) (l : list X) k x : map f (set_nth l k x) = set_nth (map f l) k (f x).
Proof. revert k. induction l as [|y l IH]; intros [|k]; cbn; try reflexivity. f_equal. apply IH. Qed.
Lemma set_nth_id {X} (l : list X) k x : nth_error l k = Some x -> set_nth l k x = l.
Proof. revert k. induction l as [|y l IH]; intros [|k] H; cbn in *; try discriminate; [congruence|]. f_equal. auto. Qed.
Lemma rm_upd s b c b' : rm (upd s b c) b' = if Nat.eqb b b' && Nat.ltb b (length (mem s)) then Some (map is_raw c) else rm s b'.
Proof. unfold rm. rewrite blk_upd. destruct (Nat.eqb b b' && Nat.ltb b (length (mem s))); reflexivity. Qed.
Lemma blk_lt s b c : blk s b = Some c -> (b < length (mem s))%nat.
Proof. unfold VecModel.blk. intros H. apply nth_error_Some. intros E. rewrite E in H. discriminate H. Qed.
Lemma poke_rm p x s s1 u : poke p x s = Done _ s1 u -> same_raw s s1.
Proof.
  unfold poke. destruct (blk s (fst p)) as [c|] eqn:Eb; [|discriminate]. destruct (nth_error c (snd p)) as [[|y]|] eqn:Ec; try discriminate.
  intros E. injection E as <- <-. intros b. rewrite rm_upd. destruct (Nat.eqb_spec (fst p) b) as [<-|]; [|reflexivity]. cbn [andb].
  destruct (Nat.ltb_spec (fst p) (length (mem s))); [|reflexivity]. unfold rm. rewrite Eb. cbn [option_map]. f_equal.
  rewrite map_set_nth. apply set_nth_id. rewrite nth_error_map, Ec. reflexivity.
Qed.
Lemma set_nth_mid {X} (a : list X) y b x : set_nth (a ++ y :: b) (length a) x = a ++ x :: b.
Proof. induction a as [|z a IH]; cbn; [reflexivity|]. f_equal. exact IH. Qed.
Lemma cell_split (pre post : list bool) y (c : list cell) : map is_raw c = pre ++ y :: post ->
  exists z, nth_error c (length pre) = Some z /\ is_raw z = y.
Proof.
  revert pre. induction c as [|z c IH]; intros [|p pre] H; cbn in *; try discriminate H.
  - injection H as H1 H2. exists z. auto.
  - injection H as H1 H2. apply (IH pre H2).
Qed.
Lemma construct_rm b k x s s1 u pre post : construct (b, k) x s = Done _ s1 u -> rm s b = Some (pre ++ post) -> length pre = k ->
  exists post', post = true :: post' /\ rm s1 b = Some (pre ++ false :: post') /\ forall b', b' <> b -> rm s1 b' = rm s b'.
Proof.
  unfold construct. cbn [fst snd]. destruct (blk s b) as [c|] eqn:Eb; [|discriminate]. destruct (nth_error c k) as [[|y]|] eqn:Ec; try discriminate.
  intros E R L. injection E as <- <-. unfold rm in R at 1. rewrite Eb in R. cbn in R. injection R as R.
  destruct post as [|y post'].
  { exfalso. rewrite app_nil_r in R. assert (length c = k) by (rewrite <- (map_length is_raw c), R; exact L).
    assert (nth_error c k <> None) by congruence. apply nth_error_Some in H0. lia. }
  destruct (cell_split pre post' y c R) as (z & Hz & Hy). rewrite L, Ec in Hz. injection Hz as <-. cbn in Hy. subst y.
  exists post'. split; [reflexivity|]. split.
  - rewrite rm_upd, Nat.eqb_refl. destruct (Nat.ltb_spec b (length (mem s))) as [|Z]; [|apply blk_lt in Eb; lia]. cbn [andb].
    f_equal. rewrite map_set_nth, R, <- L. apply set_nth_mid.
  - intros b' Hb'. rewrite rm_upd. destruct (Nat.eqb_spec b b'); [congruence|]. reflexivity.
Qed.
Lemma destroy_rm n : forall b k s pre post, rm s b = Some (pre ++ repeat false n ++ post) -> length pre = k ->
  exists s1, destroy_range (b, k) n s = Done _ s1 tt /\ rm s1 b = Some (pre ++ repeat true n ++ post) /\ (forall b', b' <> b -> rm s1 b' = rm s b') /\ bud s1 = bud s.
Proof.
  induction n as [|n IH]; intros b k s pre post R L; cbn [destroy_range repeat app] in *.
  { exists s. auto. }
  unfold rm in R at 1. destruct (blk s b) as [c|] eqn:Eb; [|discriminate R]. cbn in R. injection R as R.
  destruct (cell_split pre _ _ c R) as (z & Hz & Hy). destruct z as [|z]; [discriminate Hy|]. rewrite L in Hz.
  assert (Ed : destroy (b, k) s = Done _ (upd s b (set_nth c k Raw)) tt).
  { unfold destroy. cbn [fst snd]. rewrite Eb, Hz. reflexivity. }
  unfold bindc. rewrite Ed. change (off (b, k) 1) with (b, (k + 1)%nat).
  destruct (IH b (k + 1)%nat (upd s b (set_nth c k Raw)) (pre ++ [true]) post) as (s1 & E1 & R1 & F1 & B1).
  - rewrite rm_upd, Nat.eqb_refl. destruct (Nat.ltb_spec b (length (mem s))) as [|Z]; [|apply blk_lt in Eb; lia]. cbn [andb].
    f_equal. rewrite map_set_nth, R, <- L, set_nth_mid, <- app_assoc. reflexivity.
  - rewrite app_length, L. reflexivity.
  - exists s1. split; [exact E1|]. split; [rewrite R1, <- app_assoc; reflexivity|]. split; [|exact B1].
    intros b' Hb'. rewrite F1 by assumption. rewrite rm_upd. destruct (Nat.eqb_spec b b'); [congruence|]. reflexivity.
Qed.
Lemma rep_shift {X} (x : X) n l : x :: repeat x n ++ l = repeat x n ++ x :: l.
Proof. induction n; cbn; [reflexivity|]. f_equal. exact IHn. Qed.
(** One step of such a loop: an element is constructed at (b, k0 + k), and the k elements before
    are destroyed if this throws *)
Definition step_ok (m : comp unit) (b k : nat) : Prop :=
  forall s, TrP same_raw m s /\
  forall s1 u pre post, m (with_bud None s) = Done _ s1 u -> rm s b = Some (pre ++ post) -> length pre = k ->
    exists post', post = true :: post' /\ rm s1 b = Some (pre ++ false :: post') /\ forall b', b' <> b -> rm s1 b' = rm s b'.
Fixpoint clean_loop (step : nat -> comp unit) (b k0 k n : nat) : comp unit :=
  match n with
  | O => ret tt
  | S n' => bindc (on_throw (step k) (destroy_range (b, k0) k)) (fun _ => clean_loop step b k0 (S k) n')
  end.
Lemma clean_loop_tr step b k0 : (forall k, step_ok (step k) b (k0 + k)) ->
  forall n k s0 s pre post, rm s0 b = Some (pre ++ repeat true k ++ post) -> rm s b = Some (pre ++ repeat false k ++ post) -> length pre = k0 ->
    (forall b', b' <> b -> rm s b' = rm s0 b') ->
    TrP (fun _ s' => same_raw s0 s') (clean_loop step b k0 k n) s.
Proof.
  intros Hst. induction n as [|n IH]; intros k s0 s pre post R0 R L F; cbn [clean_loop].
  { apply Tr_BI. apply BI_ret. }
  destruct (Hst k s) as [T1 T2]. apply TrP_bind.
  - intros s1 u E. assert (E' : step k (with_bud None s) = Done _ s1 u).
    { unfold on_throw in E. destruct (step k (with_bud None s)) as [s1' u'|e s1'|]; [exact E| |discriminate E].
      destruct (destroy_range (b, k0) k s1'); discriminate E. }
    destruct (T1 s1 u E') as [B G]. split; [exact B|]. intros g. specialize (G g). unfold on_throw.
    destruct (step k (with_bud g s)) as [s2 y|e s2|]; [exact G| |contradiction].
    destruct G as (He & Hg & HR). destruct (destroy_rm k b k0 s2 pre post) as (s3 & E3 & R3 & F3 & _).
    { rewrite HR. exact R. } { exact L. }
    rewrite E3. split; [exact He|]. split; [exact Hg|]. intros b'. destruct (Nat.eq_dec b' b) as [->|Hb].
    + rewrite R3, R0. reflexivity.
    + rewrite F3, HR, F by assumption. reflexivity.
  - intros s1 u E. assert (E' : step k (with_bud None s) = Done _ s1 u).
    { unfold on_throw in E. destruct (step k (with_bud None s)) as [s1' u'|e s1'|]; [exact E| |discriminate E].
      destruct (destroy_range (b, k0) k s1'); discriminate E. }
    destruct (T2 s1 u (pre ++ repeat false k) post E') as (post' & -> & R1 & F1).
    { rewrite <- app_assoc. exact R. } { rewrite app_length, repeat_length, L. reflexivity. }
    apply (IH (S k) s0 s1 pre post').
    + rewrite R0. cbn [repeat app]. rewrite rep_shift. reflexivity.
    + rewrite R1, <- app_assoc. cbn [repeat app]. rewrite rep_shift. reflexivity.
    + exact L.
    + intros b' Hb. rewrite F1, F by assumption. reflexivity.
Qed.
Lemma clean_loop_top step b k0 : (forall k, step_ok (step k) b (k0 + k)) ->
  (forall s s1 u, step 0%nat (with_bud None s) = Done _ s1 u -> exists pre post, rm s b = Some (pre ++ post) /\ length pre = k0) ->
  forall n s, TrP same_raw (clean_loop step b k0 0 n) s.
Proof.
  intros Hst Hroom [|n] s; [apply Tr_BI; apply BI_ret|].
  intros s1 x E. assert (X : exists pre post, rm s b = Some (pre ++ post) /\ length pre = k0).
  { cbn [clean_loop] in E. unfold bindc, on_throw in E. destruct (step 0%nat (with_bud None s)) as [s1' u'|e s1'|] eqn:E1.
    - apply (Hroom s s1' u' E1).
    - destruct (destroy_range (b, k0) 0 s1'); discriminate E.
    - discriminate E. }
  destruct X as (pre & post & R & L). revert s1 x E.
  apply (clean_loop_tr step b k0 Hst (S n) 0 s s pre post R R L). reflexivity.
Qed.
Lemma construct_room b k x s s1 u : construct (b, k) x s = Done _ s1 u -> exists pre post, rm s b = Some (pre ++ post) /\ length pre = k.
Proof.
  unfold construct. cbn [fst snd]. destruct (blk s b) as [c|] eqn:Eb; [|discriminate]. destruct (nth_error c k) as [y|] eqn:Ec; [|discriminate].
  intros _. assert (k < length c)%nat by (apply nth_error_Some; congruence).
  exists (firstn k (map is_raw c)), (skipn k (map is_raw c)). rewrite firstn_skipn. unfold rm. rewrite Eb. split; [reflexivity|].
  rewrite firstn_length, map_length. lia.
Qed.
Lemma rm_wb s g b : rm (with_bud g s) b = rm s b. Proof. reflexivity. Qed.
(** the constructors *)
Lemma take_inv p s s1 x : take mv p s = Done _ s1 x -> same_raw s s1.
Proof.
  unfold take, bindc. intros E. destruct (rd p s) as [s2 y| |] eqn:E1; try discriminate E.
  assert (s2 = s) as ->. { unfold rd in E1. destruct (blk s (fst p)); [|discriminate E1]. destruct (nth_error l (snd p)) as [[]|]; congruence. }
  destruct (poke p (mv y) s) as [s3 u| |] eqn:E2; try discriminate E. injection E as <- _. eapply poke_rm; exact E2.
Qed.
Lemma rd_inv p s s1 x : rd p s = Done _ s1 x -> s1 = s.
Proof. unfold rd. destruct (blk s (fst p)); [|discriminate]. destruct (nth_error l (snd p)) as [[]|]; congruence. Qed.
Lemma ctor_step (t : comp unit) (r : comp A) b k :
  (forall s, TrP same_raw t s) -> (forall s s1 u, t (with_bud None s) = Done _ s1 u -> s1 = with_bud None s) -> BI r ->
  (forall s s1 x, r s = Done _ s1 x -> same_raw s s1) ->
  step_ok (bindc t (fun _ => bindc r (fun x => construct (b, k) x))) b k /\
  forall s s1 u, bindc t (fun _ => bindc r (fun x => construct (b, k) x)) (with_bud None s) = Done _ s1 u ->
    exists pre post, rm s b = Some (pre ++ post) /\ length pre = k.
Proof.
  intros Ht Ht2 Hr Hr2.
  assert (INV : forall s s1 u, bindc t (fun _ => bindc r (fun x => construct (b, k) x)) (with_bud None s) = Done _ s1 u ->
    exists s2 x, same_raw s s2 /\ construct (b, k) x s2 = Done _ s1 u).
  { intros s s1 u E. unfold bindc in E. destruct (t (with_bud None s)) as [s2 v| |] eqn:E1; try discriminate E.
    apply Ht2 in E1. subst s2. destruct (r (with_bud None s)) as [s2 x| |] eqn:E2; try discriminate E.
    exists s2, x. split; [|exact E]. intros b'. rewrite (Hr2 _ _ _ E2). reflexivity. }
  split.
  - intros s. split.
    + apply TrP_bind; [apply Ht|]. intros s1 u _. apply Tr_BI. apply BI_bind; [exact Hr|]. intros x. apply BI_construct.
    + intros s1 u pre post E R L. destruct (INV s s1 u E) as (s2 & x & S & C).
      destruct (construct_rm b k x s2 s1 u pre post C) as (post' & P1 & P2 & P3); [rewrite S; exact R|exact L|].
      exists post'. split; [exact P1|]. split; [exact P2|]. intros b' Hb. rewrite P3 by assumption. apply S.
  - intros s s1 u E. destruct (INV s s1 u E) as (s2 & x & S & C). destruct (construct_room _ _ _ _ _ _ C) as (pre & post & R & L).
    exists pre, post. split; [rewrite <- S; exact R|exact L].
Qed.
Lemma tick_wb s s1 u : tick (with_bud None s) = Done _ s1 u -> s1 = with_bud None s.
Proof. cbn. congruence. Qed.
Lemma tick_move_wb s s1 u : tick_move nothrow_move (with_bud None s) = Done _ s1 u -> s1 = with_bud None s.
Proof. unfold tick_move. destruct nothrow_move; intros E; injection E as <- _; reflexivity. Qed.
Lemma same_raw_wb s g : same_raw s (with_bud g s). Proof. intros b. reflexivity. Qed.
Lemma uninit_clean ctor src b k0 n : forall k, uninit_loop ctor src (b, k0) k n = clean_loop (fun j => ctor (b, (k0 + j)%nat) (off src j)) b k0 k n.
Proof. induction n as [|n IH]; intros k; cbn [uninit_loop clean_loop]; [reflexivity|]. rewrite IH. reflexivity. Qed.
Lemma uninit_move_tr src b k0 n s : TrP same_raw (uninit_move mv nothrow_move src (b, k0) n) s.
Proof.
  unfold uninit_move. rewrite uninit_clean. apply clean_loop_top; intros.
  - unfold move_construct. apply (ctor_step (tick_move nothrow_move) (take mv (off src k)) b (k0 + k)).
    + intros s0. apply TrP_tick_move, same_raw_wb. + apply tick_move_wb. + apply BI_take. + apply take_inv.
  - assert (K : exists pre post, rm s0 b = Some (pre ++ post) /\ length pre = (k0 + 0)%nat); [eapply (ctor_step (tick_move nothrow_move) (take mv (off src 0)) b (k0 + 0)); [..|exact H]|rewrite Nat.add_0_r in K; exact K].
    + intros s3. apply TrP_tick_move, same_raw_wb. + apply tick_move_wb. + apply BI_take. + apply take_inv.
Qed.
Lemma uninit_copy_tr src b k0 n s : TrP same_raw (uninit_copy src (b, k0) n) s.
Proof.
  unfold uninit_copy. rewrite uninit_clean. apply clean_loop_top; intros.
  - unfold copy_construct. apply (ctor_step tick (rd (off src k)) b (k0 + k)).
    + intros s0. apply TrP_tick, same_raw_wb. + apply tick_wb. + apply BI_rd. + intros s2 s3 x E. apply rd_inv in E. subst. intros b'. reflexivity.
  - assert (K : exists pre post, rm s0 b = Some (pre ++ post) /\ length pre = (k0 + 0)%nat); [eapply (ctor_step tick (rd (off src 0)) b (k0 + 0)); [..|exact H]|rewrite Nat.add_0_r in K; exact K].
    + intros s3. apply TrP_tick, same_raw_wb. + apply tick_wb. + apply BI_rd. + intros s2 s3 x E. apply rd_inv in E. subst. intros b'. reflexivity.
Qed.
Lemma umc_tr src b k0 n s : TrP same_raw (uninit_move_or_copy mv nothrow_move copyable src (b, k0) n) s.
Proof. unfold uninit_move_or_copy. destruct nothrow_move eqn:E; [rewrite <- E; apply uninit_move_tr|]. destruct copyable; [apply uninit_copy_tr|rewrite <- E; apply uninit_move_tr]. Qed.
Lemma Tr_umc src dst n : Tr (uninit_move_or_copy mv nothrow_move copyable src dst n).
Proof. intros s. destruct dst as [b k0]. eapply TrP_weak; [|apply umc_tr]. auto. Qed.
Lemma copy_range_clean xs : forall b k0 k f, (forall j, f (k + j)%nat = nth j xs d) ->
  copy_range_loop (b, k0) k xs = clean_loop (fun j => bindc tick (fun _ => bindc (ret (f j)) (fun x => construct (b, (k0 + j)%nat) x))) b k0 k (length xs).
Proof.
  induction xs as [|x xs IH]; intros b k0 k f Hf; cbn [copy_range_loop clean_loop length]; [reflexivity|].
  rewrite (IH b k0 (S k) f).
  - specialize (Hf 0%nat). rewrite Nat.add_0_r in Hf. cbn in Hf. rewrite Hf. reflexivity.
  - intros j. specialize (Hf (S j)). cbn [nth] in Hf. rewrite <- Hf. f_equal. lia.
Qed.
Lemma copy_range_tr b k0 xs s : TrP same_raw (copy_range (b, k0) xs) s.
Proof.
  unfold copy_range. rewrite (copy_range_clean xs b k0 0 (fun j => nth j xs d)) by reflexivity. apply clean_loop_top; intros.
  - apply (ctor_step tick (ret (nth k xs d)) b (k0 + k)).
    + intros s0. apply TrP_tick, same_raw_wb. + apply tick_wb. + apply BI_ret. + intros s2 s3 x E. injection E as <- _. intros b'. reflexivity.
  - assert (K : exists pre post, rm s0 b = Some (pre ++ post) /\ length pre = (k0 + 0)%nat); [eapply (ctor_step tick (ret (nth 0 xs d)) b (k0 + 0)); [..|exact H]|rewrite Nat.add_0_r in K; exact K].
    + intros s3. apply TrP_tick, same_raw_wb. + apply tick_wb. + apply BI_ret. + intros s2 s3 x E. injection E as <- _. intros b'. reflexivity.
Qed.
Lemma Tr_copy_range p xs : Tr (copy_range p xs).
Proof. intros s. destruct p as [b k0]. eapply TrP_weak; [|apply copy_range_tr]. auto. Qed.
Hint Resolve Tr_umc Tr_copy_range : tr.
Lemma alloc_tr (P : state -> state -> Prop) n s : P s (with_bud None s) -> TrP P (alloc n) s.
Proof.
  intros HP. unfold alloc. apply TrP_bind; [apply TrP_tick; exact HP|]. intros s1 u E. apply Tr_BI. intros s2 g. reflexivity.
Qed.
Lemma rm_alloc n s s1 nb : alloc n (with_bud None s) = Done _ s1 nb -> rm s1 nb = Some (repeat true n).
Proof.
  unfold alloc, bindc. cbn. intros E. injection E as <- <-. unfold rm, VecModel.blk. cbn [mem].
  rewrite nth_error_app2, Nat.sub_diag by lia. cbn. f_equal. induction n; cbn; congruence.
Qed.
Lemma free_raw s b n : rm s b = Some (repeat true n) -> exists s1, free b s = Done _ s1 tt.
Proof.
  unfold rm, free. destruct (blk s b) as [c|]; [|discriminate]. cbn. intros E. injection E as E.
  assert (forallb is_raw c = true) as ->; [|eauto]. revert n E. induction c as [|x c IH]; intros [|n] E; cbn in *; try discriminate E; [reflexivity|].
  injection E as E1 E2. rewrite E1. cbn. eapply IH; exact E2.
Qed.
Lemma Tr_reserve i n : Tr (reserve mv nothrow_move copyable i n).
Proof.
  unfold reserve. apply Tr_bind; [tr|]. intros v. apply Tr_if; [tr|]. intros s. apply TrP_bind; [apply alloc_tr; exact I|].
  intros s1 nb E. apply rm_alloc in E. apply TrP_bind; [|intros s2 u _; match goal with |- TrP _ ?m _ => assert (T : Tr m) by tr; apply T end].
  intros s2 u E2. destruct (umc_tr (data v, 0%nat) nb 0 (size v) s1) with (s1 := s2) (x := u) as [B G].
  { unfold on_throw in E2. destruct (uninit_move_or_copy mv nothrow_move copyable (data v, 0%nat) (nb, 0%nat) (size v) (with_bud None s1)) as [s2' u'|e s2'|]; [exact E2| |discriminate E2].
    destruct (free nb s2'); discriminate E2. }
  split; [exact B|]. intros g. specialize (G g). unfold on_throw.
  destruct (uninit_move_or_copy mv nothrow_move copyable (data v, 0%nat) (nb, 0%nat) (size v) (with_bud g s1)) as [s3 y|e s3|]; [exact G| |contradiction].
  destruct G as (He & Hg & HR). destruct (free_raw s3 nb n) as (s4 & E4); [rewrite HR; exact E|]. rewrite E4. auto.
Qed.
Hint Resolve Tr_reserve : tr.
Lemma Tr_grow i : Tr (grow mv nothrow_move copyable M i). Proof. unfold grow. tr. Qed.
Hint Resolve Tr_grow : tr.
Lemma Tr_push_back i m a : Tr (push_back mv nothrow_move copyable M i m a). Proof. unfold push_back. tr. Qed.
Hint Resolve Tr_push_back : tr.
Lemma Tr_insert_single i p m a : Tr (insert_single mv nothrow_move copyable M i p m a). Proof. unfold insert_single. tr. Qed.
Hint Resolve Tr_insert_single : tr.
Lemma Tr_emplace i p x : Tr (emplace mv nothrow_move copyable M i p x). Proof. unfold emplace. tr. Qed.
Lemma Tr_make_space i p n : Tr (make_space mv nothrow_move copyable M i p n). Proof. unfold make_space. tr. Qed.
Hint Resolve Tr_emplace Tr_make_space : tr.
Lemma Tr_insert_value i p n a : Tr (insert_value mv nothrow_move copyable M i p n a). Proof. unfold insert_value. tr. Qed.
Lemma Tr_insert_range i p xs : Tr (insert_range mv nothrow_move copyable M i p xs). Proof. unfold insert_range. tr. Qed.
Lemma Tr_erase i p n : Tr (erase mv nothrow_move i p n). Proof. unfold erase. tr. Qed.
Lemma Tr_resize_value i n a : Tr (resize_value mv nothrow_move copyable i n a). Proof. unfold resize_value. tr. Qed.
Lemma Tr_fill_value i n a : Tr (fill_value mv nothrow_move copyable i n a). Proof. unfold fill_value. tr. Qed.
Lemma Tr_fill_range i xs : Tr (fill_range mv nothrow_move copyable M i xs). Proof. unfold fill_range. tr. Qed.
Lemma Tr_move_all i j : Tr (move_all_from mv nothrow_move copyable N i j). Proof. unfold move_all_from. tr. Qed.
Hint Resolve Tr_insert_value Tr_insert_range Tr_erase Tr_resize_value Tr_fill_value Tr_fill_range Tr_move_all : tr.
Lemma Tr_assign_move i j : Tr (assign_move mv nothrow_move copyable N i j). Proof. unfold assign_move. tr. Qed.
Lemma Tr_swap i j : Tr (swap mv nothrow_move copyable i j).
Proof. unfold swap, swap_heap_with_heap, swap_heap_with_internal, swap_internal_with_internal. tr. Qed.
Lemma Tr_ctor_n i n : Tr (ctor_n d mv nothrow_move copyable N i n). Proof. unfold ctor_n. tr. Qed.
Hint Resolve Tr_assign_move Tr_swap Tr_ctor_n : tr.
Definition plain_call (op : vop A) : bool :=
  match op with
  | Insert _ _ _ _ | Emplace _ _ _ | InsertN _ _ _ _ | InsertRange _ _ _ | Erase _ _ _ | ResizeWith _ _ _ | AssignN _ _ _
  | Swap _ _ | MoveAssign _ _ | NewN _ _ | NewFilled _ _ _ | NewRange _ _ | NewCopy _ _ | NewMove _ _ => true
  | _ => false
  end.
Lemma exec_Tr op : plain_call op = true -> Tr (exec op).
Proof.
  destruct op; cbn [plain_call VecSpec.exec]; try discriminate; intros _;
    unfold ctor_value, ctor_range, ctor_copy, ctor_move, assign_value; tr.
Qed.
(** Such a call, if it returns, returns what it should *)
Lemma exec_follow s w w' op r g : WFc s w -> (N <= M)%nat -> meaning w op = Some (w', r) -> plain_call op = true ->
  match exec op (with_bud g s) with
  | Done _ s' r' => r' = r /\ WFc s' w'
  | Thrown _ e _ => e = UserException /\ g <> None
  | Undef _ => False
  end.
Proof.
  intros HW HNM Hm HG.
  assert (E : sat (exec op) (with_bud None s) (fun r' s' => r' = r /\ WFc s' w' /\ bud s' = None) (fun _ _ => False)) by (eapply exec_ok; eauto).
  unfold sat in E. destruct (exec op (with_bud None s)) as [s1 r1| |] eqn:E1; try contradiction. destruct E as (-> & W & _).
  destruct (exec_Tr op HG s s1 r E1) as [B G]. specialize (G g). destruct (exec op (with_bud g s)) as [s2 y|e s2|]; [| |exact G].
  + destruct G as (-> & Hs & _). split; [reflexivity|]. rewrite (wb_of _ _ Hs). apply WFc_bud. exact W.
  + destruct G as (He & Hg & _). auto.
Qed.
End Vec.
