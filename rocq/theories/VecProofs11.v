(** Exceptions thrown by elements and by the allocation. *)
From Verif Require Import Base VecModel VecProofs VecProofs2 VecProofs3 VecProofs4 VecProofs5 VecProofs6 VecProofs7 VecSpec VecProofs8 VecProofs9 VecProofs10.
From Coq Require Import Permutation.
From Coq Require Import PeanoNat.

Section Vec.
Context {A : Type} (d : A) (mv : A -> A) (nothrow_move copyable : bool) (N M : nat).
Notation state := (@state A).
Notation comp := (@comp A).
Notation cell := (@cell A).
Notation Live := (@Live A).
Notation Raw := (@Raw A).
Notation blk := (@blk A).
Notation upd := (@upd A).
Notation with_bud := (@with_bud A).
Notation lives := (map Live).
Notation raws := (repeat Raw).
Notation reserve := (reserve mv nothrow_move copyable).
Notation grow := (grow mv nothrow_move copyable M).
Notation push_back := (push_back mv nothrow_move copyable M).
Notation Own := (Own (A := A) N M).
Notation FR := (FR (A := A)).
Notation Exc := (Exc (A := A) nothrow_move copyable N M).
Implicit Types s : state.
Implicit Types l : list A.

Ltac openO H := destruct H as (Ho & Hs & Hl & Hm & Hk & Hb & Hd).
Notation Post := (Post (A := A) N M).
Notation ok m s Q := (sat m s Q (fun _ _ => False)).

Notation WF := (WF (A := A) N M).
Notation world := (@world A).
Notation exec := (exec d N M mv nothrow_move copyable).
Notation meaning := (meaning d N M).

Notation WFc := (WFc (A := A) N M).
Notation kept := (kept (A := A)).
Notation execs := (execs d N M mv nothrow_move copyable).
Notation meanings := (meanings d N M).

(** * Calls that do not throw: their effect does not depend on the budget *)
Definition rebud {X} (g : option nat) (r : res X) : res X :=
  match r with Done _ s x => Done _ (with_bud g s) x | Thrown _ e s => Thrown _ e (with_bud g s) | Undef _ => Undef _ end.
Definition BI {X} (m : comp X) : Prop := forall s g, m (with_bud g s) = rebud g (m s).
Lemma BI_ret {X} (x : X) : BI (ret x). Proof. intros s g. reflexivity. Qed.
Lemma BI_undef {X} : BI (undef (X := X)). Proof. intros s g. reflexivity. Qed.
Lemma BI_bind {X Y} (m : comp X) (f : X -> comp Y) : BI m -> (forall x, BI (f x)) -> BI (bindc m f).
Proof. intros H1 H2 s g. unfold bindc. rewrite H1. destruct (m s); cbn [rebud]; [apply H2|reflexivity|reflexivity]. Qed.
Lemma BI_on_throw {X} (m : comp X) h : BI m -> BI h -> BI (on_throw m h).
Proof.
  intros H1 H2 s g. unfold on_throw. rewrite H1. destruct (m s) as [|e s1|]; cbn [rebud]; try reflexivity.
  rewrite H2. destruct (h s1); reflexivity.
Qed.
Lemma BI_rd p : BI (rd p).
Proof. intros s g. unfold rd. change (blk (with_bud g s) (fst p)) with (blk s (fst p)). destruct (blk s (fst p)); [|reflexivity]. destruct (nth_error _ _) as [[]|]; reflexivity. Qed.
Ltac bi_cell p := let s := fresh in let g := fresh in intros s g;
  change (blk (with_bud g s) (fst p)) with (blk s (fst p)); destruct (blk s (fst p)); [|reflexivity]; destruct (nth_error _ _) as [[]|]; reflexivity.
Lemma BI_construct p x : BI (construct p x). Proof. unfold construct. bi_cell p. Qed.
Lemma BI_poke p x : BI (poke p x). Proof. unfold poke. bi_cell p. Qed.
Lemma BI_destroy p : BI (destroy p). Proof. unfold destroy. bi_cell p. Qed.
Lemma BI_free b : BI (free b).
Proof. intros s g. unfold free. change (blk (with_bud g s) b) with (blk s b). destruct (blk s b); [|reflexivity]. destruct (forallb _ _); reflexivity. Qed.
Lemma BI_getv i : BI (getv i).
Proof. intros s g. unfold getv. cbn [objs VecModel.with_bud]. destruct (nth_error _ _); reflexivity. Qed.
Lemma BI_setv i v : BI (setv i v). Proof. intros s g. reflexivity. Qed.
Lemma BI_if {X} (b : bool) (m1 m2 : comp X) : BI m1 -> BI m2 -> BI (if b then m1 else m2).
Proof. destruct b; auto. Qed.
Create HintDb bi discriminated.
Ltac bi := repeat first [solve [auto with bi] | apply BI_bind; [|intros ?] | apply BI_ret | apply BI_undef | apply BI_rd | apply BI_construct | apply BI_poke | apply BI_destroy
  | apply BI_free | apply BI_getv | apply BI_setv | apply BI_if | apply BI_on_throw].
Lemma BI_set_size i n : BI (set_size i n). Proof. unfold set_size. bi. Qed.
Local Hint Resolve BI_set_size : bi.
Lemma BI_take p : BI (take mv p). Proof. unfold take. bi. Qed.
Local Hint Resolve BI_take : bi.
Lemma BI_destroy_range n : forall p, BI (destroy_range p n).
Proof. induction n; intros p; cbn [destroy_range]; bi. Qed.
Local Hint Resolve BI_destroy_range : bi.
Lemma BI_clear i : BI (clear i).
Proof. unfold clear. bi; try solve [apply BI_destroy_range | apply BI_set_size]. Qed.
Local Hint Resolve BI_clear : bi.
Lemma BI_dtor i : BI (dtor i).
Proof. unfold dtor. bi; try apply BI_clear. Qed.
Local Hint Resolve BI_dtor : bi.
Lemma BI_pop_back i : BI (pop_back i).
Proof. unfold pop_back. bi. destruct (size x); bi; try apply BI_set_size. Qed.
Local Hint Resolve BI_pop_back : bi.
Lemma BI_ctor_default i : BI (ctor_default N i). Proof. unfold ctor_default. bi. Qed.
Local Hint Resolve BI_ctor_default : bi.

Section Nothrow.
Hypothesis Hnt : nothrow_move = true.
Lemma BI_tick_move : BI (tick_move nothrow_move). Proof. unfold tick_move. rewrite Hnt. bi. Qed.
Local Hint Resolve BI_tick_move : bi.
Lemma BI_move_construct p q : BI (move_construct mv nothrow_move p q).
Proof. unfold move_construct. bi; try solve [apply BI_tick_move | apply BI_take]. Qed.
Local Hint Resolve BI_move_construct : bi.
Lemma BI_move_assign p q : BI (move_assign mv nothrow_move p q).
Proof. unfold move_assign. bi; try solve [apply BI_tick_move | apply BI_take]. Qed.
Local Hint Resolve BI_move_assign : bi.
Lemma BI_uninit n : forall src dst k, BI (uninit_loop (move_construct mv nothrow_move) src dst k n).
Proof. induction n; intros; cbn [uninit_loop]; bi; try solve [apply BI_move_construct | apply BI_destroy_range | apply IHn]. Qed.
Local Hint Resolve BI_uninit : bi.
Lemma BI_umc src dst n : BI (uninit_move_or_copy mv nothrow_move copyable src dst n).
Proof. unfold uninit_move_or_copy. rewrite Hnt at 1. apply BI_uninit. Qed.
Local Hint Resolve BI_umc : bi.
Lemma BI_move_fwd n : forall p q, BI (move_fwd mv nothrow_move p q n).
Proof. induction n; intros; cbn [move_fwd]; bi; try solve [apply BI_move_assign | apply IHn]. Qed.
Local Hint Resolve BI_move_fwd : bi.
Lemma BI_move_bwd n : forall p q, BI (move_bwd mv nothrow_move p q n).
Proof. induction n; intros; cbn [move_bwd]; bi; try solve [apply BI_move_assign | apply IHn]. Qed.
Lemma BI_swap_elements n : forall p q, BI (swap_elements mv nothrow_move p q n).
Proof. induction n; intros; cbn [swap_elements]; bi; try solve [apply BI_tick_move | apply BI_take | apply BI_move_assign | apply BI_tick_move | apply IHn]. Qed.
Local Hint Resolve BI_swap_elements : bi.
Lemma BI_erase i pos n : BI (erase mv nothrow_move i pos n).
Proof. unfold erase. bi; try solve [apply BI_move_fwd | apply BI_destroy_range | apply BI_set_size]. Qed.
Local Hint Resolve BI_erase : bi.
Lemma BI_move_all i j : BI (move_all_from mv nothrow_move copyable N i j).
Proof. unfold move_all_from. bi; try solve [apply BI_umc | apply BI_set_size | apply BI_clear]. Qed.
Local Hint Resolve BI_move_all : bi.
Lemma BI_ctor_move i j : BI (ctor_move mv nothrow_move copyable N i j).
Proof. unfold ctor_move. bi; try solve [apply BI_ctor_default | apply BI_move_all]. Qed.
Local Hint Resolve BI_ctor_move : bi.
Lemma BI_assign_move i j : BI (assign_move mv nothrow_move copyable N i j).
Proof. unfold assign_move. bi; try solve [apply BI_clear | apply BI_move_all]. Qed.
Local Hint Resolve BI_assign_move : bi.
Lemma BI_swap i j : BI (swap mv nothrow_move copyable i j).
Proof.
  unfold swap, swap_heap_with_heap, swap_heap_with_internal, swap_internal_with_internal.
  bi; try apply BI_umc; try apply BI_destroy_range; try apply BI_swap_elements; try apply BI_set_size.
Qed.
Local Hint Resolve BI_swap : bi.
End Nothrow.
Lemma exec_BI op : guaranteed nothrow_move op = Some NoThrow -> BI (exec op).
Proof.
  destruct op; cbn [guaranteed VecSpec.exec]; try discriminate; try solve [destruct m, nothrow_move; discriminate | destruct nothrow_move; discriminate]; intros H;
    try (assert (Hnt : nothrow_move = true) by (destruct nothrow_move; congruence));
    first [apply BI_erase; exact Hnt
    | apply BI_bind; [first [apply BI_pop_back|apply BI_clear|apply BI_dtor|apply BI_swap; exact Hnt|apply BI_assign_move; exact Hnt]|intros ?];
      first [apply BI_ret | apply BI_bind; [first [apply BI_ctor_default|apply BI_ctor_move; exact Hnt]|intros ?; apply BI_ret]]].
Qed.
Lemma WFc_bud s w g : WFc s w -> WFc (with_bud g s) w.
Proof. exact (fun H => H). Qed.
Lemma exec_nothrow s w w' op r : WFc s w -> (N <= M)%nat -> guaranteed nothrow_move op = Some NoThrow -> meaning w op = Some (w', r) ->
  exists s', exec op s = Done _ s' r /\ WFc s' w' /\ bud s' = bud s.
Proof.
  intros HW HNM HG H.
  assert (E : ok (exec op) (with_bud None s) (fun r' s' => r' = r /\ WFc s' w' /\ bud s' = None)) by (eapply exec_ok; eauto).
  assert (Hs : s = with_bud (bud s) s) by (destruct s; reflexivity).
  assert (E2 : exec op s = rebud (bud s) (exec op s)) by (rewrite <- (exec_BI op HG s (bud s)), <- Hs; reflexivity).
  unfold sat in E. assert (Hn := exec_BI op HG s None). rewrite Hn in E.
  destruct (exec op s) as [s1 r1| |]; cbn [rebud] in *; try contradiction E. destruct E as (-> & W & _).
  injection E2 as E2. exists s1. split; [reflexivity|]. split; [exact W|]. rewrite E2. reflexivity.
Qed.
End Vec.
