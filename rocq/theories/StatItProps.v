(** C94: the overloads of the statistics functions for two iterators *)
From Coq Require Import ZArith List Bool Lia Permutation PeanoNat.
From Verif Require Import Base IntModel FloatModel StatModel StatItModel.
Import ListNotations.

Lemma walk_range {E A} (range after : list E) i (f : A -> E -> A) a :
  walk (range ++ after) i (i + length range) f a = Ok (fold_left f range a).
Proof.
  revert i a. induction range as [|x r IH]; intros i a; cbn [length app fold_left].
  - rewrite Nat.add_0_r. destruct after; cbn [walk]; rewrite Nat.eqb_refl; reflexivity.
  - cbn [walk]. destruct (Nat.eqb_spec i (i + S (length r))) as [H|_]; [lia|].
    replace (i + S (length r)) with (S i + length r) by lia. apply IH.
Qed.
Lemma skipn_before {E} (before l : list E) : skipn (length before) (before ++ l) = l.
Proof. rewrite skipn_app, skipn_all, Nat.sub_diag. reflexivity. Qed.
Lemma fold_view_range {E A} (before range after : list E) (f : A -> E -> A) a :
  fold_view (before ++ range ++ after) (View (length before) (length before + length range)) f a = Ok (fold_left f range a).
Proof. unfold fold_view. cbn [begin_ end_]. rewrite skipn_before. apply walk_range. Qed.
Lemma walk_off {E A} (rest : list E) i j (f : A -> E -> A) a :
  (j < i \/ i + length rest < j) -> walk rest i j f a = UB.
Proof.
  revert i a. induction rest as [|x r IH]; intros i a H; cbn [walk length] in *.
  - destruct (Nat.eqb_spec i j) as [He|_]; [lia|]. reflexivity.
  - destruct (Nat.eqb_spec i j) as [He|_]; [lia|]. apply IH. lia.
Qed.
Lemma fold_view_off {E A} (m : list E) b e (f : A -> E -> A) a :
  b <= length m -> (e < b \/ length m < e) -> fold_view m (View b e) f a = UB.
Proof. intros Hb H. unfold fold_view. cbn [begin_ end_]. apply walk_off. rewrite skipn_length. lia. Qed.
Lemma view_size_range b n : (Z.of_nat n < 2 ^ 64)%Z -> view_size (View b (b + n)) = n.
Proof.
  intros H. unfold view_size. cbn [begin_ end_]. rewrite Z.mod_small by lia. lia.
Qed.
Lemma view_size_off (b e m : nat) : (Z.of_nat m < 2 ^ 63)%Z -> (Z.of_nat e < 2 ^ 63)%Z -> b <= m -> (e < b \/ m < e) ->
  2 <= view_size (View b e) \/ (view_size (View b e) = 1 /\ b < e).
Proof.
  intros Hm He Hb H. unfold view_size. cbn [begin_ end_]. destruct H as [H|H].
  - left. rewrite <- (Zmod_unique (Z.of_nat e - Z.of_nat b) (2 ^ 64) (-1) (Z.of_nat e - Z.of_nat b + 2 ^ 64))%Z by lia. lia.
  - rewrite Z.mod_small by lia. lia.
Qed.
Lemma copy_walk_range {E D} (range after : list E) i (acc : E -> D) left out :
  length range <= left -> copy_walk (range ++ after) i (i + length range) left acc out = Ok (out ++ map acc range).
Proof.
  revert i left out. induction range as [|x r IH]; intros i left out H; cbn [length app map] in *.
  - rewrite Nat.add_0_r, app_nil_r. destruct after; cbn [copy_walk]; rewrite Nat.eqb_refl; reflexivity.
  - destruct left as [|left]; [lia|]. cbn [copy_walk]. destruct (Nat.eqb_spec i (i + S (length r))) as [He|_]; [lia|].
    replace (i + S (length r)) with (S i + length r) by lia. rewrite IH by lia. rewrite <- app_assoc. reflexivity.
Qed.
Lemma copy_walk_off {E D} (rest : list E) i j (acc : E -> D) left out :
  (j < i \/ i + length rest < j) -> copy_walk rest i j left acc out = UB.
Proof.
  revert i left out. induction rest as [|x r IH]; intros i left out H; cbn [copy_walk length] in *.
  - destruct (Nat.eqb_spec i j) as [He|_]; [lia|]. reflexivity.
  - destruct (Nat.eqb_spec i j) as [He|_]; [lia|]. destruct left; [reflexivity|]. apply IH. lia.
Qed.

Section C94.
Context {E T D : Type} (ar : arithmetic T).

(** The range is [range], with [before] and [after] around it in the container.  Each overload
    gives what the container overload gives for a container that holds just [range]. *)
Section In_range.
Variables before range after : list E.
Let m := before ++ range ++ after.
Let b := length before.
Let e := length before + length range.

Theorem C94_accumulate {R} (zero : R) (op : R -> D -> R) (acc : E -> D) :
  accumulate_it m b e zero op acc = Ok (accumulate zero op acc range).
Proof. apply fold_view_range. Qed.
Theorem C94_min_max (le eq : D -> D -> bool) (lo hi : D) (acc : E -> D) :
  maximum_it le eq lo m b e acc = Ok (maximum le eq lo acc range) /\
  minimum_it le eq hi m b e acc = Ok (minimum le eq hi acc range) /\
  min_max_it le eq lo hi m b e acc = Ok (min_max le eq lo hi acc range).
Proof. split; [apply fold_view_range|]. split; apply fold_view_range. Qed.

Hypothesis Hsize : (Z.of_nat (length range) < 2 ^ 64)%Z.
Theorem C94_mean (acc : E -> T) : mean_it ar m b e acc = Ok (mean ar acc range).
Proof.
  unfold mean_it, mean_view, m, b, e. rewrite fold_view_range. cbn [bind]. rewrite view_size_range by exact Hsize. reflexivity.
Qed.
Theorem C94_rms (acc : E -> T) : rms_it ar m b e acc = Ok (rms ar acc range).
Proof.
  unfold rms_it, m, b, e. rewrite fold_view_range. cbn [bind]. rewrite view_size_range by exact Hsize. reflexivity.
Qed.
Theorem C94_standard_deviation (acc : E -> T) :
  standard_deviation_it ar m b e acc = Ok (standard_deviation ar acc range).
Proof.
  pose proof (C94_mean acc) as Hm. unfold mean_it in Hm. unfold standard_deviation_it, standard_deviation. cbv zeta.
  unfold m, e, b in *. rewrite view_size_range by exact Hsize.
  destruct (Nat.eqb (length range) 0); [reflexivity|]. rewrite Hm. cbn [bind].
  destruct (Nat.eqb (length range) 1); [reflexivity|].
  rewrite fold_view_range. reflexivity.
Qed.
Theorem C94_median (lt : D -> D -> bool) (cast : D -> T) (dflt : D) (acc : E -> D) r :
  median_it ar lt cast dflt m b e acc r <-> exists x, r = Ok x /\ median ar lt cast acc range x.
Proof.
  unfold median_it, median. cbv zeta. unfold e, b. rewrite view_size_range by exact Hsize.
  destruct (Nat.eqb (length range) 0).
  - split; [intros ->; eexists; split; reflexivity|]. intros (x & -> & ->). reflexivity.
  - cbn [begin_ end_]. unfold m. rewrite skipn_before, copy_walk_range by lia. cbn [app].
    rewrite map_length, Nat.sub_diag. cbn [repeat]. rewrite app_nil_r. split.
    + intros (l1 & x & H1 & H2 & H3). destruct (Nat.eqb (length range mod 2) 0) eqn:Hp.
      * destruct H3 as (l2 & y & H3 & H4 & ->). eexists. split; [reflexivity|]. exists l1, x. split; [exact H1|]. split; [exact H2|].
        exists l2, y. split; [exact H3|]. split; [exact H4|]. reflexivity.
      * eexists. split; [exact H3|]. exists l1, x. split; [exact H1|]. split; [exact H2|]. reflexivity.
    + intros (r0 & -> & l1 & x & H1 & H2 & H3). exists l1, x. split; [exact H1|]. split; [exact H2|].
      destruct (Nat.eqb (length range mod 2) 0) eqn:Hp.
      * destruct H3 as (l2 & y & H3 & H4 & ->). exists l2, y. split; [exact H3|]. split; [exact H4|]. reflexivity.
      * rewrite H3. reflexivity.
Qed.
End In_range.

(** An end in front of the begin, or behind the end of the container: every overload runs out of
    the container. *)
Theorem C94_bad_range (m : list E) (b e : nat) : b <= length m -> (e < b \/ length m < e) ->
  (Z.of_nat (length m) < 2 ^ 63)%Z -> (Z.of_nat e < 2 ^ 63)%Z ->
  (forall R (zero : R) (op : R -> D -> R) acc, accumulate_it m b e zero op acc = UB) /\
  (forall (le eq : D -> D -> bool) lo hi acc,
     maximum_it le eq lo m b e acc = UB /\ minimum_it le eq hi m b e acc = UB /\ min_max_it le eq lo hi m b e acc = UB) /\
  (forall acc, mean_it ar m b e acc = UB /\ rms_it ar m b e acc = UB /\ standard_deviation_it ar m b e acc = UB) /\
  (forall (lt : D -> D -> bool) cast dflt acc r, median_it ar lt cast dflt m b e acc r <-> r = UB).
Proof.
  intros Hb H Hm He.
  assert (Hlen : Nat.eqb (view_size (View b e)) 0 = false)
    by (apply Nat.eqb_neq; destruct (view_size_off b e (length m) Hm He Hb H) as [K|(K & _)]; lia).
  split; [|split; [|split]].
  - intros R zero op acc. apply fold_view_off; assumption.
  - intros le eq lo hi acc. split; [|split]; apply fold_view_off; assumption.
  - intros acc. unfold mean_it, mean_view, rms_it, standard_deviation_it, mean_view. cbv zeta.
    rewrite Hlen. rewrite !fold_view_off by assumption. repeat split.
  - intros lt cast dflt acc r. unfold median_it. cbv zeta. rewrite Hlen. cbn [begin_ end_].
    rewrite copy_walk_off by (rewrite skipn_length; lia). reflexivity.
Qed.
End C94.

(** The last three of five elements; the end before the begin *)
Example C94_example :
  accumulate_it [1; 2; 3; 4; 5]%Z 2 5 0%Z Z.add (fun x => x) = Ok 12%Z /\
  maximum_it Z.leb Z.eqb (-100)%Z [9; 2; 3; 1; 5]%Z 1 4 (fun x => x) = Ok 3%Z /\
  accumulate_it [1; 2; 3; 4; 5]%Z 2 2 0%Z Z.add (fun x => x) = Ok 0%Z /\
  accumulate_it [1; 2; 3; 4; 5]%Z 3 2 0%Z Z.add (fun x => x) = UB.
Proof. repeat split. Qed.

Print Assumptions C94_standard_deviation.
Print Assumptions C94_median.
Print Assumptions C94_bad_range.
