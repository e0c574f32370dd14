(** Extremal elements, order statistics, outliers: facts that hold for any element order. *)
From Coq Require Import ZArith List Bool Permutation Lia PeanoNat.
From Verif Require Import Base StatModel StatSpec.
Import ListNotations.

(** * maximum, minimum, min_max *)
Section MinMax.
Context {E D : Type} (le eq : D -> D -> bool) (lo hi : D) (acc : E -> D).
Variable num : D -> bool.   (* not a NaN *)
Hypothesis eq_num : forall x, eq x x = num x.
Hypothesis le_total : forall x y, num x = true -> num y = true -> le x y = true \/ le y x = true.
Hypothesis le_trans : forall x y z, num x = true -> num y = true -> num z = true -> le x y = true -> le y z = true -> le x z = true.
Hypothesis le_nan_r : forall x y, num y = false -> le x y = false.
Hypothesis le_nan_l : forall x y, num x = false -> le x y = false.
Lemma le_refl x : num x = true -> le x x = true.
Proof. intros H. destruct (le_total x x H H); assumption. Qed.

Lemma max_step_skip a x : num x = false -> max_step le eq a x = a.
Proof. intros H. unfold max_step. rewrite eq_num, H. reflexivity. Qed.
Lemma max_step_nan a x : num a = false -> num x = true -> max_step le eq a x = x.
Proof. intros H1 H2. unfold max_step. rewrite eq_num, H2, (le_nan_r x a H1). reflexivity. Qed.
Lemma max_step_num a x : num a = true -> num (max_step le eq a x) = true.
Proof. intros H. unfold max_step. rewrite eq_num. destruct (num x) eqn:Ex; [|assumption]. destruct (le x a); cbn [negb]; assumption. Qed.
Lemma min_step_skip a x : num x = false -> min_step le eq a x = a.
Proof. intros H. unfold min_step. rewrite eq_num, H. reflexivity. Qed.
Lemma min_step_nan a x : num a = false -> num x = true -> min_step le eq a x = x.
Proof. intros H1 H2. unfold min_step. rewrite eq_num, H2, (le_nan_l a x H1). reflexivity. Qed.
Lemma max_fold l : forall a, num a = true ->
  let m := fold_left (fun accu el => max_step le eq accu (acc el)) l a in
  num m = true /\ le a m = true /\ (m = a \/ In m (map acc l)) /\ (forall x, In x (map acc l) -> num x = true -> le x m = true).
Proof.
  induction l as [|e l IH]; intros a Ha; cbn [fold_left map].
  - split; [assumption|]. split; [apply le_refl; assumption|]. split; [auto|]. intros x [].
  - specialize (IH (max_step le eq a (acc e)) (max_step_num a (acc e) Ha)). cbv zeta in IH |- *.
    set (m := fold_left _ l _) in *. destruct IH as (H1 & H2 & H3 & H4).
    assert (Hs : le a (max_step le eq a (acc e)) = true /\ (num (acc e) = true -> le (acc e) (max_step le eq a (acc e)) = true) /\
                 (max_step le eq a (acc e) = a \/ max_step le eq a (acc e) = acc e)).
    { unfold max_step. rewrite eq_num. destruct (num (acc e)) eqn:Ee; [|split; [apply le_refl; assumption|split; [discriminate|auto]]].
      destruct (le (acc e) a) eqn:El; cbn [negb].
      - split; [apply le_refl; assumption|]. auto.
      - split; [destruct (le_total a (acc e) Ha Ee); congruence|]. split; [intros _; apply le_refl; assumption|auto]. }
    destruct Hs as (S1 & S2 & S3). pose proof (max_step_num a (acc e) Ha) as Sn.
    split; [assumption|]. split; [eapply le_trans; [exact Ha|exact Sn|exact H1|exact S1|exact H2]|]. split.
    + destruct H3 as [-> | H3]; [|right; right; exact H3]. destruct S3 as [-> | ->]; [left; reflexivity|right; left; reflexivity].
    + intros x [<-|Hx] Hn; [|apply H4; assumption]. eapply le_trans; [exact Hn|exact Sn|exact H1|apply S2; exact Hn|exact H2].
Qed.
Lemma min_step_num a x : num a = true -> num (min_step le eq a x) = true.
Proof. intros H. unfold min_step. rewrite eq_num. destruct (num x) eqn:Ex; [|assumption]. destruct (le a x); cbn [negb]; assumption. Qed.
Lemma min_fold l : forall a, num a = true ->
  let m := fold_left (fun accu el => min_step le eq accu (acc el)) l a in
  num m = true /\ le m a = true /\ (m = a \/ In m (map acc l)) /\ (forall x, In x (map acc l) -> num x = true -> le m x = true).
Proof.
  induction l as [|e l IH]; intros a Ha; cbn [fold_left map].
  - split; [assumption|]. split; [apply le_refl; assumption|]. split; [auto|]. intros x [].
  - specialize (IH (min_step le eq a (acc e)) (min_step_num a (acc e) Ha)). cbv zeta in IH |- *.
    set (m := fold_left _ l _) in *. destruct IH as (H1 & H2 & H3 & H4).
    assert (Hs : le (min_step le eq a (acc e)) a = true /\ (num (acc e) = true -> le (min_step le eq a (acc e)) (acc e) = true) /\
                 (min_step le eq a (acc e) = a \/ min_step le eq a (acc e) = acc e)).
    { unfold min_step. rewrite eq_num. destruct (num (acc e)) eqn:Ee; [|split; [apply le_refl; assumption|split; [discriminate|auto]]].
      destruct (le a (acc e)) eqn:El; cbn [negb].
      - split; [apply le_refl; assumption|]. auto.
      - split; [destruct (le_total a (acc e) Ha Ee); congruence|]. split; [intros _; apply le_refl; assumption|auto]. }
    destruct Hs as (S1 & S2 & S3). pose proof (min_step_num a (acc e) Ha) as Sn.
    split; [assumption|]. split; [eapply le_trans; [exact H1|exact Sn|exact Ha|exact H2|exact S1]|]. split.
    + destruct H3 as [-> | H3]; [|right; right; exact H3]. destruct S3 as [-> | ->]; [left; reflexivity|right; left; reflexivity].
    + intros x [<-|Hx] Hn; [|apply H4; assumption]. eapply le_trans; [exact H1|exact Sn|exact Hn|exact H2|apply S2; exact Hn].
Qed.
(** NaN elements are ignored *)
Lemma max_filter l : forall a, fold_left (fun accu el => max_step le eq accu (acc el)) l a =
  fold_left (fun accu el => max_step le eq accu (acc el)) (filter (fun el => num (acc el)) l) a.
Proof.
  induction l as [|e l IH]; intros a; cbn [fold_left filter]; [reflexivity|]. destruct (num (acc e)) eqn:Ee; [apply IH|].
  rewrite max_step_skip by assumption. apply IH.
Qed.
Lemma min_filter l : forall a, fold_left (fun accu el => min_step le eq accu (acc el)) l a =
  fold_left (fun accu el => min_step le eq accu (acc el)) (filter (fun el => num (acc el)) l) a.
Proof.
  induction l as [|e l IH]; intros a; cbn [fold_left filter]; [reflexivity|]. destruct (num (acc e)) eqn:Ee; [apply IH|].
  rewrite min_step_skip by assumption. apply IH.
Qed.
Lemma in_filter_num l x : In x (map acc l) -> num x = true -> In x (map acc (filter (fun el => num (acc el)) l)).
Proof.
  intros H Hn. apply in_map_iff in H. destruct H as (e & <- & He). apply in_map. apply filter_In. auto.
Qed.
Lemma in_unfilter l x : In x (map acc (filter (fun el => num (acc el)) l)) -> In x (map acc l) /\ num x = true.
Proof. intros H. apply in_map_iff in H. destruct H as (e & <- & He). apply filter_In in He. destruct He as [He1 He2]. split; [apply in_map; exact He1|exact He2]. Qed.
(** With an initial NaN, or an initial value below everything *)
Lemma maximum_ok l : num lo = false \/ (num lo = true /\ forall x, In x (map acc l) -> num x = true -> le lo x = true /\ (le x lo = true -> x = lo)) ->
  (exists x, In x (map acc l) /\ num x = true) ->
  let m := maximum le eq lo acc l in In m (map acc l) /\ num m = true /\ (forall x, In x (map acc l) -> num x = true -> le x m = true).
Proof.
  intros Hlo (x & Hx & Hnx). cbv zeta. unfold maximum. rewrite max_filter. pose proof (in_filter_num l x Hx Hnx) as Hx'.
  assert (Hall : forall y, In y (map acc (filter (fun el => num (acc el)) l)) -> num y = true) by (intros y Hy; exact (proj2 (in_unfilter l y Hy))).
  assert (Hi : forall y, In y (map acc l) -> num y = true -> In y (map acc (filter (fun el => num (acc el)) l))) by (intros; apply in_filter_num; assumption).
  assert (Hu : forall y, In y (map acc (filter (fun el => num (acc el)) l)) -> In y (map acc l)) by (intros y Hy; exact (proj1 (in_unfilter l y Hy))).
  set (l' := filter (fun el => num (acc el)) l) in *. clearbody l'.
  destruct l' as [|e l']; [destruct Hx'|]. cbn [fold_left]. assert (Hne : num (acc e) = true) by (apply Hall; left; reflexivity).
  assert (Hm : max_step le eq lo (acc e) = acc e).
  { destruct Hlo as [H|[H1 H2]]; [apply max_step_nan; assumption|]. destruct (H2 (acc e) (Hu (acc e) (or_introl eq_refl)) Hne) as [H3 H4].
    unfold max_step. rewrite eq_num, Hne. destruct (le (acc e) lo) eqn:El; cbn [negb]; [symmetry; apply H4; reflexivity|reflexivity]. }
  rewrite Hm. destruct (max_fold l' (acc e) Hne) as (H1 & H2 & H3 & H4). set (m := fold_left _ l' (acc e)) in *.
  split; [apply Hu; destruct H3 as [-> | H3]; [left; reflexivity|right; exact H3]|]. split; [exact H1|].
  intros y Hy Hny. destruct (Hi y Hy Hny) as [<- | Hy']; [exact H2|apply H4; assumption].
Qed.
Lemma minimum_ok l : num hi = false \/ (num hi = true /\ forall x, In x (map acc l) -> num x = true -> le x hi = true /\ (le hi x = true -> x = hi)) ->
  (exists x, In x (map acc l) /\ num x = true) ->
  let m := minimum le eq hi acc l in In m (map acc l) /\ num m = true /\ (forall x, In x (map acc l) -> num x = true -> le m x = true).
Proof.
  intros Hlo (x & Hx & Hnx). cbv zeta. unfold minimum. rewrite min_filter. pose proof (in_filter_num l x Hx Hnx) as Hx'.
  assert (Hall : forall y, In y (map acc (filter (fun el => num (acc el)) l)) -> num y = true) by (intros y Hy; exact (proj2 (in_unfilter l y Hy))).
  assert (Hi : forall y, In y (map acc l) -> num y = true -> In y (map acc (filter (fun el => num (acc el)) l))) by (intros; apply in_filter_num; assumption).
  assert (Hu : forall y, In y (map acc (filter (fun el => num (acc el)) l)) -> In y (map acc l)) by (intros y Hy; exact (proj1 (in_unfilter l y Hy))).
  set (l' := filter (fun el => num (acc el)) l) in *. clearbody l'.
  destruct l' as [|e l']; [destruct Hx'|]. cbn [fold_left]. assert (Hne : num (acc e) = true) by (apply Hall; left; reflexivity).
  assert (Hm : min_step le eq hi (acc e) = acc e).
  { destruct Hlo as [H|[H1 H2]]; [apply min_step_nan; assumption|]. destruct (H2 (acc e) (Hu (acc e) (or_introl eq_refl)) Hne) as [H3 H4].
    unfold min_step. rewrite eq_num, Hne. destruct (le hi (acc e)) eqn:El; cbn [negb]; [symmetry; apply H4; reflexivity|reflexivity]. }
  rewrite Hm. destruct (min_fold l' (acc e) Hne) as (H1 & H2 & H3 & H4). set (m := fold_left _ l' (acc e)) in *.
  split; [apply Hu; destruct H3 as [-> | H3]; [left; reflexivity|right; exact H3]|]. split; [exact H1|].
  intros y Hy Hny. destruct (Hi y Hy Hny) as [<- | Hy']; [exact H2|apply H4; assumption].
Qed.
Lemma all_nan l : (forall x, In x (map acc l) -> num x = false) -> maximum le eq lo acc l = lo /\ minimum le eq hi acc l = hi.
Proof.
  intros H. unfold maximum, minimum. rewrite max_filter, min_filter.
  assert (filter (fun el => num (acc el)) l = []) as ->; [|auto].
  induction l as [|e l IH]; [reflexivity|]. cbn [filter]. rewrite (H (acc e)) by (left; reflexivity). apply IH. intros x Hx. apply H. right. exact Hx.
Qed.
Lemma min_max_both l : min_max le eq lo hi acc l = (minimum le eq hi acc l, maximum le eq lo acc l).
Proof.
  unfold min_max, minimum, maximum. generalize hi lo. induction l as [|e l IH]; intros h o; cbn [fold_left]; [reflexivity|].
  rewrite <- IH. f_equal. unfold min_step, max_step. cbn [fst snd]. destruct (eq (acc e) (acc e)); [|reflexivity].
  destruct (negb (le h (acc e))); cbn [fst snd]; destruct (negb (le (acc e) o)); reflexivity.
Qed.
End MinMax.

(** * Order statistics *)
Section Rank.
Context {D : Type} (lt : D -> D -> bool) (num : D -> Prop).
Hypothesis lt_irrefl : forall x, num x -> lt x x = false.
Hypothesis lt_asym : forall x y, num x -> num y -> lt x y = true -> lt y x = false.
(** x <= y and y < z give x < z *)
Hypothesis lt_le_trans : forall x y z, num x -> num y -> num z -> lt y x = false -> lt y z = true -> lt x z = true.

Lemma count_app (p : D -> bool) a b : count p (a ++ b) = (count p a + count p b)%nat.
Proof. unfold count. rewrite filter_app, app_length. reflexivity. Qed.
Lemma count_none (p : D -> bool) l : (forall x, In x l -> p x = false) -> count p l = 0%nat.
Proof. unfold count. induction l as [|x l IH]; intros H; [reflexivity|]. cbn [filter]. rewrite (H x) by (left; reflexivity). apply IH. intros y Hy. apply H. right. exact Hy. Qed.
Lemma count_all (p : D -> bool) l : (forall x, In x l -> p x = true) -> count p l = length l.
Proof. unfold count. induction l as [|x l IH]; intros H; [reflexivity|]. cbn [filter]. rewrite (H x) by (left; reflexivity). cbn [length]. f_equal. apply IH. intros y Hy. apply H. right. exact Hy. Qed.
Lemma count_le (p : D -> bool) l : (count p l <= length l)%nat.
Proof. unfold count. induction l as [|x l IH]; [reflexivity|]. cbn [filter length]. destruct (p x); cbn [length]; lia. Qed.
Lemma count_mono (p q : D -> bool) l : (forall x, In x l -> p x = true -> q x = true) -> (count p l <= count q l)%nat.
Proof.
  unfold count. induction l as [|x l IH]; intros H; [reflexivity|]. cbn [filter].
  assert (IH' : (length (filter p l) <= length (filter q l))%nat) by (apply IH; intros y Hy; apply H; right; exact Hy).
  destruct (p x) eqn:Ep; [rewrite (H x (or_introl eq_refl) Ep); cbn [length]; lia|]. destruct (q x); cbn [length]; lia.
Qed.
Lemma filter_perm (p : D -> bool) l l' : Permutation l l' -> Permutation (filter p l) (filter p l').
Proof.
  induction 1; cbn [filter]; [constructor| | |eapply perm_trans; eassumption].
  - destruct (p x); [constructor|]; assumption.
  - destruct (p x), (p y); try apply Permutation_refl; apply perm_swap.
Qed.
Lemma count_perm (p : D -> bool) l l' : Permutation l l' -> count p l = count p l'.
Proof. intros H. unfold count. apply Permutation_length. apply filter_perm. exact H. Qed.
Lemma ranked_perm l l' k x : Permutation l l' -> ranked lt l k x -> ranked lt l' k x.
Proof.
  intros HP (H1 & H2 & H3). split; [eapply Permutation_in; eassumption|].
  rewrite <- (count_perm _ _ _ HP), <- (count_perm _ _ _ HP). auto.
Qed.
Lemma nth_element_ranked l n l' x : (forall y, In y l -> num y) -> nth_element lt l n l' -> nth_error l' n = Some x -> ranked lt l n x.
Proof.
  intros HN (HP & Hn & x' & Hx' & Hb & Ha) Hx. rewrite Hx in Hx'. injection Hx' as <-.
  apply (ranked_perm l' l); [apply Permutation_sym; exact HP|].
  assert (HN' : num x) by (apply HN; eapply Permutation_in; [apply Permutation_sym; exact HP|eapply nth_error_In; exact Hx]).
  destruct (nth_error_split l' n Hx) as (l1 & l2 & -> & <-).
  assert (E1 : firstn (length l1) (l1 ++ x :: l2) = l1) by (rewrite firstn_app, Nat.sub_diag, firstn_all, app_nil_r; reflexivity).
  assert (E2 : skipn (S (length l1)) (l1 ++ x :: l2) = l2) by (clear; induction l1; [reflexivity|exact IHl1]).
  rewrite E1 in Hb. rewrite E2 in Ha.
  split; [apply in_or_app; right; left; reflexivity|]. rewrite !count_app. split.
  - assert (count (fun y => lt y x) (x :: l2) = 0%nat) as ->.
    { apply count_none. intros y [<-|Hy]; [apply lt_irrefl; exact HN'|apply Ha; exact Hy]. }
    pose proof (count_le (fun y => lt y x) l1). lia.
  - rewrite (count_all _ l1) by (intros y Hy; rewrite (Hb y Hy); reflexivity).
    assert (0 < count (fun y => negb (lt x y)) (x :: l2))%nat; [|lia].
    unfold count. cbn [filter]. rewrite lt_irrefl by exact HN'. cbn. lia.
Qed.
Lemma ranked_unique l k x y : (forall z, In z l -> num z) -> ranked lt l k x -> ranked lt l k y -> lt x y = false.
Proof.
  intros HN (X1 & X2 & X3) (Y1 & Y2 & Y3). destruct (lt x y) eqn:E; [|reflexivity]. exfalso.
  assert (count (fun z => negb (lt x z)) l <= count (fun z => lt z y) l)%nat; [|lia].
  apply count_mono. intros z Hz Hn. apply negb_true_iff in Hn. eapply (lt_le_trans z x y); auto.
Qed.
(** a sorted arrangement *)
Fixpoint insert_sorted (x : D) (l : list D) : list D :=
  match l with [] => [x] | y :: l' => if lt y x then y :: insert_sorted x l' else x :: l end.
Fixpoint sort (l : list D) : list D := match l with [] => [] | x :: l' => insert_sorted x (sort l') end.
Lemma insert_perm x l : Permutation (x :: l) (insert_sorted x l).
Proof.
  induction l as [|y l IH]; [apply Permutation_refl|]. cbn [insert_sorted]. destruct (lt y x); [|apply Permutation_refl].
  eapply perm_trans; [apply perm_swap|]. constructor. exact IH.
Qed.
Lemma sort_perm l : Permutation l (sort l).
Proof. induction l; [constructor|]. cbn [sort]. eapply perm_trans; [constructor; exact IHl|apply insert_perm]. Qed.
Inductive sorted : list D -> Prop :=
| sorted_nil : sorted []
| sorted_cons x l : (forall y, In y l -> lt y x = false) -> sorted l -> sorted (x :: l).
Lemma insert_ok x l : num x -> (forall y, In y l -> num y) -> sorted l -> sorted (insert_sorted x l).
Proof.
  intros Hx HN HS. induction HS as [|y l Hy HS IH]; cbn [insert_sorted]; [constructor; [intros ? []|constructor]|].
  assert (Ny : num y) by (apply HN; left; reflexivity).
  destruct (lt y x) eqn:E.
  - constructor; [|apply IH; intros z Hz; apply HN; right; exact Hz].
    intros z Hz. apply (Permutation_in _ (Permutation_sym (insert_perm x l))) in Hz. destruct Hz as [<-|Hz]; [|apply Hy; exact Hz].
    apply lt_asym; assumption.
  - constructor; [|constructor; assumption]. intros z [<-|Hz]; [exact E|].
    destruct (lt z x) eqn:E2; [|reflexivity]. exfalso.
    pose proof (lt_le_trans y z x Ny (HN z (or_intror Hz)) Hx (Hy z Hz) E2). congruence.
Qed.
Lemma sort_ok l : (forall y, In y l -> num y) -> sorted (sort l).
Proof.
  induction l as [|x l IH]; intros HN; cbn [sort]; [constructor|]. apply insert_ok; [apply HN; left; reflexivity| |apply IH; intros; apply HN; right; assumption].
  intros y Hy. apply HN. right. eapply Permutation_in; [apply Permutation_sym; apply sort_perm|exact Hy].
Qed.
Lemma sorted_app l1 : forall l2, sorted (l1 ++ l2) -> sorted l2 /\ forall x y, In x l1 -> In y l2 -> lt y x = false.
Proof.
  induction l1 as [|a l1 IH]; intros l2 H; [split; [exact H|intros ? ? []]|]. cbn [app] in H. inversion H as [|? ? H1 H2]; subst.
  destruct (IH l2 H2) as [I1 I2]. split; [exact I1|]. intros x y [<-|Hx] Hy; [apply H1; apply in_or_app; right; exact Hy|apply I2; assumption].
Qed.
Lemma nth_element_exists l n : (forall y, In y l -> num y) -> (n < length l)%nat -> nth_element lt l n (sort l).
Proof.
  intros HN Hn. split; [apply sort_perm|]. pose proof (Permutation_length (sort_perm l)) as HL. split; [lia|].
  destruct (nth_error (sort l) n) as [x|] eqn:E; [|apply nth_error_None in E; lia]. exists x. split; [reflexivity|].
  pose proof (sort_ok l HN) as HS. destruct (nth_error_split _ _ E) as (l1 & l2 & HE & <-). rewrite HE in HS |- *.
  rewrite firstn_app, Nat.sub_diag, firstn_all, app_nil_r.
  assert (E2 : skipn (S (length l1)) (l1 ++ x :: l2) = l2) by (clear; induction l1; [reflexivity|exact IHl1]). rewrite E2.
  destruct (sorted_app _ _ HS) as [H1 H2]. inversion H1 as [|? ? H3 H4]; subst. split; [|exact H3].
  intros y Hy. apply H2; [exact Hy|left; reflexivity].
Qed.
End Rank.

(** * remove_outliers *)
Section Outliers.
Context {E T : Type} (ar : arithmetic T).

Lemma max_element_split (lt : E -> E -> bool) (num : E -> Prop) :
  (forall x y, num x -> num y -> lt x y = true -> lt y x = false) ->
  (forall x y z, num x -> num y -> num z -> lt y x = false -> lt y z = true -> lt x z = true) ->
  (forall x, num x -> lt x x = false) ->
  forall l x pre b mid, num x -> (forall y, In y (pre ++ mid ++ l) -> num y) -> b = length pre ->
  (forall y, In y (pre ++ x :: mid) -> lt x y = false) ->
  exists l1 z l2, pre ++ x :: mid ++ l = l1 ++ z :: l2 /\ max_element_loop lt x b (length (pre ++ x :: mid)) l = length l1 /\
    (forall y, In y (pre ++ x :: mid ++ l) -> lt z y = false).
Proof.
  intros Has Htr Hirr. induction l as [|y l IH]; intros x pre b mid Hx HN -> Hmax; cbn [max_element_loop].
  - exists pre, x, mid. rewrite app_nil_r. auto.
  - assert (Ny : num y) by (apply HN; apply in_or_app; right; apply in_or_app; right; left; reflexivity).
    destruct (lt x y) eqn:Exy.
    + destruct (IH y (pre ++ x :: mid) (length (pre ++ x :: mid)) []) as (l1 & z & l2 & H1 & H2 & H3); [exact Ny| |reflexivity| |].
      * intros w Hw. cbn [app] in Hw. rewrite <- app_assoc in Hw. apply in_app_or in Hw. destruct Hw as [Hw|[<-|Hw]].
        -- apply HN. apply in_or_app. left. exact Hw.
        -- exact Hx.
        -- apply HN. apply in_or_app. right. apply in_app_or in Hw. apply in_or_app. destruct Hw; [left|right; right]; assumption.
      * intros w Hw. apply in_app_or in Hw. destruct Hw as [Hw|[<-|[]]]; [|apply Hirr; exact Ny].
        pose proof (Hmax w Hw) as Hm.
        assert (Nw : num w).
        { apply in_app_or in Hw. destruct Hw as [Hw|[<-|Hw]]; [apply HN; apply in_or_app; left; exact Hw|exact Hx|].
          apply HN. apply in_or_app. right. apply in_or_app. left. exact Hw. }
        apply Has; [assumption|assumption|]. eapply (Htr w x y); assumption.
      * exists l1, z, l2. cbn [app] in H1, H3. rewrite <- app_assoc in H1, H3. cbn [app] in H1, H3. split; [exact H1|]. split; [|exact H3].
        rewrite <- H2. f_equal. rewrite !app_length. cbn [length]. rewrite ?app_length. cbn. lia.
    + destruct (IH x pre (length pre) (mid ++ [y])) as (l1 & z & l2 & H1 & H2 & H3); [exact Hx| |reflexivity| |].
      * intros w Hw. apply HN. rewrite <- app_assoc in Hw. exact Hw.
      * intros w Hw. replace (pre ++ x :: mid ++ [y]) with ((pre ++ x :: mid) ++ [y]) in Hw by (rewrite <- app_assoc; reflexivity).
        apply in_app_or in Hw. destruct Hw as [Hw|[<-|[]]]; [apply Hmax; exact Hw|exact Exy].
      * exists l1, z, l2. rewrite <- app_assoc in H1, H3. cbn [app] in H1, H3. split; [exact H1|]. split; [|exact H3].
        rewrite <- H2. f_equal. rewrite !app_length. cbn [length]. rewrite ?app_length. cbn. lia.
Qed.
Lemma max_element_loop_bound (lt : E -> E -> bool) l : forall x b k, (b < k)%nat -> (max_element_loop lt x b k l < k + length l)%nat.
Proof.
  induction l as [|y l IH]; intros x b k H; cbn [max_element_loop length]; [lia|].
  destruct (lt x y); [specialize (IH y k (S k) ltac:(lia))|specialize (IH x b (S k) ltac:(lia))]; lia.
Qed.
Lemma max_element_bound (lt : E -> E -> bool) l : l <> [] -> (max_element lt l < length l)%nat.
Proof. destruct l as [|x l]; intros H; [congruence|]. unfold max_element. pose proof (max_element_loop_bound lt l x 0 1 ltac:(lia)). cbn [length]. lia. Qed.
(** One step deletes one element *)
Lemma remove_at_split (l : list E) k : (k < length l)%nat -> exists l1 x l2, l = l1 ++ x :: l2 /\ firstn k l ++ skipn (S k) l = l1 ++ l2 /\ length l1 = k.
Proof.
  intros H. destruct (nth_error l k) as [x|] eqn:E0; [|apply nth_error_None in E0; lia].
  destruct (nth_error_split _ _ E0) as (l1 & l2 & -> & <-). exists l1, x, l2. split; [reflexivity|]. split; [|reflexivity].
  rewrite firstn_app, Nat.sub_diag, firstn_all, app_nil_r. f_equal. clear. induction l1; [reflexivity|exact IHl1].
Qed.
Variable acc : E -> T.
Definition dist (m : T) (e : E) : T := a_abs ar (a_sub ar (acc e) m).
(** the element deleted from [l] *)
Definition far (l : list E) (x : E) : Prop := forall y, In y l -> a_lt ar (dist (mean ar acc l) x) (dist (mean ar acc l) y) = false.
Lemma outlier_step l n : l <> [] -> exists l1 x l2, l = l1 ++ x :: l2 /\ remove_outliers ar acc l (S n) = remove_outliers ar acc (l1 ++ l2) n.
Proof.
  intros H. cbn [remove_outliers]. destruct l as [|a l]; [congruence|]. set (k := max_element _ (a :: l)).
  destruct (remove_at_split (a :: l) k) as (l1 & x & l2 & H1 & H2 & _); [apply max_element_bound; exact H|].
  exists l1, x, l2. split; [exact H1|]. rewrite <- H2. reflexivity.
Qed.
Lemma outlier_step_far (num : T -> Prop) l n :
  (forall x y, num x -> num y -> a_lt ar x y = true -> a_lt ar y x = false) ->
  (forall x y z, num x -> num y -> num z -> a_lt ar y x = false -> a_lt ar y z = true -> a_lt ar x z = true) ->
  (forall x, num x -> a_lt ar x x = false) ->
  l <> [] -> (forall x, In x l -> num (dist (mean ar acc l) x)) ->
  exists l1 x l2, l = l1 ++ x :: l2 /\ far l x /\ remove_outliers ar acc l (S n) = remove_outliers ar acc (l1 ++ l2) n.
Proof.
  intros Has Htr Hirr Hl HN. cbn [remove_outliers]. destruct l as [|a l]; [congruence|].
  set (lt := fun a0 b => a_lt ar (a_abs ar (a_sub ar (acc a0) (mean ar acc (a :: l)))) (a_abs ar (a_sub ar (acc b) (mean ar acc (a :: l))))).
  destruct (max_element_split lt (fun x => num (dist (mean ar acc (a :: l)) x))) with (l := l) (x := a) (pre := @nil E) (b := 0%nat) (mid := @nil E)
    as (l1 & z & l2 & H1 & H2 & H3).
  - intros x y Hx Hy. apply Has; assumption.
  - intros x y z Hx Hy Hz. apply Htr; assumption.
  - intros x Hx. apply Hirr. exact Hx.
  - apply HN. left. reflexivity.
  - intros y Hy. apply HN. right. exact Hy.
  - reflexivity.
  - intros y [<-|[]]. apply Hirr. apply HN. left. reflexivity.
  - cbn [app] in H1, H2, H3. exists l1, z, l2. split; [exact H1|]. split; [exact H3|].
    f_equal. cbn [max_element length] in H2 |- *. rewrite H2, H1. f_equal.
    + rewrite firstn_app, Nat.sub_diag, firstn_all, app_nil_r. reflexivity.
    + clear. induction l1; [reflexivity|exact IHl1].
Qed.
Lemma outliers_length l : forall n, length (remove_outliers ar acc l n) = (length l - n)%nat.
Proof.
  intros n. revert l. induction n as [|n IH]; intros l; [cbn; lia|]. destruct l as [|a l]; [reflexivity|].
  destruct (outlier_step (a :: l) n) as (l1 & x & l2 & H1 & ->); [discriminate|]. rewrite IH, H1, !app_length. cbn [length]. lia.
Qed.
End Outliers.
