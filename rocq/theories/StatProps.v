(** C33-C36: statistics *)
From Coq Require Import ZArith List Bool Permutation Lia Reals Lra PeanoNat.
From Flocq Require Import Core.Core IEEE754.BinarySingleNaN.
From Verif Require Import Base IntModel NumModel FloatModel FloatProofs StatModel StatSpec StatProofs StatProofs2 StatProofs3.
Import ListNotations.

(** * C33 *)
Section C33_float.
Context (prec emax : Z) {Hprec : Prec_gt_0 prec} {Hmax : Prec_lt_emax prec emax} {E : Type}.
Notation bf := (binary_float prec emax).
Variable acc : E -> bf.
(** With at least one number among the values, the result is one of the values, is a number, and
    no number among the values exceeds it (goes below it). *)
Theorem C33_maximum l : (exists x, In x (map acc l) /\ is_nan x = false) ->
  let m := maximum fle feq B754_nan acc l in
  In m (map acc l) /\ is_nan m = false /\ (forall x, In x (map acc l) -> is_nan x = false -> fle x m = true).
Proof.
  intros (x & Hx & Hn).
  destruct (maximum_ok fle feq B754_nan acc (num prec emax)) with (l := l) as (H1 & H2 & H3).
  - apply feq_num.
  - apply fle_total.
  - intros a b c _ _ _. apply fle_trans.
  - intros a b Hb. apply fle_nan_r. apply negb_false_iff. exact Hb.
  - left. reflexivity.
  - exists x. split; [exact Hx|]. unfold num. rewrite Hn. reflexivity.
  - split; [exact H1|]. split; [apply negb_true_iff; exact H2|]. intros y Hy Hny. apply H3; [exact Hy|]. unfold num. rewrite Hny. reflexivity.
Qed.
Theorem C33_minimum l : (exists x, In x (map acc l) /\ is_nan x = false) ->
  let m := minimum fle feq B754_nan acc l in
  In m (map acc l) /\ is_nan m = false /\ (forall x, In x (map acc l) -> is_nan x = false -> fle m x = true).
Proof.
  intros (x & Hx & Hn).
  destruct (minimum_ok fle feq B754_nan acc (num prec emax)) with (l := l) as (H1 & H2 & H3).
  - apply feq_num.
  - apply fle_total.
  - intros a b c _ _ _. apply fle_trans.
  - intros a b Ha. apply fle_nan_l. apply negb_false_iff. exact Ha.
  - left. reflexivity.
  - exists x. split; [exact Hx|]. unfold num. rewrite Hn. reflexivity.
  - split; [exact H1|]. split; [apply negb_true_iff; exact H2|]. intros y Hy Hny. apply H3; [exact Hy|]. unfold num. rewrite Hny. reflexivity.
Qed.
(** NaN elements can be dropped from the container, wherever they are *)
Theorem C33_nan_ignored l :
  maximum fle feq B754_nan acc l = maximum fle feq B754_nan acc (filter (fun e => negb (is_nan (acc e))) l) /\
  minimum fle feq B754_nan acc l = minimum fle feq B754_nan acc (filter (fun e => negb (is_nan (acc e))) l).
Proof.
  unfold maximum, minimum. split; [apply (max_filter fle feq acc (num prec emax))|apply (min_filter fle feq acc (num prec emax))]; apply feq_num.
Qed.
Theorem C33_only_nan l : (forall x, In x (map acc l) -> is_nan x = true) ->
  maximum fle feq B754_nan acc l = B754_nan /\ minimum fle feq B754_nan acc l = B754_nan.
Proof.
  intros H. apply (all_nan fle feq B754_nan B754_nan acc (num prec emax)); [apply feq_num|]. intros x Hx. unfold num. rewrite (H x Hx). reflexivity.
Qed.
End C33_float.
(** Integer types *)
Section C33_int.
Context {E : Type} (t : ity) (acc : E -> Z).
Theorem C33_integer l : l <> [] -> (forall x, In x (map acc l) -> in_range t x) ->
  let hi := maximum Z.leb Z.eqb (imin t) acc l in let lo := minimum Z.leb Z.eqb (imax t) acc l in
  In hi (map acc l) /\ In lo (map acc l) /\ (forall x, In x (map acc l) -> (lo <= x <= hi)%Z).
Proof.
  intros Hl Hr.
  assert (Hx : exists x, In x (map acc l) /\ true = true) by (destruct l as [|e l]; [congruence|]; exists (acc e); split; [left|]; reflexivity).
  destruct (maximum_ok Z.leb Z.eqb (imin t) acc (fun _ => true)) with (l := l) as (H1 & _ & H2);
    [intros; apply Z.eqb_refl|intros x y _ _; rewrite !Z.leb_le; lia|intros x y z _ _ _; rewrite !Z.leb_le; lia|discriminate| |exact Hx|].
  { right. split; [reflexivity|]. intros x Hi _. apply Hr in Hi. unfold in_range in Hi. rewrite !Z.leb_le. split; [lia|]. intros. lia. }
  destruct (minimum_ok Z.leb Z.eqb (imax t) acc (fun _ => true)) with (l := l) as (H3 & _ & H4);
    [intros; apply Z.eqb_refl|intros x y _ _; rewrite !Z.leb_le; lia|intros x y z _ _ _; rewrite !Z.leb_le; lia|discriminate| |exact Hx|].
  { right. split; [reflexivity|]. intros x Hi _. apply Hr in Hi. unfold in_range in Hi. rewrite !Z.leb_le. split; [lia|]. intros. lia. }
  cbv zeta. split; [exact H1|]. split; [exact H3|]. intros x Hi. split; apply Z.leb_le; [apply H4|apply H2]; auto.
Qed.
Theorem C33_integer_empty : maximum Z.leb Z.eqb (imin t) acc [] = imin t /\ minimum Z.leb Z.eqb (imax t) acc [] = imax t.
Proof. split; reflexivity. Qed.
End C33_int.
(** min_max is (minimum, maximum) for every element type *)
Theorem C33_min_max {E D} (le eq : D -> D -> bool) lo hi (acc : E -> D) l :
  min_max le eq lo hi acc l = (minimum le eq hi acc l, maximum le eq lo acc l).
Proof. apply min_max_both. Qed.
(** NaN first, last and in the middle *)
Example C33_example :
  let d := fun z => f_of_Z z : double in
  let l := [B754_nan; d 3%Z; B754_nan; d (-7)%Z; d 5%Z; B754_nan] in
  feq (maximum fle feq B754_nan (fun x => x) l) (d 5%Z) = true /\ feq (minimum fle feq B754_nan (fun x => x) l) (d (-7)%Z) = true.
Proof. split; vm_compute; reflexivity. Qed.
Print Assumptions C33_maximum.
Print Assumptions C33_integer.

(** * C34 *)
(** Odd size, any strict weak order (IEEE < on numbers): the result is the conversion of the
    middle element: at most half of the elements are less and at most half are greater. *)
Theorem C34_odd {E : Type} (prec emax : Z) {Hprec : Prec_gt_0 prec} {Hmax : Prec_lt_emax prec emax} {T} (ar : arithmetic T)
  (cast : binary_float prec emax -> T) (acc : E -> binary_float prec emax) l r :
  (forall e, In e l -> is_nan (acc e) = false) -> Nat.odd (length l) = true -> median ar flt cast acc l r ->
  exists x, ranked flt (map acc l) (length l / 2) x /\ r = cast x.
Proof.
  intros HN. apply (median_odd ar flt (fun x => num prec emax x = true)).
  - intros x _. apply flt_irrefl.
  - intros e He. unfold num. rewrite (HN e He). reflexivity.
Qed.
Theorem C34_odd_int {E T : Type} (ar : arithmetic T) (cast : Z -> T) (acc : E -> Z) l r :
  Nat.odd (length l) = true -> median ar Z.ltb cast acc l r -> exists x, ranked Z.ltb (map acc l) (length l / 2) x /\ r = cast x.
Proof. apply (median_odd ar Z.ltb (fun _ => True)); [intros; apply Z.ltb_irrefl|auto]. Qed.
(** A ranked element is the middle of the sorted sequence *)
Theorem C34_ranked_sorted (l : list Z) k x : ranked Z.ltb l k x -> exists l', Permutation l l' /\ sorted Z.ltb l' /\ nth_error l' k = Some x.
Proof.
  intros Hx. exists (sort Z.ltb l). split; [apply sort_perm|].
  assert (HS : sorted Z.ltb (sort Z.ltb l)).
  { apply (sort_ok Z.ltb (fun _ => True)); auto; intros; try apply Z.ltb_irrefl; rewrite ?Z.ltb_lt, ?Z.ltb_ge in *; lia. }
  split; [exact HS|]. destruct (nth_error (sort Z.ltb l) k) as [y|] eqn:Ey.
  - f_equal. assert (Hy : ranked Z.ltb l k y).
    { eapply (nth_element_ranked Z.ltb (fun _ => True)) with (l' := sort Z.ltb l); auto; [intros; apply Z.ltb_irrefl|].
      apply (nth_element_exists Z.ltb (fun _ => True)); auto; try (intros; rewrite ?Z.ltb_lt, ?Z.ltb_ge in *; lia).
      rewrite (Permutation_length (sort_perm Z.ltb l)). apply nth_error_Some. rewrite Ey. discriminate. }
    assert (Hlt : forall a b, ranked Z.ltb l k a -> ranked Z.ltb l k b -> Z.ltb a b = false).
    { intros a b. apply (ranked_unique Z.ltb (fun _ => True)); auto. intros; rewrite ?Z.ltb_lt, ?Z.ltb_ge in *; lia. }
    pose proof (Hlt x y Hx Hy) as H1. pose proof (Hlt y x Hy Hx) as H2. apply Z.ltb_ge in H1. apply Z.ltb_ge in H2. lia.
  - exfalso. apply nth_error_None in Ey. rewrite <- (Permutation_length (sort_perm Z.ltb l)) in Ey. destruct Hx as (_ & _ & Hx).
    pose proof (count_le (fun y => negb (Z.ltb x y)) l). lia.
Qed.
(** Even size, floating-point elements: the result is the correctly rounded mean of the two
    middle elements and lies between them, if these are 0 or at least twice the smallest normal
    number in magnitude. *)
Theorem C34_even {E : Type} (prec emax : Z) {Hprec : Prec_gt_0 prec} {Hmax : Prec_lt_emax prec emax} (acc : E -> binary_float prec emax) l r :
  (1 < prec)%Z -> (forall e, In e l -> halvable prec emax (acc e)) -> Nat.even (length l) = true -> l <> [] ->
  median (ieee prec emax) flt (fun x => x) acc l r ->
  exists x y, ranked flt (map acc l) (length l / 2 - 1) x /\ ranked flt (map acc l) (length l / 2) y /\
    is_finite r = true /\
    B2R r = round radix2 (SpecFloat.fexp prec emax) ZnearestE ((B2R x + B2R y) / 2) /\
    (Rmin (B2R x) (B2R y) <= B2R r <= Rmax (B2R x) (B2R y))%R.
Proof.
  intros Hp HN He Hne Hm.
  destruct (median_even (ieee prec emax) flt (fun x => num prec emax x = true) (fun x => x) acc) with (l := l) (r := r) as (x & y & H1 & H2 & ->); auto.
  { intros x _. apply flt_irrefl. }
  { intros e Hi. destruct (HN e Hi) as [Hf _]. destruct (acc e); try discriminate; reflexivity. }
  exists x, y. split; [exact H1|]. split; [exact H2|]. cbn [a_add a_div a_two ieee].
  assert (Hh : forall z, In z (map acc l) -> halvable prec emax z) by (intros z Hz; apply in_map_iff in Hz; destruct Hz as (e & <- & Hi); apply HN; exact Hi).
  pose proof (Hh x (proj1 H1)) as Hx. pose proof (Hh y (proj1 H2)) as Hy.
  destruct (average_ok prec emax y x Hp (proj1 Hy) (proj1 Hx)) as (A1 & A2 & A3); [apply half_format; exact Hy|apply half_format; exact Hx|].
  split; [exact A1|]. rewrite Rplus_comm. rewrite Rmin_comm, Rmax_comm. auto.
Qed.
(** Even size, integer elements of magnitude below 2^52, double result: exact *)
Theorem C34_even_int {E : Type} (acc : E -> Z) l (r : double) :
  (forall e, In e l -> (Z.abs (acc e) < 2 ^ 52)%Z) -> Nat.even (length l) = true -> l <> [] ->
  median (ieee 53 1024) Z.ltb f_of_Z acc l r ->
  exists x y, ranked Z.ltb (map acc l) (length l / 2 - 1) x /\ ranked Z.ltb (map acc l) (length l / 2) y /\
    is_finite r = true /\ B2R r = (IZR (x + y) / 2)%R.
Proof.
  intros HN He Hne Hm.
  destruct (median_even (ieee 53 1024) Z.ltb (fun _ => True) f_of_Z acc) with (l := l) (r := r) as (x & y & H1 & H2 & ->); auto.
  { intros; apply Z.ltb_irrefl. }
  exists x, y. split; [exact H1|]. split; [exact H2|]. cbn [a_add a_div a_two ieee].
  assert (Hh : forall z, In z (map acc l) -> (2 * Z.abs z < 2 ^ 53)%Z).
  { intros z Hz; apply in_map_iff in Hz; destruct Hz as (e & <- & Hi). specialize (HN e Hi). change (2 ^ 53)%Z with (2 * 2 ^ 52)%Z. lia. }
  rewrite (Z.add_comm x y). apply average_int; [lia|apply Hh; exact (proj1 H2)|apply Hh; exact (proj1 H1)].
Qed.
(** The order of the elements does not matter *)
Theorem C34_order_int {E T : Type} (ar : arithmetic T) (cast : Z -> T) (acc : E -> Z) l l' r r' : Permutation l l' ->
  median ar Z.ltb cast acc l r -> median ar Z.ltb cast acc l' r' -> r = r'.
Proof.
  intros HP H H'. pose proof (Permutation_length HP) as HL. pose proof (Permutation_map acc HP) as HPm.
  assert (Hu : forall k a b, ranked Z.ltb (map acc l) k a -> ranked Z.ltb (map acc l') k b -> a = b).
  { intros k a b Ha Hb. apply (ranked_perm _ _ _ _ _ HPm) in Ha.
    assert (Hlt : forall a b, ranked Z.ltb (map acc l') k a -> ranked Z.ltb (map acc l') k b -> Z.ltb a b = false).
    { intros c d. apply (ranked_unique Z.ltb (fun _ => True)); auto. intros; rewrite ?Z.ltb_lt, ?Z.ltb_ge in *; lia. }
    pose proof (Hlt a b Ha Hb) as H1. pose proof (Hlt b a Hb Ha) as H2. apply Z.ltb_ge in H1. apply Z.ltb_ge in H2. lia. }
  destruct (Nat.odd (length l)) eqn:Eo.
  - destruct (C34_odd_int ar cast acc l r Eo H) as (x & H1 & ->). rewrite HL in Eo. destruct (C34_odd_int ar cast acc l' r' Eo H') as (x' & H1' & ->).
    rewrite <- HL in H1'. rewrite (Hu _ _ _ H1 H1'). reflexivity.
  - destruct l as [|e l]; [destruct l'; [|discriminate]; cbn in H, H'; congruence|].
    assert (Ee : Nat.even (length (e :: l)) = true) by (rewrite <- Nat.negb_odd, Eo; reflexivity).
    assert (Hne' : l' <> []) by (intros ->; discriminate).
    destruct (median_even ar Z.ltb (fun _ => True) cast acc) with (l := e :: l) (r := r) as (x & y & H1 & H2 & ->); auto; [intros; apply Z.ltb_irrefl|discriminate|].
    rewrite HL in Ee.
    destruct (median_even ar Z.ltb (fun _ => True) cast acc) with (l := l') (r := r') as (x' & y' & H1' & H2' & ->); auto; [intros; apply Z.ltb_irrefl|].
    rewrite <- HL in H1', H2'. rewrite (Hu _ _ _ H1 H1'), (Hu _ _ _ H2 H2'). reflexivity.
Qed.
Theorem C34_order {E : Type} (prec emax : Z) {Hprec : Prec_gt_0 prec} {Hmax : Prec_lt_emax prec emax} (acc : E -> binary_float prec emax) l l' r r' :
  (1 < prec)%Z -> l <> [] -> (forall e, In e l -> is_finite (acc e) = true) -> Permutation l l' ->
  median (ieee prec emax) flt (fun x => x) acc l r -> median (ieee prec emax) flt (fun x => x) acc l' r' -> fle r r' = true /\ fle r' r = true.
Proof.
  intros Hp Hne HF HP H H'. pose proof (Permutation_length HP) as HL. pose proof (Permutation_map acc HP) as HPm.
  assert (HF' : forall e, In e l' -> is_finite (acc e) = true) by (intros e He; apply HF; eapply Permutation_in; [apply Permutation_sym; exact HP|exact He]).
  assert (HFm : forall z, In z (map acc l') -> is_finite z = true) by (intros z Hz; apply in_map_iff in Hz; destruct Hz as (e & <- & He); auto).
  assert (HFm0 : forall z, In z (map acc l) -> is_finite z = true) by (intros z Hz; apply in_map_iff in Hz; destruct Hz as (e & <- & He); auto).
  assert (Hnum : forall z : binary_float prec emax, is_finite z = true -> num prec emax z = true) by (intros z Hz; destruct z; try discriminate; reflexivity).
  assert (HN : forall e, In e l -> num prec emax (acc e) = true) by auto. assert (HN' : forall e, In e l' -> num prec emax (acc e) = true) by auto.
  assert (Hu : forall k a b, ranked flt (map acc l) k a -> ranked flt (map acc l') k b -> B2R a = B2R b).
  { intros k a b Ha Hb. apply (ranked_perm _ _ _ _ _ HPm) in Ha.
    assert (Hlt : forall a b, ranked flt (map acc l') k a -> ranked flt (map acc l') k b -> flt a b = false).
    { intros c d. apply (ranked_unique flt (fun x => num prec emax x = true)); auto.
      intros x y z. apply flt_le_trans. }
    apply feq_B2R; [apply HFm; exact (proj1 Ha)|apply HFm; exact (proj1 Hb)|apply Hlt; assumption|apply Hlt; assumption]. }
  assert (Hirr : forall x : binary_float prec emax, num prec emax x = true -> flt x x = false) by (intros x _; apply flt_irrefl).
  destruct (Nat.odd (length l)) eqn:Eo.
  - destruct (median_odd (ieee prec emax) flt (fun x => num prec emax x = true) (fun x => x) acc Hirr l r HN Eo H) as (x & H1 & ->). rewrite HL in Eo.
    destruct (median_odd (ieee prec emax) flt (fun x => num prec emax x = true) (fun x => x) acc Hirr l' r' HN' Eo H') as (x' & H1' & ->).
    rewrite <- HL in H1'. pose proof (Hu _ _ _ H1 H1') as HE.
    pose proof (HFm0 x (proj1 H1)) as Fx. pose proof (HFm x' (proj1 H1')) as Fx'.
    split; apply fle_spec; (split; [auto|]); (split; [auto|]); right; right; repeat split; auto; rewrite HE; apply Rle_refl.
  - assert (Ee : Nat.even (length l) = true) by (rewrite <- Nat.negb_odd, Eo; reflexivity).
    assert (Hne' : l' <> []) by (intros ->; destruct l; [congruence|discriminate]).
    destruct (median_even (ieee prec emax) flt (fun x => num prec emax x = true) (fun x => x) acc Hirr l r HN Ee Hne H) as (x & y & H1 & H2 & ->).
    rewrite HL in Ee.
    destruct (median_even (ieee prec emax) flt (fun x => num prec emax x = true) (fun x => x) acc Hirr l' r' HN' Ee Hne' H') as (x' & y' & H1' & H2' & ->).
    rewrite <- HL in H1', H2'. apply average_cong; [exact Hp| | | | | |].
    + apply HFm0. exact (proj1 H2).
    + apply HFm0. exact (proj1 H1).
    + apply HFm. exact (proj1 H2').
    + apply HFm. exact (proj1 H1').
    + exact (Hu _ _ _ H2 H2').
    + exact (Hu _ _ _ H1 H1').
Qed.
(** An empty container gives NaN; every other one has a median *)
Theorem C34_empty {E D T : Type} (ar : arithmetic T) (lt : D -> D -> bool) (cast : D -> T) (acc : E -> D) r : median ar lt cast acc [] r -> r = a_nan ar.
Proof. intros H. exact H. Qed.
Theorem C34_total {E T : Type} (prec emax : Z) {Hprec : Prec_gt_0 prec} {Hmax : Prec_lt_emax prec emax} (ar : arithmetic T) cast (acc : E -> binary_float prec emax) l :
  (forall e, In e l -> is_nan (acc e) = false) -> exists r, median ar flt cast acc l r.
Proof.
  intros HN. apply (median_exists ar flt (fun x => num prec emax x = true)).
  - intros x y _ _. apply flt_asym.
  - intros x y z. apply flt_le_trans.
  - intros e He. unfold num. rewrite (HN e He). reflexivity.
Qed.
(** The mean of two equal subnormal numbers is not that number: both halves round to 0. *)
Theorem C34_subnormal_finding : exists x r : double, is_finite x = true /\ flt (f_of_Z 0) x = true /\
  median (ieee 53 1024) flt (fun x => x) (fun x => x) [x; x] r /\ feq r (f_of_Z 0) = true.
Proof.
  exists f_denorm_min, (fadd (fdiv f_denorm_min (f_of_Z 2)) (fdiv f_denorm_min (f_of_Z 2))).
  split; [vm_compute; reflexivity|]. split; [vm_compute; reflexivity|]. split; [|vm_compute; reflexivity].
  assert (Hn : forall k, (k < 2)%nat -> nth_element flt [f_denorm_min : double; f_denorm_min] k [f_denorm_min; f_denorm_min]).
  { intros k Hk. split; [apply Permutation_refl|]. split; [exact Hk|]. exists f_denorm_min. split; [destruct k as [|[|k]]; [reflexivity|reflexivity|lia]|].
    assert (Hi : forall y, In y [f_denorm_min : double; f_denorm_min] -> y = f_denorm_min) by (intros y [<-|[<-|[]]]; reflexivity).
    assert (Hf : forall y n (m : list double), (In y (firstn n m) -> In y m) /\ (In y (skipn n m) -> In y m)).
    { intros y n m. rewrite <- (firstn_skipn n m) at 2 4. split; intros; apply in_or_app; auto. }
    split; intros y Hy; apply Hf in Hy; rewrite (Hi y Hy); apply flt_irrefl. }
  exists [f_denorm_min; f_denorm_min], f_denorm_min. split; [apply Hn; cbn; lia|]. split; [reflexivity|].
  exists [f_denorm_min; f_denorm_min], f_denorm_min. split; [apply Hn; cbn; lia|]. split; reflexivity.
Qed.
(** A container with an even number of elements meets the hypotheses of C34_even_int *)
Example C34_example : exists r : double, median (ieee 53 1024) Z.ltb f_of_Z (fun z => z) [9%Z; 2%Z; 7%Z; 4%Z] r /\ is_finite r = true /\ B2R r = (11 / 2)%R.
Proof.
  destruct (median_exists (ieee 53 1024) Z.ltb (fun _ => True) (f_of_Z : Z -> double) (fun z => z)) with (l := [9%Z; 2%Z; 7%Z; 4%Z]) as (r & Hr); auto;
    try (intros; rewrite ?Z.ltb_lt, ?Z.ltb_ge in *; lia).
  exists r. split; [exact Hr|].
  destruct (C34_even_int (fun z => z) [9%Z; 2%Z; 7%Z; 4%Z] r) as (x & y & H1 & H2 & H3 & H4); auto; try discriminate.
  { intros e He. cbn in He. decompose [or] He; subst; try reflexivity; contradiction. }
  split; [exact H3|]. rewrite H4.
  assert (x = 4%Z) as ->.
  { destruct H1 as ([<-|[<-|[<-|[<-|[]]]]] & H5 & H6); vm_compute in H5, H6; try lia; reflexivity. }
  assert (y = 7%Z) as ->.
  { destruct H2 as ([<-|[<-|[<-|[<-|[]]]]] & H5 & H6); vm_compute in H5, H6; try lia; reflexivity. }
  reflexivity.
Qed.
Print Assumptions C34_even.

(** * C35 *)
(** In exact arithmetic: min(n, size) elements are deleted one by one, each of them at maximal
    distance from the mean of the elements present at that moment. *)
Theorem C35_remove_outliers {E} (nan : R) (acc : E -> R) l n :
  deletes (fun c x => forall y, In y c -> (Rabs (acc y - Rmean (map acc c)) <= Rabs (acc x - Rmean (map acc c)))%R)
    (Nat.min n (length l)) l (remove_outliers (exact nan) acc l n).
Proof.
  revert l. induction n as [|n IH]; intros l; [constructor|]. destruct l as [|a l]; [constructor|].
  destruct (outlier_step_far (exact nan) acc (fun _ => True) (a :: l) n) as (l1 & x & l2 & H1 & H2 & ->); auto; try discriminate.
  - cbn [a_lt exact]. intros x y _ _ H. destruct (Rlt_bool_spec x y); [|discriminate]. apply Rlt_bool_false. lra.
  - cbn [a_lt exact]. intros x y z _ _ _ Ha Hb. destruct (Rlt_bool_spec y x); [discriminate|]. destruct (Rlt_bool_spec y z); [|discriminate]. apply Rlt_bool_true. lra.
  - cbn [a_lt exact]. intros x _. apply Rlt_bool_false. lra.
  - rewrite H1. replace (Nat.min (S n) (length (l1 ++ x :: l2))) with (S (Nat.min n (length (l1 ++ l2)))) by (rewrite !app_length; cbn [length]; lia).
    constructor; [|apply IH]. intros y Hy. rewrite <- H1 in Hy. specialize (H2 y Hy). unfold dist in H2. rewrite (mean_exact nan acc), H1 in H2.
    cbn [a_lt a_abs a_sub exact] in H2. destruct (Rlt_bool_spec (Rabs (acc x - Rmean (map acc (l1 ++ x :: l2)))) (Rabs (acc y - Rmean (map acc (l1 ++ x :: l2))))); [discriminate|assumption].
Qed.
(** In floating-point arithmetic: the same for the computed mean and distances, unless a NaN
    occurs among the distances. *)
Theorem C35_remove_outliers_float {E} (prec emax : Z) {Hprec : Prec_gt_0 prec} {Hmax : Prec_lt_emax prec emax} (acc : E -> binary_float prec emax) l n :
  let distance := fun c e => f_abs (fsub (acc e) (mean (ieee prec emax) acc c)) in
  deletes (fun c x => (forall y, In y c -> is_nan (distance c y) = false) -> forall y, In y c -> fle (distance c y) (distance c x) = true)
    (Nat.min n (length l)) l (remove_outliers (ieee prec emax) acc l n).
Proof.
  intros distance. revert l. induction n as [|n IH]; intros l; [constructor|]. destruct l as [|a l]; [constructor|].
  assert (Hd : (forall y, In y (a :: l) -> is_nan (distance (a :: l) y) = false) \/ ~ (forall y, In y (a :: l) -> is_nan (distance (a :: l) y) = false)).
  { destruct (forallb (fun y => negb (is_nan (distance (a :: l) y))) (a :: l)) eqn:Ef.
    - left. rewrite forallb_forall in Ef. intros y Hy. apply negb_true_iff. apply Ef. exact Hy.
    - right. intros Hc. apply Bool.not_true_iff_false in Ef. apply Ef. apply forallb_forall. intros y Hy. rewrite (Hc y Hy). reflexivity. }
  destruct Hd as [Hd|Hd].
  - assert (Hnd : forall y, In y (a :: l) -> num prec emax (distance (a :: l) y) = true) by (intros y Hy; unfold num; rewrite (Hd y Hy); reflexivity).
    destruct (outlier_step_far (ieee prec emax) acc (fun x => num prec emax x = true) (a :: l) n) as (l1 & x & l2 & H1 & H2 & ->); auto; try discriminate.
    + intros x y _ _. apply flt_asym.
    + intros x y z. apply flt_le_trans.
    + intros x _. apply flt_irrefl.
    + rewrite H1. replace (Nat.min (S n) (length (l1 ++ x :: l2))) with (S (Nat.min n (length (l1 ++ l2)))) by (rewrite !app_length; cbn [length]; lia).
      constructor; [|apply IH]. rewrite <- H1. intros _ y Hy. specialize (H2 y Hy). cbn [a_lt ieee] in H2.
      rewrite flt_negle in H2; [apply negb_false_iff; exact H2| |].
      * apply Hnd. rewrite H1. apply in_or_app. right. left. reflexivity.
      * apply Hnd. exact Hy.
  - destruct (outlier_step (ieee prec emax) acc (a :: l) n) as (l1 & x & l2 & H1 & ->); [discriminate|].
    rewrite H1. replace (Nat.min (S n) (length (l1 ++ x :: l2))) with (S (Nat.min n (length (l1 ++ l2)))) by (rewrite !app_length; cbn [length]; lia).
    constructor; [|apply IH]. rewrite <- H1. intros Hc. contradiction.
Qed.
Theorem C35_size {E T} (ar : arithmetic T) (acc : E -> T) l n : length (remove_outliers ar acc l n) = (length l - n)%nat.
Proof. apply outliers_length. Qed.
(** With a NaN in the container the mean is NaN, no distance is less than another, and the first
    element is removed, however near it is to the others. *)
Theorem C35_nan_finding :
  let d := fun z => f_of_Z z : double in
  map (fun x => is_nan x) (remove_outliers (ieee 53 1024) (fun x => x) [d 1%Z; d 2%Z; B754_nan; d 1000%Z] 1) = [false; true; false].
Proof. vm_compute. reflexivity. Qed.
Example C35_example :
  let d := fun z => f_of_Z z : double in
  map (fun x => feq x (d 3%Z)) (remove_outliers (ieee 53 1024) (fun x => x) [d 3%Z; d 100%Z; d 3%Z; d (-50)%Z; d 3%Z] 2) = [true; true; true].
Proof. vm_compute. reflexivity. Qed.
Print Assumptions C35_remove_outliers.
Print Assumptions C35_remove_outliers_float.

(** * C36 *)
Section C36.
Context {E : Type} (nan : R) (acc : E -> R).
Theorem C36_mean l : mean (exact nan) acc l = (Rsum (map acc l) / INR (length l))%R.
Proof. rewrite mean_exact. unfold Rmean. rewrite map_length. reflexivity. Qed.
Theorem C36_rms l : rms (exact nan) acc l = sqrt (Rsum (map (fun e => acc e * acc e) l) / INR (length l))%R.
Proof. rewrite rms_exact. unfold Rmean, Rsquares. rewrite !map_length, map_map. reflexivity. Qed.
Theorem C36_standard_deviation l : (2 <= length l)%nat ->
  let m := (Rsum (map acc l) / INR (length l))%R in
  standard_deviation (exact nan) acc l = (sqrt (Rsum (map (fun e => (acc e - m) * (acc e - m)) l) / INR (length l - 1)), m)%R.
Proof.
  intros H m. rewrite stddev_exact by exact H. unfold Rvariance, Rmean. rewrite map_map, map_length. reflexivity.
Qed.
End C36.
(** Shifting, scaling, reordering, bounds *)
Theorem C36_shift nan l c : (2 <= length l)%nat ->
  mean (exact nan) (fun x => x + c)%R l = (mean (exact nan) (fun x => x) l + c)%R /\
  fst (standard_deviation (exact nan) (fun x => x + c)%R l) = fst (standard_deviation (exact nan) (fun x => x) l).
Proof.
  intros H. assert (l <> []) by (intros ->; cbn in H; lia). rewrite !mean_exact, !stddev_exact, map_id by exact H. cbn [fst].
  rewrite Rmean_shift, Rvariance_shift by assumption. auto.
Qed.
Theorem C36_scale nan l c : (2 <= length l)%nat ->
  mean (exact nan) (fun x => c * x)%R l = (c * mean (exact nan) (fun x => x) l)%R /\
  rms (exact nan) (fun x => c * x)%R l = (Rabs c * rms (exact nan) (fun x => x) l)%R /\
  fst (standard_deviation (exact nan) (fun x => c * x)%R l) = (Rabs c * fst (standard_deviation (exact nan) (fun x => x) l))%R.
Proof.
  intros H. rewrite !mean_exact, !stddev_exact, !rms_exact, map_id by exact H. cbn [fst].
  rewrite Rmean_scale, Rvariance_scale. rewrite <- sqrt_Rsqr_abs. unfold Rsqr. split; [reflexivity|]. split.
  - replace (Rsquares (map (fun x => c * x)%R l)) with (map (fun y => c * c * y)%R (Rsquares l)) by (unfold Rsquares; rewrite !map_map; apply map_ext; intros; ring).
    rewrite Rmean_scale. rewrite sqrt_mult_alt by (apply Rle_0_sqr). reflexivity.
  - rewrite sqrt_mult_alt by (apply Rle_0_sqr). reflexivity.
Qed.
Theorem C36_reorder nan (l l' : list R) : Permutation l l' ->
  mean (exact nan) (fun x => x) l = mean (exact nan) (fun x => x) l' /\ rms (exact nan) (fun x => x) l = rms (exact nan) (fun x => x) l' /\
  ((2 <= length l)%nat -> standard_deviation (exact nan) (fun x => x) l = standard_deviation (exact nan) (fun x => x) l').
Proof.
  intros H. rewrite !mean_exact, !rms_exact, !map_id. split; [apply Rmean_perm; exact H|]. split.
  - f_equal. apply Rmean_perm. apply Permutation_map. exact H.
  - intros HL. pose proof (Permutation_length H) as HE. rewrite !stddev_exact by lia. rewrite !map_id, (Rmean_perm _ _ H), (Rvariance_perm _ _ H). reflexivity.
Qed.
Theorem C36_mean_between nan (l : list R) lo hi : l <> [] -> (forall x, In x l -> lo <= x <= hi)%R -> (lo <= mean (exact nan) (fun x => x) l <= hi)%R.
Proof. intros H1 H2. rewrite mean_exact, map_id. apply Rmean_bounds; assumption. Qed.
(** Too few elements, in floating-point arithmetic *)
Theorem C36_few {E} (prec emax : Z) {Hprec : Prec_gt_0 prec} {Hmax : Prec_lt_emax prec emax} (acc : E -> binary_float prec emax) l :
  (length l = 0%nat -> is_nan (mean (ieee prec emax) acc l) = true /\ is_nan (rms (ieee prec emax) acc l) = true /\ standard_deviation (ieee prec emax) acc l = (B754_nan, B754_nan)) /\
  (length l = 1%nat -> standard_deviation (ieee prec emax) acc l = (B754_nan, mean (ieee prec emax) acc l)).
Proof.
  split; intros H; destruct l as [|e [|]]; try discriminate.
  - unfold mean, rms, standard_deviation. cbn [fold_left length a_add a_zero a_div a_nat a_sqrt a_nan ieee Nat.eqb].
    assert (H0 : (f_of_Z (Z.of_nat 0) : binary_float prec emax) = B754_zero false) by reflexivity.
    rewrite H0. auto.
  - reflexivity.
Qed.
(** In double arithmetic the mean of integers is correctly rounded as long as the magnitudes of
    the elements add up to less than 2^53. *)
Theorem C36_mean_int {E} (acc : E -> Z) l : l <> [] -> (Z.of_nat (length l) < 2 ^ 53)%Z ->
  (fold_right (fun x a => Z.abs x + a) 0 (map acc l) < 2 ^ 53)%Z ->
  let m := mean (ieee 53 1024) (fun e => f_of_Z (acc e)) l in
  is_finite m = true /\ B2R m = round radix2 (SpecFloat.fexp 53 1024) ZnearestE (IZR (fold_right Z.add 0%Z (map acc l)) / INR (length l)).
Proof.
  intros Hl Hn Hs m. pose proof (mean_int 53 1024 acc l Hl Hn Hs) as R1. fold m in R1. unfold rep in R1. fold (Zsum (map acc l)).
  rewrite Rlt_bool_true in R1; [exact R1|].
  pose proof (Zsum_abs_ge (map acc l)) as HA. fold (Zsum_abs (map acc l)) in Hs.
  assert (Hz : (Z.abs (Zsum (map acc l)) < 2 ^ 53)%Z) by lia.
  destruct (of_Z_exact 53 1024 (Zsum (map acc l)) Hz) as [F1 E1].
  apply Rle_lt_trans with (Rabs (B2R (f_of_Z (Zsum (map acc l)) : double))); [|apply abs_B2R_lt_emax].
  rewrite <- rnd_abs, <- (rnd_id 53 1024 (Rabs (B2R (f_of_Z (Zsum (map acc l)))))) by (first [exact prec53|apply generic_format_abs; apply generic_format_B2R]).
  apply rnd_le; try exact prec53. rewrite E1. pose proof (length_pos l Hl) as Hp.
  assert (1 <= INR (length l))%R by (destruct l; [congruence|]; cbn [length]; rewrite S_INR; pose proof (pos_INR (length l)); lra).
  unfold Rdiv. rewrite Rabs_mult, (Rabs_pos_eq (/ INR (length l))) by (apply Rlt_le, Rinv_0_lt_compat; exact Hp).
  rewrite <- (Rmult_1_r (Rabs (IZR (Zsum (map acc l))))) at 2. apply Rmult_le_compat_l; [apply Rabs_pos|].
  rewrite <- Rinv_1. apply Rinv_le_contravar; lra.
Qed.
(** accumulate() applies the operation to the elements from first to last. *)
Theorem C36_accumulate {E D T} (zero : T) (op : T -> D -> T) (acc : E -> D) l x :
  accumulate zero op acc [] = zero /\
  accumulate zero op acc (l ++ [x]) = op (accumulate zero op acc l) (acc x).
Proof. unfold accumulate. now rewrite fold_left_app. Qed.
Example C36_example :
  let d := fun z => f_of_Z z : double in
  feq (mean (ieee 53 1024) d [1%Z; 2%Z; 6%Z]) (d 3%Z) = true /\ feq (rms (ieee 53 1024) d [3%Z; 3%Z; (-3)%Z]) (d 3%Z) = true /\
  feq (fst (standard_deviation (ieee 53 1024) d [1%Z; 3%Z; 5%Z])) (d 2%Z) = true.
Proof. repeat split; vm_compute; reflexivity. Qed.
Print Assumptions C36_standard_deviation.
Print Assumptions C36_mean_int.
