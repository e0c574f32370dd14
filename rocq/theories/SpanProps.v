(** C58: subviews, element access, iteration and comparison of spans.

    [elems m s] is the list of elements the span [s] designates in the array [m] and
    [valid m s] says that it designates elements of [m] only; see SpanSpec.v. *)
From Verif Require Import Base SpanModel SpanSpec SpanProofs.
Open Scope Z_scope.
Open Scope outcome_scope.

(** Constructors produce valid spans over the elements named by their arguments. *)
Theorem C58_default : forall (A : Type) (m : list A) ext,
  zlen m < 2 ^ 63 -> ext = dynamic_extent \/ ext = 0 ->
  valid m (span_default ext) /\ size (span_default ext) = 0 /\ empty (span_default ext) = true /\
  elems m (span_default ext) = [].
Proof.
  intros A m ext H He.
  assert (S : size (span_default ext) = 0) by (destruct He as [-> | ->]; reflexivity).
  unfold valid, empty. rewrite S. repeat split; auto; lia.
Qed.

Theorem C58_container : forall (A : Type) (m : list A) ext,
  zlen m < 2 ^ 63 -> ext = dynamic_extent \/ ext = zlen m ->
  valid m (span_container ext m) /\ size (span_container ext m) = zlen m /\
  elems m (span_container ext m) = m.
Proof.
  intros A m ext H He.
  assert (S : size (span_container ext m) = zlen m).
  { unfold span_container. destruct He as [-> | ->]; [apply size_dyn|now apply size_fixed]. }
  unfold valid, elems. rewrite S. cbn [span_container make ptr]. repeat split; auto.
  - unfold zlen. lia.
  - lia.
  - lia.
  - apply firstn_all2. unfold zlen. lia.
Qed.

Theorem C58_pointer_count : forall (A : Type) (m : list A) ext i n,
  zlen m < 2 ^ 63 -> 0 <= i -> 0 <= n -> i + n <= zlen m -> ext = dynamic_extent \/ ext = n ->
  let s := span_count ext (Some i) n in
  valid m s /\ size s = n /\ elems m s = slice m i n.
Proof.
  intros A m ext i n H Hi Hn Hin He s.
  assert (S : size s = n).
  { unfold s, span_count. destruct He as [-> | ->]; [apply size_dyn|apply size_fixed; lia]. }
  unfold valid, elems. rewrite S. repeat split; auto.
Qed.

Theorem C58_pointer_range : forall (A : Type) (m : list A) ext i j,
  zlen m < 2 ^ 63 -> 0 <= i <= j -> j <= zlen m -> ext = dynamic_extent \/ ext = j - i ->
  exists s, span_range ext (Some i) (Some j) = Ok s /\
    valid m s /\ size s = j - i /\ elems m s = slice m i (j - i).
Proof.
  intros A m ext i j H Hij Hj He. eexists. split; [reflexivity|].
  rewrite szt_small by lia.
  apply (C58_pointer_count A m ext i (j - i)); auto; lia.
Qed.

Theorem C58_convert : forall (A : Type) (m : list A) ext s,
  valid m s -> ext = dynamic_extent \/ ext = extent s ->
  valid m (span_convert ext s) /\ elems m (span_convert ext s) = elems m s.
Proof.
  intros A m ext s V He.
  assert (S : size (span_convert ext s) = size s).
  { unfold span_convert. destruct He as [-> | ->]; [apply size_dyn|].
    unfold size, make. cbn [extent stored]. now destruct (extent s =? dynamic_extent). }
  unfold valid, elems in *. rewrite S. now cbn [span_convert make ptr].
Qed.

Theorem C58_size : forall (A : Type) (m : list A) s,
  valid m s -> zlen (elems m s) = size s /\ (empty s = true <-> elems m s = []).
Proof.
  intros A m s V. pose proof (length_elems m s V) as L. split; [exact L|].
  unfold empty. rewrite Z.eqb_eq, <- L. unfold zlen. destruct (elems m s); simpl; split; try easy.
Qed.

(** Subviews: the run-time versions and the compile-time versions. *)
Theorem C58_first : forall (A : Type) (m : list A) s n,
  valid m s -> 0 <= n <= size s ->
  exists t, first s n = Ok t /\ valid m t /\ within t s /\
    elems m t = firstn (Z.to_nat n) (elems m s).
Proof. intros A m s n V H. exact (first_sub m s n V H). Qed.

Theorem C58_first_static : forall (A : Type) (m : list A) s n,
  valid m s -> 0 <= n <= size s ->
  exists t, first_t s n = Ok t /\ extent t = n /\ valid m t /\ within t s /\
    elems m t = firstn (Z.to_nat n) (elems m s).
Proof. intros A m s n V H. exact (first_t_sub m s n V H). Qed.

(** The last n elements: everything after the first size() - n. *)
Lemma slice_last (A : Type) (l : list A) n : 0 <= n <= zlen l ->
  slice l (zlen l - n) n = skipn (Z.to_nat (zlen l - n)) l.
Proof.
  intros H. unfold slice. apply firstn_all2. rewrite skipn_length. unfold zlen in *. lia.
Qed.

Theorem C58_last : forall (A : Type) (m : list A) s n,
  valid m s -> 0 <= n <= size s ->
  exists t, last m s n = Ok t /\ valid m t /\ within t s /\ size t = n /\
    exists before, elems m s = before ++ elems m t.
Proof.
  intros A m s n V H. destruct (last_sub m s n V H) as (t & E & Vt & W & El).
  exists t. pose proof (length_elems m s V) as L. rewrite <- L in El.
  rewrite slice_last in El by lia.
  repeat split; auto; try apply Vt.
  - rewrite <- (length_elems m t Vt), El. unfold zlen in *. rewrite skipn_length. lia.
  - exists (firstn (Z.to_nat (zlen (elems m s) - n)) (elems m s)). rewrite El.
    symmetry. apply firstn_skipn.
Qed.

Theorem C58_last_static : forall (A : Type) (m : list A) s n,
  valid m s -> 0 <= n <= size s ->
  exists t, last_t m s n = Ok t /\ extent t = n /\ valid m t /\ within t s /\ size t = n /\
    exists before, elems m s = before ++ elems m t.
Proof.
  intros A m s n V H. destruct (last_t_sub m s n V H) as (t & E & X & Vt & W & El).
  exists t. pose proof (length_elems m s V) as L. rewrite <- L in El.
  rewrite slice_last in El by lia.
  repeat split; auto; try apply Vt.
  - rewrite <- (length_elems m t Vt), El. unfold zlen in *. rewrite skipn_length. lia.
  - exists (firstn (Z.to_nat (zlen (elems m s) - n)) (elems m s)). rewrite El.
    symmetry. apply firstn_skipn.
Qed.

Theorem C58_subspan : forall (A : Type) (m : list A) s o n,
  valid m s -> 0 <= o -> 0 <= n -> o + n <= size s ->
  exists t, subspan m s o n = Ok t /\ valid m t /\ within t s /\
    elems m t = slice (elems m s) o n.
Proof. exact @subspan_sub. Qed.

(** With the count left out the view extends to the end. *)
Theorem C58_subspan_rest : forall (A : Type) (m : list A) s o,
  valid m s -> 0 <= o <= size s ->
  exists t, subspan m s o dynamic_extent = Ok t /\ valid m t /\ within t s /\
    elems m t = skipn (Z.to_nat o) (elems m s).
Proof.
  intros A m s o V H. destruct (subspan_rest m s o V H) as (t & E & Vt & W & El).
  exists t. repeat split; auto; try apply Vt. rewrite El. unfold slice. apply firstn_all2.
  rewrite skipn_length. pose proof (length_elems m s V). unfold zlen in *. lia.
Qed.

Theorem C58_subspan_static : forall (A : Type) (m : list A) s o n,
  valid m s -> 0 <= o -> 0 <= n -> o + n <= size s ->
  exists t, subspan_t m s o n = Ok t /\ extent t = n /\ valid m t /\ within t s /\
    elems m t = slice (elems m s) o n.
Proof. exact @subspan_t_sub. Qed.

Theorem C58_subspan_rest_static : forall (A : Type) (m : list A) s o,
  valid m s -> 0 <= o <= size s ->
  exists t, subspan_t m s o dynamic_extent = Ok t /\
    extent t = (if extent s =? dynamic_extent then dynamic_extent else size s - o) /\
    valid m t /\ within t s /\ elems m t = skipn (Z.to_nat o) (elems m s).
Proof.
  intros A m s o V H. destruct (subspan_t_rest m s o V H) as (t & E & X & Vt & W & El).
  exists t. repeat split; auto; try apply Vt. rewrite El. unfold slice. apply firstn_all2.
  rewrite skipn_length. pose proof (length_elems m s V). unfold zlen in *. lia.
Qed.

(** Subviews of subviews are subviews: offsets add up. *)
Theorem C58_compose : forall (A : Type) (m : list A) s o n o' n',
  valid m s -> 0 <= o -> 0 <= n -> o + n <= size s ->
  0 <= o' -> 0 <= n' -> o' + n' <= n ->
  (t <- subspan m s o n ;; subspan m t o' n') = subspan m s (o + o') n'.
Proof.
  intros A m s o n o' n' V Ho Hn Hs Ho' Hn' Hs'. pose proof (valid_size m s V) as Vs.
  destruct (subspan_sub m s o n V Ho Hn Hs) as (t & E & Vt & _). rewrite E. cbn [bind].
  assert (St : size t = n).
  { unfold subspan in E. rewrite padd_sub in E by (auto; lia). cbn [bind] in E.
    injection E as <-. rewrite size_dyn, small_not_dynamic by lia. reflexivity. }
  assert (Pt : ptr t = match ptr s with None => None | Some i => Some (i + o) end).
  { unfold subspan in E. rewrite padd_sub in E by (auto; lia). cbn [bind] in E.
    now injection E as <-. }
  unfold subspan. rewrite (padd_sub m t o' Vt) by lia. rewrite (padd_sub m s (o + o') V) by lia.
  cbn [bind]. rewrite small_not_dynamic by lia. rewrite Pt.
  destruct (ptr s); [|reflexivity]. do 3 f_equal. lia.
Qed.

(** first and last are special cases of subspan. *)
Theorem C58_first_last_subspan : forall (A : Type) (m : list A) s n,
  valid m s -> 0 <= n <= size s ->
  first s n = subspan m s 0 n /\ last m s n = subspan m s (size s - n) n.
Proof.
  intros A m s n V H. pose proof (valid_size m s V). unfold first, last, subspan.
  rewrite (small_not_dynamic n) by lia. rewrite (szt_small (size s - n)) by lia.
  split; [|reflexivity]. rewrite padd_sub by (auto; lia). cbn [bind].
  destruct (ptr s); [|reflexivity]. do 3 f_equal. lia.
Qed.

(** Element access. *)
Theorem C58_index : forall (A : Type) (m : list A) s k,
  valid m s -> 0 <= k < size s ->
  exists a, index m s k = Ok a /\ get m s k = Ok a /\
    nth_error (elems m s) (Z.to_nat k) = Some a.
Proof. intros A m s k V H. destruct (index_ok m s k V H) as (a & E & N). eauto. Qed.

Theorem C58_front_back : forall (A : Type) (m : list A) s,
  valid m s -> 0 < size s ->
  exists a b, front m s = Ok a /\ back m s = Ok b /\
    (exists r, elems m s = a :: r) /\ (exists r, elems m s = r ++ [b]).
Proof.
  intros A m s V H. pose proof (valid_size m s V) as Vs. pose proof (length_elems m s V) as L.
  destruct (index_ok m s 0 V) as (a & Ea & Na); [lia|].
  destruct (index_ok m s (size s - 1) V) as (b & Eb & Nb); [lia|].
  exists a, b. split; [|split; [|split]].
  - unfold index in Ea. rewrite padd_sub in Ea by (auto; lia). cbn [bind] in Ea. unfold front.
    destruct (ptr s) as [i|]; [|exact Ea]. now rewrite Z.add_0_r in Ea.
  - unfold back. rewrite szt_small by lia. exact Eb.
  - destruct (elems m s); [discriminate|]. simpl in Na. injection Na as ->. eauto.
  - apply nth_error_split in Nb as (l1 & l2 & E & Ll). exists l1. rewrite E in L |- *.
    destruct l2; [reflexivity|]. unfold zlen in L. rewrite app_length in L. simpl in L. lia.
Qed.

(** Iteration visits exactly the designated elements, in order or in reverse order. *)
Theorem C58_iteration : forall (A : Type) (m : list A) s,
  valid m s -> for_each m s = Ok (elems m s) /\ for_each_reverse m s = Ok (rev (elems m s)).
Proof. intros A m s V. split; [now apply for_each_ok|now apply for_each_reverse_ok]. Qed.

(** Writing an element: any other valid span into the same array sees the new value at
    the positions that denote the same array element and its old values elsewhere. *)
Theorem C58_store : forall (A : Type) (m : list A) s k a,
  valid m s -> 0 <= k < size s ->
  exists m', store m s k a = Ok m' /\ zlen m' = zlen m /\
    forall t, valid m t -> valid m' t /\
      forall n, Z.of_nat n < size t ->
        nth_error (elems m' t) n =
        match ptr s, ptr t with
        | Some i, Some j => if i + k =? j + Z.of_nat n then Some a else nth_error (elems m t) n
        | _, _ => nth_error (elems m t) n
        end.
Proof.
  intros A m s k a V H. destruct (store_ok m s k a V H) as (m' & E & L & _).
  exists m'. repeat split; auto; try apply (store_elems m s k a m' t V H E H0).
Qed.

(** In particular writing through a subview is writing through the original. *)
Theorem C58_store_subspan : forall (A : Type) (m : list A) s o n k a,
  valid m s -> 0 <= o -> 0 <= n -> o + n <= size s -> 0 <= k < n ->
  (t <- subspan m s o n ;; store m t k a) = store m s (o + k) a.
Proof.
  intros A m s o n k a V Ho Hn Hs Hk. pose proof (valid_size m s V).
  destruct (subspan_sub m s o n V Ho Hn Hs) as (t & E & Vt & _). rewrite E. cbn [bind].
  unfold subspan in E. rewrite padd_sub in E by (auto; lia). cbn [bind] in E.
  injection E as <-. unfold store. rewrite (padd_sub m s (o + k) V) by lia. cbn [bind make ptr].
  destruct V as (_ & _ & P). destruct (ptr s) as [i|]; [|lia].
  rewrite padd_ok by lia. cbn [bind]. do 2 f_equal. lia.
Qed.

(** Comparison.  [ne] is the elements' operator!=, [lt] and [gt] are < and >. *)
Theorem C58_equal : forall (A B : Type) (ne : A -> B -> bool) (m : list A) l (k : list B) r,
  valid m l -> valid k r ->
  exists b, span_eq ne m l k r = Ok b /\ span_ne ne m l k r = Ok (negb b) /\
    (b = true <-> Forall2 (fun x y => ne x y = false) (elems m l) (elems k r)).
Proof.
  intros A B ne m l k r Vl Vr. destruct (span_eq_ok ne m l k r Vl Vr) as (b & E & H).
  exists b. unfold span_ne. rewrite E. auto.
Qed.

(** When the elements' operator!= is inequality, the spans are equal iff they designate
    the same sequence. *)
Theorem C58_equal_same : forall (A : Type) (ne : A -> A -> bool) (m : list A) l (k : list A) r,
  (forall x y, ne x y = false <-> x = y) -> valid m l -> valid k r ->
  exists b, span_eq ne m l k r = Ok b /\ (b = true <-> elems m l = elems k r).
Proof.
  intros A ne m l k r Hn Vl Vr. destruct (span_eq_ok ne m l k r Vl Vr) as (b & E & H).
  exists b. split; [exact E|]. rewrite H. clear - Hn. split.
  - intros F. induction F as [|x y p q Hxy F IH]; [reflexivity|]. apply Hn in Hxy. congruence.
  - intros ->. induction (elems k r); constructor; auto. now apply Hn.
Qed.

Theorem C58_less : forall (A B : Type) (lt gt : A -> B -> bool) (m : list A) l (k : list B) r,
  valid m l -> valid k r ->
  exists b, span_lt lt gt m l k r = Ok b /\ (b = true <-> lex lt gt (elems m l) (elems k r)).
Proof. exact @span_lt_ok. Qed.

(** The other relational operators follow from < in the usual way: for elements whose >
    is the converse of <, a > b iff b < a, a <= b iff not b < a, a >= b iff not a < b. *)
Theorem C58_relations : forall (A : Type) (lt gt : A -> A -> bool) (m : list A) l k r,
  (forall x y, gt x y = lt y x) -> (forall x y, lt x y = true -> lt y x = false) ->
  valid m l -> valid k r ->
  exists le g ge,
    span_le lt gt m l k r = Ok le /\ span_gt lt gt m l k r = Ok g /\ span_ge lt gt m l k r = Ok ge /\
    (g = true <-> lex lt gt (elems k r) (elems m l)) /\
    (le = true <-> lex lt gt (elems m l) (elems k r) \/
       Forall2 (fun x y => lt x y = false /\ lt y x = false) (elems m l) (elems k r)) /\
    (ge = true <-> lex lt gt (elems k r) (elems m l) \/
       Forall2 (fun x y => lt x y = false /\ lt y x = false) (elems m l) (elems k r)).
Proof.
  intros A lt gt m l k r Hg Ha Vl Vr.
  destruct (span_lt_ok lt gt m l k r Vl Vr) as (b1 & E1 & H1).
  destruct (span_lt_ok lt gt k r m l Vr Vl) as (b2 & E2 & H2).
  exists (negb b2), b2, (negb b1). unfold span_le, span_gt, span_ge. rewrite E1, E2.
  pose proof (lex_trichotomy lt gt (elems m l) (elems k r) Hg) as T.
  pose proof (lex_asym lt gt (elems m l) (elems k r) Hg Ha) as As.
  assert (Q : forall p q, Forall2 (fun x y => lt x y = false /\ lt y x = false) p q ->
            ~ lex lt gt p q /\ ~ lex lt gt q p).
  { clear - Hg. intros p q F. induction F as [|x y p q (Hx & Hy) F (I1 & I2)].
    - split; intros X; inversion X.
    - split; intros X; inversion X; subst; try congruence; auto. }
  specialize (Q (elems m l) (elems k r)).
  split; [reflexivity|]. split; [reflexivity|]. split; [reflexivity|]. split; [exact H2|].
  split; destruct b1, b2; simpl; intuition congruence.
Qed.

(** Byte views: the bytes of the designated elements, in order. *)
Theorem C58_as_bytes :
  forall (A : Type) (sizeof : Z) (repr : A -> list ascii) (m : list A) s,
  0 < sizeof -> (forall a, zlen (repr a) = sizeof) ->
  valid m s -> zlen (raw repr m) < 2 ^ 63 ->
  let b := as_bytes sizeof s in
  valid (raw repr m) b /\ size b = size s * sizeof /\
  elems (raw repr m) b = flat_map repr (elems m s) /\
  extent b = (if extent s =? dynamic_extent then dynamic_extent else size s * sizeof).
Proof. exact @as_bytes_ok. Qed.

(** Finding: the constructors of a span with a fixed extent ignore the count they are
    given.  A span<int, 4> built from a pointer and the count 2 has size 4 and reaches
    past the elements it was given. *)
Theorem C58_fixed_extent_finding : forall ext p n,
  0 <= ext < 2 ^ 63 -> size (span_count ext p n) = ext.
Proof. intros ext p n H. apply size_fixed. lia. Qed.

(** Finding: the arguments are not checked.  first(n) with n beyond size() returns a view
    of n elements whatever the span was, and operator[] reads beyond the span as long as
    the array goes on. *)
Theorem C58_unchecked_finding : forall (A : Type) (m : list A) i n k a,
  0 <= i -> 0 <= k -> nth_error m (Z.to_nat (i + k)) = Some a ->
  let s := span_count dynamic_extent (Some i) n in
  index m s k = Ok a /\ exists t, first s (k + 1) = Ok t /\ size t = k + 1.
Proof.
  intros A m i n k a Hi Hk N s. assert (L : (Z.to_nat (i + k) < length m)%nat).
  { apply nth_error_Some. congruence. }
  split.
  - unfold index, s, span_count. cbn [make ptr]. rewrite padd_ok by (unfold zlen; lia).
    cbn [bind]. unfold deref. destruct (Z.leb_spec 0 (i + k)); [|lia]. now rewrite N.
  - eexists. split; [reflexivity|]. apply size_dyn.
Qed.

(** A concrete array, a span over its middle, and the operations above. *)
Example C58_example :
  let m := [10; 11; 12; 13; 14; 15] in
  let s := span_count dynamic_extent (Some 1) 4 in
  valid m s /\ elems m s = [11; 12; 13; 14] /\
  (exists t, subspan m s 1 2 = Ok t /\ elems m t = [12; 13]) /\
  (exists t, last m s 3 = Ok t /\ elems m t = [12; 13; 14]) /\
  (exists t, subspan_t m s 3 dynamic_extent = Ok t /\ elems m t = [14]) /\
  index m s 2 = Ok 13 /\ back m s = Ok 14 /\
  for_each_reverse m s = Ok [14; 13; 12; 11] /\
  span_lt Z.ltb Z.gtb m s m (span_count 3 (Some 2) 3) = Ok true /\
  last m s 5 = UB.
Proof.
  cbv zeta. split; [unfold valid; vm_compute; intuition discriminate|].
  split; [reflexivity|]. split; [eexists; split; reflexivity|].
  split; [eexists; split; reflexivity|]. split; [eexists; split; reflexivity|].
  repeat split; vm_compute; reflexivity.
Qed.

Print Assumptions C58_subspan.
Print Assumptions C58_relations.
Print Assumptions C58_as_bytes.
