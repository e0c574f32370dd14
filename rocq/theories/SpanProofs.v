(** Proofs about the span model. *)
From Verif Require Import Base SpanModel SpanSpec.
Open Scope Z_scope.
Open Scope outcome_scope.

Lemma szt_small z : 0 <= z < 2 ^ 63 -> szt z = z.
Proof. intros H. unfold szt. apply Z.mod_small. lia. Qed.

Lemma small_not_dynamic z : z < 2 ^ 63 -> (z =? dynamic_extent) = false.
Proof. intros H. apply Z.eqb_neq. unfold dynamic_extent. lia. Qed.

Lemma size_dyn p n : size (make dynamic_extent p n) = n.
Proof. unfold size, make. simpl extent. simpl stored. now rewrite Z.eqb_refl. Qed.

Lemma size_fixed e p n : e < 2 ^ 63 -> size (make e p n) = e.
Proof.
  intros H. unfold size, make. simpl extent. simpl stored.
  now rewrite small_not_dynamic.
Qed.

Section S.
Context {A : Type}.
Implicit Types (m : list A) (s : span).

Lemma skipn_skipn (l : list A) a b : skipn a (skipn b l) = skipn (b + a) l.
Proof.
  revert l. induction b as [|b IH]; intros l; [reflexivity|].
  destruct l; [now rewrite !skipn_nil|]. apply IH.
Qed.

Lemma valid_size m s : valid m s -> 0 <= size s < 2 ^ 63.
Proof. intros (H & H1 & H2). destruct (ptr s); unfold zlen in *; lia. Qed.

Lemma length_elems m s : valid m s -> zlen (elems m s) = size s.
Proof.
  intros (H & H1 & H2). unfold elems, zlen in *. destruct (ptr s) as [i|]; [|simpl; lia].
  rewrite firstn_length, skipn_length. lia.
Qed.

Lemma padd_ok m i d : 0 <= i + d <= zlen m -> padd m (Some i) d = Ok (Some (i + d)).
Proof.
  intros H. unfold padd. destruct (Z.leb_spec 0 (i + d)), (Z.leb_spec (i + d) (zlen m));
    simpl; try reflexivity; lia.
Qed.

Lemma padd_null m : padd m None 0 = Ok None.
Proof. reflexivity. Qed.

(** Shape of every subview: pointer advanced by [o], size [n]. *)
Lemma subview m s t o n :
  valid m s -> 0 <= o -> 0 <= n -> o + n <= size s ->
  (ptr t = match ptr s with None => None | Some i => Some (i + o) end) -> size t = n ->
  valid m t /\ within t s /\ elems m t = slice (elems m s) o n.
Proof.
  intros (H & H1 & H2) Ho Hn Hon Ep En. unfold valid, within, elems, slice.
  rewrite Ep, En. destruct (ptr s) as [i|].
  - split; [|split].
    + unfold zlen in *. lia.
    + exists i. split; [reflexivity|lia].
    + rewrite skipn_firstn_comm, skipn_skipn, firstn_firstn.
      replace (Z.to_nat (i + o)) with (Z.to_nat i + Z.to_nat o)%nat by lia.
      rewrite Nat.min_l by lia. reflexivity.
  - assert (o = 0 /\ n = 0) as (-> & ->) by lia. repeat split; auto; lia.
Qed.

Lemma padd_sub m s o : valid m s -> 0 <= o <= size s ->
  padd m (ptr s) o = Ok (match ptr s with None => None | Some i => Some (i + o) end).
Proof.
  intros (H & H1 & H2) Ho. destruct (ptr s) as [i|].
  - apply padd_ok. unfold zlen in *. lia.
  - replace o with 0 by lia. reflexivity.
Qed.

Lemma first_sub m s n : valid m s -> 0 <= n <= size s ->
  exists t, first s n = Ok t /\ valid m t /\ within t s /\ elems m t = slice (elems m s) 0 n.
Proof.
  intros V Hn. eexists. split; [reflexivity|]. apply subview; auto; try lia.
  cbn [make ptr]. destruct (ptr s); [f_equal; lia|reflexivity].
Qed.

Lemma first_t_sub m s n : valid m s -> 0 <= n <= size s ->
  exists t, first_t s n = Ok t /\ extent t = n /\
    valid m t /\ within t s /\ elems m t = slice (elems m s) 0 n.
Proof.
  intros V Hn. pose proof (valid_size _ _ V). eexists. split; [reflexivity|].
  split; [reflexivity|]. apply subview; auto; try lia.
  all: try (cbn [make ptr]; destruct (ptr s); [f_equal; lia|reflexivity]).
  all: try (apply size_fixed; lia).
Qed.

Lemma last_sub m s n : valid m s -> 0 <= n <= size s ->
  exists t, last m s n = Ok t /\ valid m t /\ within t s /\
    elems m t = slice (elems m s) (size s - n) n.
Proof.
  intros V Hn. pose proof (valid_size _ _ V). unfold last. rewrite szt_small by lia.
  rewrite padd_sub by (auto; lia). cbn [bind]. eexists. split; [reflexivity|].
  apply subview; auto; try lia.
Qed.

Lemma last_t_sub m s n : valid m s -> 0 <= n <= size s ->
  exists t, last_t m s n = Ok t /\ extent t = n /\ valid m t /\ within t s /\
    elems m t = slice (elems m s) (size s - n) n.
Proof.
  intros V Hn. pose proof (valid_size _ _ V). unfold last_t. rewrite szt_small by lia.
  rewrite padd_sub by (auto; lia). cbn [bind]. eexists. split; [reflexivity|].
  split; [reflexivity|]. apply subview; auto; try lia. apply size_fixed. lia.
Qed.

Lemma subspan_sub m s o n : valid m s -> 0 <= o -> 0 <= n -> o + n <= size s ->
  exists t, subspan m s o n = Ok t /\ valid m t /\ within t s /\
    elems m t = slice (elems m s) o n.
Proof.
  intros V Ho Hn Hon. pose proof (valid_size _ _ V). unfold subspan.
  rewrite padd_sub by (auto; lia). cbn [bind]. eexists. split; [reflexivity|].
  apply subview; auto; try lia. rewrite size_dyn, small_not_dynamic by lia. reflexivity.
Qed.

Lemma subspan_rest m s o : valid m s -> 0 <= o <= size s ->
  exists t, subspan m s o dynamic_extent = Ok t /\ valid m t /\ within t s /\
    elems m t = slice (elems m s) o (size s - o).
Proof.
  intros V Ho. pose proof (valid_size _ _ V). unfold subspan.
  rewrite padd_sub by (auto; lia). cbn [bind]. eexists. split; [reflexivity|].
  apply subview; auto; try lia. rewrite size_dyn, Z.eqb_refl. apply szt_small. lia.
Qed.

Lemma subspan_t_sub m s o n : valid m s -> 0 <= o -> 0 <= n -> o + n <= size s ->
  exists t, subspan_t m s o n = Ok t /\ extent t = n /\ valid m t /\ within t s /\
    elems m t = slice (elems m s) o n.
Proof.
  intros V Ho Hn Hon. pose proof (valid_size _ _ V). unfold subspan_t.
  rewrite padd_sub by (auto; lia). cbn [bind]. eexists. split; [reflexivity|].
  unfold subspan_extent. rewrite small_not_dynamic by lia. cbn [negb].
  split; [reflexivity|].
  apply subview; auto; try lia. apply size_fixed. lia.
Qed.

Lemma subspan_t_rest m s o : valid m s -> 0 <= o <= size s ->
  exists t, subspan_t m s o dynamic_extent = Ok t /\
    extent t = (if extent s =? dynamic_extent then dynamic_extent else size s - o) /\
    valid m t /\ within t s /\ elems m t = slice (elems m s) o (size s - o).
Proof.
  intros V Ho. pose proof (valid_size _ _ V) as Vs. unfold subspan_t.
  rewrite padd_sub by (auto; lia). cbn [bind]. eexists. split; [reflexivity|].
  unfold subspan_extent. rewrite Z.eqb_refl. cbn [negb].
  assert (E : extent s <> dynamic_extent -> size s = extent s).
  { intros N. unfold size. apply Z.eqb_neq in N. now rewrite N. }
  destruct (Z.eqb_spec (extent s) dynamic_extent) as [D|D]; cbn [negb].
  - split; [reflexivity|]. apply subview; auto; try lia.
    rewrite size_dyn. apply szt_small. lia.
  - specialize (E D). split; [cbn [make extent]; rewrite szt_small; lia|].
    apply subview; auto; try lia. rewrite size_fixed; rewrite szt_small; lia.
Qed.

(** Element access. *)
Lemma deref_ok m i : 0 <= i < zlen m ->
  exists a, deref m (Some i) = Ok a /\ nth_error m (Z.to_nat i) = Some a.
Proof.
  intros H. unfold deref. destruct (Z.leb_spec 0 i); [|lia].
  destruct (nth_error m (Z.to_nat i)) as [a|] eqn:E; [eauto|].
  apply nth_error_None in E. unfold zlen in H. lia.
Qed.

Lemma nth_elems m s i k : ptr s = Some i -> 0 <= k < size s ->
  0 <= i ->
  nth_error (elems m s) (Z.to_nat k) = nth_error m (Z.to_nat (i + k)).
Proof.
  intros P Hk Hi. unfold elems. rewrite P.
  replace (Z.to_nat (i + k)) with (Z.to_nat i + Z.to_nat k)%nat by lia.
  assert (L : (Z.to_nat k < Z.to_nat (size s))%nat) by lia. clear Hk.
  revert L. generalize (Z.to_nat k) (Z.to_nat (size s)) (Z.to_nat i). clear.
  intros k n i L. revert m. induction i as [|i IH]; intros m; cbn [skipn plus].
  - revert k n L. induction m as [|a m IH]; intros k n L; destruct n, k; try lia; try reflexivity.
    simpl. apply IH. lia.
  - destruct m; [now rewrite firstn_nil; destruct k|]. apply IH.
Qed.

Lemma index_ok m s k : valid m s -> 0 <= k < size s ->
  exists a, index m s k = Ok a /\ nth_error (elems m s) (Z.to_nat k) = Some a.
Proof.
  intros V Hk. unfold index. rewrite padd_sub by (auto; lia). cbn [bind].
  destruct V as (H & H1 & H2). destruct (ptr s) as [i|] eqn:P; [|lia].
  rewrite (nth_elems m s i k P Hk) by lia. apply deref_ok. lia.
Qed.

Lemma set_nth_length m n a : length (set_nth m n a) = length m.
Proof. revert n. induction m; intros [|n]; simpl; auto. Qed.

Lemma nth_set_nth m n a k : (n < length m)%nat ->
  nth_error (set_nth m n a) k = if (k =? n)%nat then Some a else nth_error m k.
Proof.
  revert n k. induction m as [|x m IH]; intros [|n] [|k] H; simpl in *; try lia;
    try reflexivity. apply IH. lia.
Qed.

Lemma store_ok m s k a : valid m s -> 0 <= k < size s ->
  exists m', store m s k a = Ok m' /\ zlen m' = zlen m /\
    (forall i, ptr s = Some i -> forall j, nth_error m' j =
       if (j =? Z.to_nat (i + k))%nat then Some a else nth_error m j).
Proof.
  intros V Hk. unfold store. rewrite padd_sub by (auto; lia). cbn [bind].
  destruct V as (H & H1 & H2). destruct (ptr s) as [i|] eqn:P; [|lia].
  unfold assign. destruct (Z.leb_spec 0 (i + k)); [|lia].
  destruct (Z.ltb_spec (i + k) (zlen m)); [|lia]. cbn [andb].
  eexists. split; [reflexivity|]. split; [unfold zlen; now rewrite set_nth_length|].
  intros i' [= <-] j. apply nth_set_nth. unfold zlen in *. lia.
Qed.

Lemma list_ext (l l' : list A) : (forall n, nth_error l n = nth_error l' n) -> l = l'.
Proof.
  revert l'. induction l as [|a l IH]; intros [|b l'] H; auto.
  - specialize (H 0%nat). discriminate.
  - specialize (H 0%nat). discriminate.
  - pose proof (H 0%nat) as H0. simpl in H0. injection H0 as ->. f_equal. apply IH.
    intros n. apply (H (S n)).
Qed.

Lemma elems_nth m s n : valid m s ->
  nth_error (elems m s) n =
  if (n <? Z.to_nat (size s))%nat
  then match ptr s with Some i => nth_error m (Z.to_nat i + n) | None => None end
  else None.
Proof.
  intros V. pose proof (length_elems m s V) as L. destruct (Nat.ltb_spec n (Z.to_nat (size s))).
  - destruct V as (H1 & H2 & H3). destruct (ptr s) as [i|] eqn:P.
    + rewrite <- (Nat2Z.id n) at 1. rewrite (nth_elems m s i (Z.of_nat n) P) by lia.
      f_equal. lia.
    + lia.
  - apply nth_error_None. unfold zlen in L. lia.
Qed.

Lemma store_elems m s k a m' t : valid m s -> 0 <= k < size s ->
  store m s k a = Ok m' -> valid m t ->
  valid m' t /\
  (forall n, (Z.of_nat n < size t) ->
    nth_error (elems m' t) n =
    match ptr s, ptr t with
    | Some i, Some j => if i + k =? j + Z.of_nat n then Some a else nth_error (elems m t) n
    | _, _ => nth_error (elems m t) n
    end).
Proof.
  intros V Hk Hs Vt. destruct (store_ok m s k a V Hk) as (m1 & E & L & N).
  rewrite E in Hs. injection Hs as ->.
  assert (Vt' : valid m' t) by (unfold valid in *; now rewrite L).
  split; [exact Vt'|]. intros n Hn. rewrite !elems_nth by auto.
  destruct V as (V1 & V2 & V3). destruct Vt as (W1 & W2 & W3).
  destruct (Nat.ltb_spec n (Z.to_nat (size t))); [|lia].
  destruct (ptr s) as [i|]; [|lia]. destruct (ptr t) as [j|]; [|reflexivity].
  rewrite (N i eq_refl).
  destruct (Z.eqb_spec (i + k) (j + Z.of_nat n)), (Nat.eqb_spec (Z.to_nat j + n) (Z.to_nat (i + k)));
    try reflexivity; lia.
Qed.

(** Iteration. *)
Lemma iterate_ok m n i k : 0 <= i -> i + Z.of_nat k <= zlen m -> (k <= n)%nat ->
  iterate m n (Some i) (Some (i + Z.of_nat k)) = Ok (firstn k (skipn (Z.to_nat i) m)).
Proof.
  revert n i. induction k as [|k IH]; intros n i Hi Hk Hn.
  - destruct n; cbn [iterate]; (destruct (Z.eqb_spec i (i + Z.of_nat 0)); [reflexivity|lia]).
  - destruct n as [|n]; [lia|]. cbn [iterate].
    destruct (Z.eqb_spec i (i + Z.of_nat (S k))); [lia|].
    destruct (deref_ok m i) as (a & E & Na); [lia|]. rewrite E. cbn [bind].
    rewrite padd_ok by lia. cbn [bind].
    replace (i + Z.of_nat (S k)) with (i + 1 + Z.of_nat k) by lia.
    rewrite IH by lia. cbn [bind]. f_equal.
    replace (Z.to_nat (i + 1)) with (S (Z.to_nat i)) by lia.
    clear - Na. revert m Na. generalize (Z.to_nat i) as p. induction p as [|p IH]; intros m Na.
    + destruct m; [discriminate|]. simpl in Na. injection Na as ->. reflexivity.
    + destruct m; [discriminate|]. apply (IH m Na).
Qed.

Lemma for_each_ok m s : valid m s -> for_each m s = Ok (elems m s).
Proof.
  intros V. unfold for_each, end_, begin_. rewrite padd_sub by (auto; destruct V; lia).
  cbn [bind]. unfold elems. destruct V as (H & H1 & H2). destruct (ptr s) as [i|].
  - replace (i + size s) with (i + Z.of_nat (Z.to_nat (size s))) by lia.
    apply iterate_ok; unfold zlen in *; lia.
  - destruct m; reflexivity.
Qed.

Lemma riterate_ok m n i k : 0 <= i -> i + Z.of_nat k <= zlen m -> (k <= n)%nat ->
  riterate m n (Some (i + Z.of_nat k)) (Some i) = Ok (rev (firstn k (skipn (Z.to_nat i) m))).
Proof.
  revert n. induction k as [|k IH]; intros n Hi Hk Hn.
  - destruct n; cbn [riterate]; (destruct (Z.eqb_spec (i + Z.of_nat 0) i); [reflexivity|lia]).
  - destruct n as [|n]; [lia|]. cbn [riterate].
    destruct (Z.eqb_spec (i + Z.of_nat (S k)) i); [lia|].
    rewrite padd_ok by lia. cbn [bind].
    replace (i + Z.of_nat (S k) + -1) with (i + Z.of_nat k) by lia.
    destruct (deref_ok m (i + Z.of_nat k)) as (a & E & Na); [lia|]. rewrite E. cbn [bind].
    rewrite IH by lia. cbn [bind]. f_equal.
    assert (Nk : nth_error (skipn (Z.to_nat i) m) k = Some a).
    { rewrite <- Na. replace (Z.to_nat (i + Z.of_nat k)) with (Z.to_nat i + k)%nat by lia.
      clear. revert m. induction (Z.to_nat i) as [|p IH]; intros m; [reflexivity|].
      destruct m; [now destruct k|]. apply IH. }
    revert Nk. generalize (skipn (Z.to_nat i) m) as l. clear. intros l Nk.
    assert (E : firstn (S k) l = firstn k l ++ [a]).
    { revert l Nk. induction k as [|k IH]; intros [|x l] Nk; try discriminate.
      - simpl in Nk. now injection Nk as ->.
      - simpl. f_equal. apply IH. exact Nk. }
    rewrite E, rev_app_distr. reflexivity.
Qed.

Lemma for_each_reverse_ok m s : valid m s -> for_each_reverse m s = Ok (rev (elems m s)).
Proof.
  intros V. unfold for_each_reverse, end_, begin_. rewrite padd_sub by (auto; destruct V; lia).
  cbn [bind]. unfold elems. destruct V as (H & H1 & H2). destruct (ptr s) as [i|].
  - replace (i + size s) with (i + Z.of_nat (Z.to_nat (size s))) by lia.
    apply riterate_ok; unfold zlen in *; lia.
  - destruct m; reflexivity.
Qed.

(** Byte views. *)
Lemma flat_map_skipn (repr : A -> list ascii) w m i : (forall a, length (repr a) = w) ->
  flat_map repr (skipn i m) = skipn (i * w) (flat_map repr m).
Proof.
  intros L. revert m. induction i as [|i IH]; intros m; [reflexivity|].
  destruct m as [|a m]; cbn [skipn flat_map]; [now rewrite skipn_nil|].
  rewrite IH. rewrite skipn_app, L. rewrite (skipn_all2 (repr a)) by (rewrite L; lia).
  cbn [app]. f_equal. lia.
Qed.

Lemma flat_map_firstn (repr : A -> list ascii) w m i : (forall a, length (repr a) = w) ->
  flat_map repr (firstn i m) = firstn (i * w) (flat_map repr m).
Proof.
  intros L. revert m. induction i as [|i IH]; intros m; [reflexivity|].
  destruct m as [|a m]; cbn [firstn flat_map]; [now rewrite firstn_nil|].
  rewrite IH. rewrite firstn_app, L. rewrite (firstn_all2 (repr a)) by (rewrite L; lia).
  f_equal. f_equal. lia.
Qed.

Lemma flat_map_len (repr : A -> list ascii) w m : (forall a, length (repr a) = w) ->
  length (flat_map repr m) = (length m * w)%nat.
Proof. intros L. induction m; simpl; [auto|]. rewrite app_length, L. lia. Qed.

Lemma as_bytes_ok (sizeof : Z) (repr : A -> list ascii) m s :
  0 < sizeof -> (forall a, zlen (repr a) = sizeof) ->
  valid m s -> zlen (raw repr m) < 2 ^ 63 ->
  let b := as_bytes sizeof s in
  valid (raw repr m) b /\ size b = size s * sizeof /\
  elems (raw repr m) b = flat_map repr (elems m s) /\
  extent b = (if extent s =? dynamic_extent then dynamic_extent else size s * sizeof).
Proof.
  intros Hs L V Hr b. pose proof (valid_size m s V) as Vs.
  assert (L' : forall a, length (repr a) = Z.to_nat sizeof).
  { intros a. specialize (L a). unfold zlen in L. lia. }
  assert (Lr : zlen (raw repr m) = zlen m * sizeof).
  { unfold raw, zlen. rewrite (flat_map_len repr _ m L'). lia. }
  assert (V' := V). destruct V as (H & H1 & H2).
  assert (Hb : size s * sizeof <= zlen (raw repr m)).
  { rewrite Lr. destruct (ptr s); [|rewrite H2; unfold zlen; lia]. apply Z.mul_le_mono_nonneg_r; lia. }
  assert (D : forall e, extent s = e -> e <> dynamic_extent -> size s = e).
  { intros e <- N. unfold size. apply Z.eqb_neq in N. now rewrite N. }
  assert (Sb : size b = size s * sizeof).
  { unfold b, as_bytes, size_bytes. destruct (Z.eqb_spec (extent s) dynamic_extent) as [E|E].
    - rewrite size_dyn. apply szt_small. nia.
    - rewrite <- (D _ eq_refl E). rewrite size_fixed; rewrite szt_small; nia. }
  split; [|split; [exact Sb|split]].
  - unfold valid. rewrite Sb. split; [exact Hr|]. split; [nia|].
    unfold b, as_bytes. cbn [make ptr]. destruct (ptr s) as [i|]; [|nia].
    rewrite Lr. nia.
  - unfold elems. rewrite Sb. unfold b, as_bytes. cbn [make ptr].
    destruct (ptr s) as [i|]; [|reflexivity]. unfold raw.
    rewrite (flat_map_firstn repr _ _ _ L'), (flat_map_skipn repr _ _ _ L').
    rewrite !Z2Nat.inj_mul by lia. reflexivity.
  - unfold b, as_bytes. cbn [make extent].
    destruct (Z.eqb_spec (extent s) dynamic_extent) as [E|E]; [reflexivity|].
    rewrite <- (D _ eq_refl E). rewrite szt_small; nia.
Qed.
End S.

(** Comparison. *)
Section C.
Context {A : Type}.

Lemma elems_skip_cons (m : list A) s k : valid m s -> 0 <= k < size s ->
  exists a, index m s k = Ok a /\
    skipn (Z.to_nat k) (elems m s) = a :: skipn (Z.to_nat (k + 1)) (elems m s).
Proof.
  intros V Hk. destruct (index_ok m s k V Hk) as (a & E & N). exists a. split; [exact E|].
  replace (Z.to_nat (k + 1)) with (S (Z.to_nat k)) by lia.
  revert N. generalize (Z.to_nat k) (elems m s). clear. intros n. induction n as [|n IH];
    intros [|x l] N; try discriminate.
  - simpl in N. now injection N as ->.
  - apply (IH l N).
Qed.

Lemma elems_skip_nil (m : list A) s k : valid m s -> size s <= k ->
  skipn (Z.to_nat k) (elems m s) = [].
Proof.
  intros V Hk. apply skipn_all2. pose proof (length_elems m s V). unfold zlen in *. lia.
Qed.

End C.

Lemma eq_loop_ok {A B} (ne : A -> B -> bool) (m : list A) l (k : list B) r n i :
  valid m l -> valid k r -> size l = size r -> 0 <= i -> i + Z.of_nat n = size l ->
  exists b, eq_loop ne m l k r n i = Ok b /\
   (b = true <-> Forall2 (fun a b => ne a b = false)
                   (skipn (Z.to_nat i) (elems m l)) (skipn (Z.to_nat i) (elems k r))).
Proof.
  intros Vl Vr Hs. revert i. induction n as [|n IH]; intros i Hi Hn.
  - exists true. split; [reflexivity|]. rewrite !elems_skip_nil by (auto; lia).
    split; auto.
  - cbn [eq_loop].
    destruct (elems_skip_cons m l i Vl) as (a & E & ->); [lia|]. rewrite E. cbn [bind].
    destruct (elems_skip_cons k r i Vr) as (b & E' & ->); [lia|]. rewrite E'. cbn [bind].
    destruct (ne a b) eqn:N.
    + exists false. split; [reflexivity|]. split; [discriminate|]. intros F. inversion F. congruence.
    + destruct (IH (i + 1)) as (c & Ec & Hc); [lia|lia|]. exists c. split; [exact Ec|].
      rewrite Hc. split; intros F; [now constructor|]. now inversion F.
Qed.

Lemma span_eq_ok {A B} (ne : A -> B -> bool) (m : list A) l (k : list B) r :
  valid m l -> valid k r ->
  exists b, span_eq ne m l k r = Ok b /\
   (b = true <-> Forall2 (fun a b => ne a b = false) (elems m l) (elems k r)).
Proof.
  intros Vl Vr. unfold span_eq. destruct (Z.eqb_spec (size l) (size r)) as [E|E]; cbn [negb].
  - pose proof (valid_size m l Vl).
    destruct (eq_loop_ok ne m l k r (Z.to_nat (size l)) 0 Vl Vr E) as (b & Eb & Hb); [lia|lia|].
    exists b. split; [exact Eb|]. exact Hb.
  - exists false. split; [reflexivity|]. split; [discriminate|]. intros F.
    assert (Lf : length (elems m l) = length (elems k r)) by (induction F; simpl; auto).
    pose proof (length_elems m l Vl). pose proof (length_elems k r Vr).
    unfold zlen in *. lia.
Qed.

Lemma lt_loop_ok {A B} (lt gt : A -> B -> bool) (m : list A) l (k : list B) r n i :
  valid m l -> valid k r -> 0 <= i ->
  i + Z.of_nat n = Z.min (size l) (size r) ->
  exists b, lt_loop lt gt m l k r n i = Ok b /\
   (b = true <-> lex lt gt (skipn (Z.to_nat i) (elems m l)) (skipn (Z.to_nat i) (elems k r))).
Proof.
  intros Vl Vr. revert i. induction n as [|n IH]; intros i Hi Hn.
  - eexists. split; [reflexivity|]. destruct (Z.ltb_spec (size l) (size r)).
    + rewrite (elems_skip_nil m l) by (auto; lia).
      destruct (elems_skip_cons k r i Vr) as (b & _ & ->); [lia|]. split; [constructor|reflexivity].
    + rewrite (elems_skip_nil k r) by (auto; lia). split; [discriminate|]. intros F; inversion F.
  - cbn [lt_loop].
    destruct (elems_skip_cons m l i Vl) as (a & E & ->); [lia|]. rewrite E. cbn [bind].
    destruct (elems_skip_cons k r i Vr) as (b & E' & ->); [lia|]. rewrite E'. cbn [bind].
    destruct (lt a b) eqn:N; [|destruct (gt a b) eqn:G].
    + exists true. split; [reflexivity|]. split; [now constructor 2|reflexivity].
    + exists false. split; [reflexivity|]. split; [discriminate|]. intros F. inversion F; congruence.
    + destruct (IH (i + 1)) as (c & Ec & Hc); [lia|lia|]. exists c. split; [exact Ec|].
      rewrite Hc. split; intros F; [now constructor 3|]. inversion F; [congruence|assumption].
Qed.

Lemma span_lt_ok {A B} (lt gt : A -> B -> bool) (m : list A) l (k : list B) r :
  valid m l -> valid k r ->
  exists b, span_lt lt gt m l k r = Ok b /\ (b = true <-> lex lt gt (elems m l) (elems k r)).
Proof.
  intros Vl Vr. unfold span_lt. pose proof (valid_size m l Vl). pose proof (valid_size k r Vr).
  destruct (lt_loop_ok lt gt m l k r (Z.to_nat (if size l <? size r then size l else size r)) 0 Vl Vr)
    as (b & Eb & Hb); [lia|destruct (Z.ltb_spec (size l) (size r)); lia|].
  exists b. split; [exact Eb|exact Hb].
Qed.

(** For a total order on the elements the lexicographic order is total. *)
Lemma lex_trichotomy {A} (lt gt : A -> A -> bool) (l r : list A) :
  (forall a b, gt a b = lt b a) ->
  lex lt gt l r \/ lex lt gt r l \/ Forall2 (fun a b => lt a b = false /\ lt b a = false) l r.
Proof.
  intros Hg. revert r. induction l as [|a l IH]; intros [|b r].
  - right; right; constructor.
  - left; constructor.
  - right; left; constructor.
  - destruct (lt a b) eqn:E1; [left; now constructor 2|].
    destruct (lt b a) eqn:E2; [right; left; now constructor 2|].
    destruct (IH r) as [H|[H|H]].
    + left. constructor 3; auto. now rewrite Hg.
    + right; left. constructor 3; auto. now rewrite Hg.
    + right; right. constructor; auto.
Qed.

Lemma lex_asym {A} (lt gt : A -> A -> bool) (l r : list A) :
  (forall a b, gt a b = lt b a) -> (forall a b, lt a b = true -> lt b a = false) ->
  lex lt gt l r -> ~ lex lt gt r l.
Proof.
  intros Hg Ha H. induction H; intros F; inversion F; subst.
  - apply Ha in H. congruence.
  - rewrite Hg in *. congruence.
  - rewrite Hg in *. congruence.
  - auto.
Qed.
