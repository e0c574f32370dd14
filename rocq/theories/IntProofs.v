(** Facts about C++ integer conversions. *)
From Verif Require Import Base IntModel.
Local Open Scope Z_scope.

Ltac ity_cases t :=
  let Ht := fresh in
  match goal with H : is_ity t |- _ => rename H into Ht end;
  destruct t as [[|] ?w]; unfold is_ity in Ht; cbn [wid] in Ht;
  destruct Ht as [Ht|[Ht|[Ht|Ht]]]; subst.

Lemma conv_id t z : is_ity t -> in_range t z -> conv t z = z.
Proof.
  intros Ht Hz. unfold conv, in_range, imin, imax in *.
  ity_cases t; cbn [sgn wid andb] in *;
    try (apply Z.mod_small; lia);
    (destruct (Z.ltb_spec z 0) as [Hn|Hn];
    [ match goal with |- context [Z.modulo _ ?m] =>
        replace (z mod m) with (z + m) by (apply (Z.mod_unique _ _ (-1)); lia) end
    | rewrite (Z.mod_small z) by lia ]);
    match goal with |- (if ?a <=? ?b then _ else _) = _ => destruct (Z.leb_spec a b) end; lia.
Qed.

Lemma conv_range t z : is_ity t -> in_range t (conv t z).
Proof.
  intros Ht. unfold conv, in_range, imin, imax.
  ity_cases t; cbn [sgn wid andb];
    match goal with |- context [z mod ?m] => pose proof (Z.mod_pos_bound z m ltac:(lia)) end;
    try lia;
    match goal with |- context [if ?a <=? ?b then _ else _] => destruct (Z.leb_spec a b) end; lia.
Qed.

Lemma promote_ity t : is_ity t -> is_ity (promote t).
Proof. intros Ht. ity_cases t; unfold is_ity; cbn; lia. Qed.

Lemma promote_range t z : is_ity t -> in_range t z -> in_range (promote t) z.
Proof. intros Ht. unfold in_range, imin, imax. ity_cases t; cbn; lia. Qed.

Lemma arith_in t z : is_ity t -> in_range t z -> arith t z = Ok z.
Proof.
  intros Ht Hz. unfold arith, in_rangeb, in_range, imin, imax in *.
  ity_cases t; cbn [sgn wid] in *;
    try (f_equal; apply Z.mod_small; lia);
    repeat match goal with |- context [?a <=? ?b] => destruct (Z.leb_spec a b); try lia end;
    reflexivity.
Qed.

Lemma usual_ity t1 t2 : is_ity t1 -> is_ity t2 -> is_ity (usual t1 t2).
Proof. intros H1 H2. ity_cases t1; ity_cases t2; unfold is_ity; cbn; lia. Qed.

Lemma usual_range_l t1 t2 z : is_ity t1 -> is_ity t2 -> sgn t1 = sgn t2 ->
  in_range t1 z -> in_range (usual t1 t2) z.
Proof.
  intros H1 H2. unfold in_range, imin, imax.
  ity_cases t1; ity_cases t2; cbn; intros E; try discriminate; lia.
Qed.

Lemma common_ity t1 t2 : is_ity t1 -> is_ity t2 -> is_ity (common_type t1 t2).
Proof.
  intros H1 H2. unfold common_type. destruct (same_ity t1 t2); [auto | now apply usual_ity].
Qed.

Lemma common_range t1 t2 a b : is_ity t1 -> is_ity t2 -> sgn t1 = sgn t2 ->
  in_range t1 a -> in_range t2 b ->
  in_range (common_type t1 t2) a /\ in_range (common_type t1 t2) b.
Proof.
  intros H1 H2. unfold in_range, imin, imax.
  ity_cases t1; ity_cases t2; cbn; intros E; try discriminate; lia.
Qed.

(** Both argument types and the common type fit into the types used for the product. *)
Lemma usual_chain t1 t2 z : is_ity t1 -> is_ity t2 -> sgn t1 = sgn t2 ->
  in_range (common_type t1 t2) z ->
  in_range (usual t1 (common_type t1 t2)) z /\
  in_range (usual (usual t1 (common_type t1 t2)) t2) z.
Proof.
  intros H1 H2. unfold in_range, imin, imax.
  ity_cases t1; ity_cases t2; cbn; intros E; try discriminate; lia.
Qed.

