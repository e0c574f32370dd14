(** Proofs about type_name *)
From Coq Require Import Lia.
From Verif Require Import Base SvModel SvSpec SvProofs SvProps TypeNameModel TypeNameSpec.
Local Open Scope Z_scope.

Lemma lit_ok s : zlen s < 2 ^ 63 -> valid (lit s) /\ content (lit s) = s.
Proof.
  intros H. unfold lit, valid, content. cbn [v_mem v_off v_len skipn Z.to_nat]. unfold zlen in *. split; [lia|].
  rewrite Nat2Z.id. apply firstn_all.
Qed.
Lemma first_at (P : Z -> Prop) r q : is_first P 0 r -> 0 <= q -> P q -> (forall p, P p -> q <= p) -> r = q.
Proof.
  intros [[-> H]|(R & H & M)] Q Pq Mq; [destruct (H q Q Pq)|]. specialize (Mq r H).
  destruct (Z.eq_dec r q) as [E|E]; [exact E|]. destruct (M q ltac:(lia) Pq).
Qed.
Lemma occurs_prefix mark a b p : occurs_at mark (a ++ b) p -> p + zlen mark <= zlen a -> occurs_at mark a p.
Proof.
  intros (x & y & E & <-) L. unfold zlen in L. exists x, (skipn (length x + length mark) a). split; [|reflexivity].
  rewrite <- (firstn_skipn (length x + length mark) a) at 1. rewrite app_assoc. f_equal.
  transitivity (firstn (length x + length mark) (a ++ b)).
  - rewrite firstn_app. replace (length x + length mark - length a)%nat with 0%nat by lia. cbn. rewrite app_nil_r. reflexivity.
  - rewrite E, app_assoc, <- app_length, firstn_app, Nat.sub_diag, firstn_all. cbn. apply app_nil_r.
Qed.
Lemma mark_first mark head rest p : first_mark mark head -> occurs_at mark (head ++ mark ++ rest) p -> zlen head <= p.
Proof.
  intros F O. destruct (Z.le_gt_cases (zlen head) p) as [H|H]; [exact H|]. rewrite app_assoc in O.
  apply occurs_prefix in O; [|unfold zlen in *; rewrite app_length; lia]. rewrite (F p O). lia.
Qed.
Lemma find_mark v mark head rest : valid v -> content v = head ++ mark ++ rest -> first_mark mark head -> zlen mark < 2 ^ 63 ->
  sv_find v (lit mark) 0 = Ok (zlen head).
Proof.
  intros V C F L. destruct (lit_ok mark L) as [LV LC]. destruct (sv_find_ok v (lit mark) 0 V LV) as (r & -> & R); [unfold is_size_t; lia|].
  f_equal. rewrite LC, C in R. apply (first_at _ _ _ R); [unfold zlen; lia| |].
  - exists head, rest. split; reflexivity.
  - intros p. apply mark_first. exact F.
Qed.
Lemma char_first c head : ~ In c head -> first_mark [c] head.
Proof.
  intros N p (a & b & E & <-). cbn [app] in E.
  revert a E. induction head as [|h head IH]; intros a E.
  - destruct a as [|x a]; [reflexivity|]. exfalso. apply (f_equal (@length _)) in E. cbn in E. rewrite app_length in E. cbn in E. lia.
  - destruct a as [|x a]; cbn [app] in E.
    + injection E as -> E. destruct N. left. reflexivity.
    + injection E as -> E. assert (Hn : ~ In c head) by (intros H; apply N; right; exact H).
      specialize (IH Hn a E). unfold zlen in *. cbn [length]. lia.
Qed.
Lemma find_none v mark : valid v -> zlen mark < 2 ^ 63 -> (forall p, ~ occurs_at mark (content v) p) -> sv_find v (lit mark) 0 = Ok npos.
Proof.
  intros V L N. destruct (lit_ok mark L) as [LV LC]. destruct (sv_find_ok v (lit mark) 0 V LV) as (r & -> & R); [unfold is_size_t; lia|].
  f_equal. rewrite LC in R. destruct R as [[-> _]|(_ & H & _)]; [reflexivity|]. destruct (N r H).
Qed.
Lemma sub_size a : 0 <= a < 2 ^ 63 -> is_size_t (w64 a) /\ w64 a = a.
Proof. intros H. unfold w64, is_size_t. rewrite Z.mod_small by lia. lia. Qed.
(** Cutting off behind the mark *)
Lemma gnu_cut sig head rest : c_literal sig -> sig = head ++ !" = " ++ rest -> first_mark !" = " head ->
  exists v, valid v /\ content v = rest /\ type_name_gnu sig =
    bind (sv_find v (lit !";") 0) (fun j => Ok (sv_remove_suffix v (if negb (j =? npos) then w64 (sv_size v - j) else 1))).
Proof.
  intros [N L] E F. unfold type_name_gnu. destruct (C60_from_c_string sig [] N L) as (v & -> & V & C). cbn [bind].
  rewrite (find_mark v !" = " head rest V) by (try assumption; try (rewrite C; exact E); reflexivity). cbn [bind].
  assert (B : 0 <= zlen head + 3 < 2 ^ 63).
  { rewrite E in L. unfold zlen in *. rewrite !app_length in L. change (length !" = ") with 3%nat in L. lia. }
  destruct (sub_size _ B) as [B1 B2]. destruct (sv_remove_prefix_ok v _ V B1) as [V1 C1].
  exists (sv_remove_prefix v (w64 (zlen head + 3))). split; [exact V1|]. split; [|reflexivity].
  rewrite C1, B2, C, E. unfold zlen. replace (Z.to_nat (Z.of_nat (length head) + 3)) with (length (head ++ !" = ")) by (rewrite app_length; change (length !" = ") with 3%nat; lia).
  rewrite app_assoc, skipn_app, skipn_all, Nat.sub_diag. reflexivity.
Qed.
Lemma gnu_semicolon sig head n more : c_literal sig -> sig = head ++ !" = " ++ n ++ ";"%char :: more -> first_mark !" = " head -> ~ In ";"%char n ->
  exists v, type_name_gnu sig = Ok v /\ valid v /\ content v = n.
Proof.
  intros L E F N. destruct (gnu_cut sig head _ L E F) as (v & V & C & ->).
  assert (C' : content v = n ++ !";" ++ more) by exact C.
  rewrite (find_mark v !";" n more V C' (char_first _ _ N)) by reflexivity. cbn [bind].
  pose proof (zlen_content v V) as Z0. pose proof V as (_ & VL & _). rewrite C' in Z0. unfold zlen in *. rewrite !app_length in Z0. change (length !";") with 1%nat in Z0.
  destruct (Z.eqb_spec (Z.of_nat (length n)) npos) as [X|X]; [unfold npos in X; lia|]. cbn [negb]. unfold sv_size.
  destruct (sub_size (v_len v - Z.of_nat (length n)) ltac:(lia)) as [B1 B2].
  destruct (sv_remove_suffix_ok v _ V B1) as [V1 C1]. eexists. split; [reflexivity|]. split; [exact V1|].
  rewrite C1, B2, C'. rewrite firstn_app. rewrite !app_length. change (length !";") with 1%nat.
  replace (length n + (1 + length more) - Z.to_nat (v_len v - Z.of_nat (length n)))%nat with (length n) by lia.
  rewrite firstn_all, Nat.sub_diag. cbn. apply app_nil_r.
Qed.
Lemma gnu_bracket sig head n : c_literal sig -> sig = head ++ !" = " ++ n ++ !"]" -> first_mark !" = " head -> ~ In ";"%char n ->
  exists v, type_name_gnu sig = Ok v /\ valid v /\ content v = n.
Proof.
  intros L E F N. destruct (gnu_cut sig head _ L E F) as (v & V & C & ->).
  rewrite find_none; [|exact V|reflexivity|].
  2: { intros p (a & b & Eo & _). rewrite C in Eo. assert (In ";"%char (n ++ !"]")) by (rewrite Eo; apply in_or_app; right; left; reflexivity).
    apply in_app_or in H. destruct H as [H|[H|[]]]; [exact (N H)|discriminate]. }
  cbn [bind]. rewrite Z.eqb_refl. cbn [negb]. destruct (sv_remove_suffix_ok v 1 V ltac:(unfold is_size_t; lia)) as [V1 C1].
  eexists. split; [reflexivity|]. split; [exact V1|]. rewrite C1, C, app_length. change (length !"]") with 1%nat. rewrite firstn_app.
  replace (length n + 1 - Z.to_nat 1)%nat with (length n) by lia. rewrite firstn_all, Nat.sub_diag. cbn. apply app_nil_r.
Qed.
Lemma gnu_safe sig : c_literal sig -> exists v, type_name_gnu sig = Ok v /\ valid v.
Proof.
  intros [N L]. unfold type_name_gnu. destruct (C60_from_c_string sig [] N L) as (v & -> & V & C). cbn [bind].
  destruct (lit_ok !" = ") as [LV _]; [reflexivity|]. destruct (sv_find_ok v (lit !" = ") 0 V LV) as (i & -> & _); [unfold is_size_t; lia|]. cbn [bind].
  destruct (sv_remove_prefix_ok v (w64 (i + 3)) V) as [V1 _]; [unfold is_size_t, w64; apply Z.mod_pos_bound; lia|].
  destruct (lit_ok !";") as [LV2 _]; [reflexivity|].
  destruct (sv_find_ok _ (lit !";") 0 V1 LV2) as (j & -> & _); [unfold is_size_t; lia|]. cbn [bind].
  eexists. split; [reflexivity|]. apply sv_remove_suffix_ok; [exact V1|]. destruct (negb (j =? npos)); [|unfold is_size_t; lia].
  unfold is_size_t, w64. apply Z.mod_pos_bound. lia.
Qed.
Lemma last_gt_ok v n tail : valid v -> content v = n ++ ">"%char :: tail -> n <> [] -> ~ In ">"%char tail ->
  forall fuel i, 0 <= i < v_len v -> Z.of_nat (length n) <= i -> (Z.to_nat i < fuel)%nat ->
  exists v', last_gt fuel v i = Ok v' /\ valid v' /\ content v' = n.
Proof.
  intros V C NE NT. pose proof (zlen_content v V) as ZC. pose proof V as (_ & VL & _). rewrite C in ZC. unfold zlen in ZC. rewrite app_length in ZC. cbn [length] in ZC.
  assert (LN : (0 < length n)%nat) by (destruct n; [congruence|cbn; lia]).
  induction fuel as [|fuel IH]; intros i Hi Hn Hf; [lia|]. cbn [last_gt].
  destruct (Z.eqb_spec i 0); [lia|]. unfold sv_index. rewrite (rd_ok v i V Hi). cbn [bind].
  rewrite C, app_nth2 by lia. destruct (Z.eq_dec i (Z.of_nat (length n))) as [->|Ne].
  - rewrite Nat2Z.id, Nat.sub_diag. cbn [nth]. change (ch_eq ">" ">") with true. cbn [negb].
    unfold sv_size. destruct (sub_size (v_len v - Z.of_nat (length n)) ltac:(lia)) as [B1 B2].
    destruct (sv_remove_suffix_ok v _ V B1) as [V1 C1]. eexists. split; [reflexivity|]. split; [exact V1|].
    rewrite C1, B2, C. rewrite firstn_app. rewrite !app_length. cbn [length].
    replace (length n + S (length tail) - Z.to_nat (v_len v - Z.of_nat (length n)))%nat with (length n) by lia.
    rewrite firstn_all, Nat.sub_diag. cbn. apply app_nil_r.
  - replace (Z.to_nat i - length n)%nat with (S (Z.to_nat i - length n - 1)) by lia. cbn [nth].
    destruct (ch_eq (nth (Z.to_nat i - length n - 1) tail "000"%char) ">") eqn:E.
    + exfalso. apply NT. unfold ch_eq in E. apply Ascii.eqb_eq in E. rewrite <- E. apply nth_In. lia.
    + cbn [negb]. destruct (sub_size (i - 1) ltac:(lia)) as [_ ->]. apply IH; lia.
Qed.
Lemma msvc_ok sig name : c_literal sig -> msvc_signature name sig -> name <> [] -> exists v, type_name_msvc sig = Ok v /\ valid v /\ content v = name.
Proof.
  intros [N L] (head & tail & E & F & T) NE. unfold type_name_msvc. destruct (C60_from_c_string sig [] N L) as (v & -> & V & C). cbn [bind].
  rewrite (find_mark v !"gul14::type_name<" head (name ++ ">"%char :: tail) V) by (try assumption; try (rewrite C; exact E); reflexivity). cbn [bind].
  assert (B : 0 <= zlen head + 17 < 2 ^ 63).
  { rewrite E in L. unfold zlen in *. rewrite !app_length in L. change (length !"gul14::type_name<") with 17%nat in L. lia. }
  destruct (sub_size (zlen head + 18) ltac:(rewrite E in L; unfold zlen in *; rewrite !app_length in L; change (length !"gul14::type_name<") with 17%nat in L; cbn [length] in L; lia)) as [_ ->].
  replace (zlen head + 18 - 1) with (zlen head + 17) by lia.
  destruct (sub_size _ B) as [B1 B2]. destruct (sv_remove_prefix_ok v _ V B1) as [V1 C1].
  set (v1 := sv_remove_prefix v (w64 (zlen head + 17))) in *.
  assert (C2 : content v1 = name ++ ">"%char :: tail).
  { rewrite C1, B2, C, E. unfold zlen. replace (Z.to_nat (Z.of_nat (length head) + 17)) with (length (head ++ !"gul14::type_name<")) by (rewrite app_length; change (length !"gul14::type_name<") with 17%nat; lia).
    rewrite app_assoc, skipn_app, skipn_all, Nat.sub_diag. reflexivity. }
  pose proof (zlen_content v1 V1) as ZC. pose proof V1 as (_ & VL & _). rewrite C2 in ZC. unfold zlen in ZC. rewrite app_length in ZC. cbn [length] in ZC.
  unfold sv_size. destruct (sub_size (v_len v1 - 1) ltac:(lia)) as [_ ->].
  apply (last_gt_ok v1 name tail V1 C2 NE T); lia.
Qed.
