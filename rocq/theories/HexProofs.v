(** Proofs about hexdump. *)
From Coq Require Import ArithRing.
From Verif Require Import Base StrSpec StrModel StrProofs2 HexModel HexSpec.
Open Scope outcome_scope.
Open Scope Z_scope.

(** Fixed-width hexadecimal. *)
Fixpoint hexn (n : nat) (v : Z) : str :=
  match n with
  | O => []
  | S n' => hexn n' (v / 16) ++ [digit (v mod 16)]
  end.

Lemma digit_hex d : 0 <= d < 16 -> digit d = hex_digit d.
Proof.
  intros H.
  assert (E : forallb (fun d => Ascii.eqb (digit d) (hex_digit d)) (map Z.of_nat (seq 0 16)) = true)
    by (vm_compute; reflexivity).
  rewrite forallb_forall in E. apply Ascii.eqb_eq, E. apply in_map_iff.
  exists (Z.to_nat d). split; [lia|]. apply in_seq. lia.
Qed.

Lemma hexn_length n v : length (hexn n v) = n.
Proof. revert v. induction n; intros v; simpl; [reflexivity|]. rewrite app_length, IHn. simpl. lia. Qed.

Lemma hexn_denotes n v : 0 <= v < 16 ^ Z.of_nat n -> denotes_hex (hexn n v) v.
Proof.
  revert v. induction n as [|n IH]; intros v H.
  - simpl in *. replace v with 0 by lia. constructor.
  - cbn [hexn]. rewrite (Z.div_mod v 16) at 3 by lia. constructor.
    + apply IH. rewrite Nat2Z.inj_succ, Z.pow_succ_r in H by lia.
      split; [apply Z.div_pos; lia|]. apply Z.div_lt_upper_bound; lia.
    + pose proof (Z.mod_pos_bound v 16). rewrite digit_hex by lia. apply hex_digit_value. lia.
Qed.

Lemma hexn_digits n v c : In c (hexn n v) -> lowercase_hex_digit c.
Proof.
  revert v. induction n as [|n IH]; intros v; simpl; [tauto|]. intros H.
  apply in_app_or in H as [H|[<-|[]]]; [eauto|].
  pose proof (Z.mod_pos_bound v 16). rewrite digit_hex by lia. apply hex_digit_lowercase. lia.
Qed.

Lemma hexn_field n v : 0 <= v < 16 ^ Z.of_nat n -> hex_field n v (hexn n v).
Proof.
  intros H. split; [apply hexn_length|]. split; [now apply hexn_denotes|]. apply hexn_digits.
Qed.

Lemma hexn_zero n : hexn n 0 = List.repeat "0"%char n.
Proof.
  induction n as [|n IH]; [reflexivity|]. cbn [hexn]. change (0 / 16) with 0. rewrite IH.
  change [digit (0 mod 16)] with (List.repeat "0"%char 1). rewrite <- repeat_app.
  now rewrite Nat.add_1_r.
Qed.

(** Zero-padded variable-width output is fixed-width output. *)
Lemma digits_hexn n f v : 0 <= v < 16 ^ Z.of_nat n -> (0 < n)%nat ->
  v < 16 ^ Z.of_nat f -> (0 < f)%nat ->
  (length (digits 16 f v) <= n)%nat /\
  List.repeat "0"%char (n - length (digits 16 f v)) ++ digits 16 f v = hexn n v.
Proof.
  revert n v. induction f as [|f IH]; intros n v Hv Hn Hf Hf0; [lia|].
  destruct n as [|n]; [lia|]. cbn [digits hexn].
  rewrite Nat2Z.inj_succ, Z.pow_succ_r in Hv, Hf by lia.
  assert (Hd : 0 <= v / 16) by (apply Z.div_pos; lia).
  destruct (Z.eqb_spec (v / 16) 0) as [E|E].
  - rewrite E, hexn_zero. cbn [app length]. split; [lia|].
    replace (S n - 1)%nat with n by lia. reflexivity.
  - assert (n <> 0)%nat.
    { intros ->. simpl in Hv. apply E. apply Z.div_small. lia. }
    assert (f <> 0)%nat.
    { intros ->. simpl in Hf. apply E. apply Z.div_small. lia. }
    destruct (IH n (v / 16)) as (L & R); try lia.
    + split; [lia|]. apply Z.div_lt_upper_bound; lia.
    + apply Z.div_lt_upper_bound; lia.
    + rewrite app_length. cbn [length]. split; [lia|].
      rewrite <- R, app_assoc. f_equal. f_equal. f_equal. lia.
Qed.

Lemma log2_fuel v : 0 <= v -> v < 16 ^ Z.of_nat (S (Z.to_nat (Z.log2 v))).
Proof.
  intros H. destruct (Z.eq_dec v 0) as [->|N]; [reflexivity|].
  pose proof (Z.log2_spec v). pose proof (Z.log2_nonneg v).
  replace (Z.of_nat (S (Z.to_nat (Z.log2 v)))) with (Z.succ (Z.log2 v)) by lia.
  apply Z.lt_le_trans with (2 ^ Z.succ (Z.log2 v)); [lia|].
  apply Z.pow_le_mono_l. lia.
Qed.

(** A stream in the state hexdump_stream keeps it in. *)
Definition st (t : str) : ostr := OS t true "0" 0.

Lemma put_st s t : put s (st t) = st (t ++ s).
Proof. reflexivity. Qed.

Lemma put_int_st n v t : 0 <= v < 16 ^ Z.of_nat n -> (0 < n)%nat ->
  put_int v (set_width n (st t)) = st (t ++ hexn n v).
Proof.
  intros Hv Hn. unfold put_int, put, set_width, st. cbn [text hex fill width].
  destruct (digits_hexn n (S (Z.to_nat (Z.log2 v))) v Hv Hn) as (_ & E).
  - apply log2_fuel. lia.
  - lia.
  - now rewrite E.
Qed.

(** Pure description of the lines. *)
Definition cell (w : nat) (v : Z) : str := hexn (2 * w) (v mod 2 ^ (8 * Z.of_nat w)) ++ [" "%char].
Definition cells (w : nat) (l : list Z) : str := flat_map (cell w) l.
Definition txt (v : Z) : ascii := printed (v mod 256).
Definition blank (n : nat) : str := List.repeat " "%char n.
Definition lead (prompt : str) (k : nat) : str :=
  match k with O => prompt | _ => blank (length prompt) end.
Definition line (w : nat) (prompt : str) (k : nat) (c : list Z) : str :=
  lead prompt k ++ hexn 6 (16 * Z.of_nat k) ++ !": " ++ cells w c ++
  (if Nat.eqb w 1 then blank (3 * (16 - length c)) ++ [" "%char] ++ map txt c else []) ++ [chr 10].

Lemma pow_16 w : 2 ^ (8 * Z.of_nat w) = 16 ^ Z.of_nat (2 * w).
Proof.
  change 16 with (2 ^ 4). rewrite <- Z.pow_mul_r by lia. f_equal. lia.
Qed.

Lemma dump_cells_some w j it t : (0 < w)%nat ->
  dump_cells w j it (st t) =
  if Nat.eqb w 1
  then (st (t ++ cells w (firstn j it) ++ blank (3 * (j - length it))), skipn j it)
  else (st (t ++ cells w (firstn j it)), skipn j it).
Proof.
  intros Hw. revert it t. induction j as [|j IH]; intros it t; cbn [dump_cells].
  - simpl. rewrite !app_nil_r. now destruct (Nat.eqb w 1).
  - destruct it as [|v it].
    + assert (Eb : Nat.eqb (2 * w) 2 = Nat.eqb w 1).
      { destruct (Nat.eqb_spec (2 * w) 2), (Nat.eqb_spec w 1); try reflexivity; lia. }
      rewrite Eb. destruct (Nat.eqb_spec w 1) as [->|N]; cbn [negb].
      * rewrite put_st, IH. change (Nat.eqb 1 1) with true. cbn [firstn skipn length cells flat_map].
        rewrite firstn_nil, skipn_nil. cbn [cells flat_map app].
        rewrite <- app_assoc. unfold blank. rewrite <- repeat_app. do 3 f_equal.
        f_equal. lia.
      * now rewrite firstn_nil, skipn_nil, app_nil_r.
    + rewrite put_int_st.
      * rewrite put_st, IH. cbn [firstn skipn length cells flat_map]. fold (cells w (firstn j it)).
        unfold cell. destruct (Nat.eqb w 1); rewrite <- !app_assoc; reflexivity.
      * rewrite <- pow_16. apply Z.mod_pos_bound. apply Z.pow_pos_nonneg; lia.
      * lia.
Qed.

Lemma txt_char v : chr (if isprint (v mod 256) then v mod 256 else 46) = txt v.
Proof. unfold txt, printed, isprint. destruct ((32 <=? v mod 256) && (v mod 256 <=? 126))%bool; reflexivity. Qed.

Lemma dump_text_some j l t : dump_text j l (st t) = st (t ++ map txt (firstn j l)).
Proof.
  revert l t. induction j as [|j IH]; intros l t; cbn [dump_text firstn map].
  - now rewrite app_nil_r.
  - destruct l as [|v l]; cbn [map]; [now rewrite app_nil_r|].
    rewrite put_st, IH, txt_char, <- app_assoc. reflexivity.
Qed.

Lemma dump_line_some w prompt k it t : (0 < w)%nat -> (k < 1000)%nat ->
  dump_line w prompt (16 * Z.of_nat k) it (st t) =
  (st (t ++ line w prompt k (firstn 16 it)), skipn 16 it).
Proof.
  intros Hw Hk. unfold dump_line.
  assert (El : (if 16 * Z.of_nat k =? 0 then prompt else List.repeat " "%char (length prompt)) = lead prompt k).
  { unfold lead. destruct k; [reflexivity|]. destruct (Z.eqb_spec (16 * Z.of_nat (S k)) 0); [lia|reflexivity]. }
  assert (Hr : 0 <= 16 * Z.of_nat k < 16 ^ Z.of_nat 6)
    by (change (16 ^ Z.of_nat 6) with 16777216; lia).
  rewrite El, put_st, (put_int_st 6 _ _ Hr), put_st, dump_cells_some by lia.
  assert (Eb : Nat.eqb (2 * w) 2 = Nat.eqb w 1).
  { destruct (Nat.eqb_spec (2 * w) 2), (Nat.eqb_spec w 1); try reflexivity; lia. }
  rewrite Eb. unfold line. destruct (Nat.eqb w 1).
  - rewrite put_st, dump_text_some, put_st. f_equal. f_equal.
    rewrite <- !app_assoc. do 5 f_equal.
    replace (16 - length (firstn 16 it))%nat with (16 - length it)%nat by (rewrite firstn_length; lia). reflexivity.
  - rewrite put_st. f_equal. f_equal. rewrite <- !app_assoc. reflexivity.
Qed.

(** All lines from line [k], at most [n]. *)
Fixpoint lines (w : nat) (prompt : str) (n k : nat) (it : list Z) : list str :=
  match n with
  | O => []
  | S n' =>
      match it, k with
      | [], S _ => []
      | _, _ => line w prompt k (firstn 16 it) :: lines w prompt n' (S k) (skipn 16 it)
      end
  end.

Lemma dump_loop_some w prompt n : forall k it t, (0 < w)%nat -> (k + n = 1000)%nat ->
  dump_loop w prompt n (16 * Z.of_nat k) it (st t) =
  Ok (st (t ++ concat (lines w prompt n k it)), skipn (16 * n) it).
Proof.
  induction n as [|n IH]; intros k it t Hw Hk.
  - cbn [dump_loop lines concat]. replace k with 1000%nat by lia.
    change (16 * Z.of_nat 1000 <? maxelem) with false.
    change (16 * Z.of_nat 1000 =? 0) with false. rewrite andb_false_r. cbn [orb].
    rewrite app_nil_r. reflexivity.
  - cbn [dump_loop].
    assert (Em : (16 * Z.of_nat k <? maxelem) = true) by (apply Z.ltb_lt; unfold maxelem; lia).
    rewrite Em, andb_true_r.
    destruct it as [|v it]; [destruct k as [|k]|].
    + cbn [negb orb]. change (16 * Z.of_nat 0) with (16 * Z.of_nat 0).
      destruct (Z.eqb_spec (16 * Z.of_nat 0) 0); [|lia]. rewrite dump_line_some by lia.
      replace (16 * Z.of_nat 0 + 16) with (16 * Z.of_nat 1) by lia. rewrite IH by lia.
      cbn [lines concat]. rewrite !skipn_nil, <- app_assoc. reflexivity.
    + cbn [negb orb]. destruct (Z.eqb_spec (16 * Z.of_nat (S k)) 0); [lia|].
      cbn [lines concat]. rewrite app_nil_r, skipn_nil. reflexivity.
    + cbn [negb orb]. rewrite dump_line_some by lia.
      replace (16 * Z.of_nat k + 16) with (16 * Z.of_nat (S k)) by lia. rewrite IH by lia.
      cbn [lines]. f_equal. f_equal.
      * cbn [concat]. now rewrite <- app_assoc.
      * replace (16 * S n)%nat with (16 + 16 * n)%nat by lia.
        generalize (16 * n)%nat (v :: it). intros b l. clear. generalize 16%nat. intros a.
        revert l. induction a as [|a IH]; intros l; [reflexivity|].
        destruct l; [now rewrite !skipn_nil|]. apply IH.
Qed.

Definition trailer (prompt : str) (data : list Z) : str :=
  if (16 * 1000 <? length data)%nat then blank (length prompt) ++ !"[output truncated...]" ++ [chr 10] else [].

Lemma hexdump_stream_some o w data prompt : (0 < w)%nat -> width o = 0%nat ->
  hexdump_stream o w data prompt =
  Ok (st (text o ++ concat (lines w prompt 1000 0 data) ++ trailer prompt data)).
Proof.
  intros Hw Ho. unfold hexdump_stream.
  replace (set_fill "0" (set_hex o)) with (st (text o)).
  2:{ destruct o as [t h f wd]. simpl in *. now subst. }
  change 0 with (16 * Z.of_nat 0). rewrite dump_loop_some by lia. cbn [bind].
  assert (L : length (skipn (16 * 1000) data) = (length data - 16 * 1000)%nat).
  { rewrite skipn_length. reflexivity. }
  unfold trailer. destruct (skipn (16 * 1000) data) as [|a r]; cbn [length] in L.
  - destruct (Nat.ltb_spec (16 * 1000) (length data)); [lia|]. now rewrite app_nil_r.
  - destruct (Nat.ltb_spec (16 * 1000) (length data)); [|lia]. rewrite !put_st.
    rewrite <- !app_assoc. reflexivity.
Qed.

Lemma hexdump_some w data prompt : (0 < w)%nat ->
  hexdump w data prompt = Ok (concat (lines w prompt 1000 0 data) ++ trailer prompt data).
Proof. intros Hw. unfold hexdump. rewrite hexdump_stream_some by auto. reflexivity. Qed.

(** Lengths. *)
Lemma cells_length w l : length (cells w l) = (length l * (2 * w + 1))%nat.
Proof.
  induction l as [|v l IH]; cbn [cells flat_map length]; [reflexivity|].
  fold (cells w l). rewrite app_length, IH. unfold cell. rewrite app_length, hexn_length.
  cbn [length]. lia.
Qed.

Lemma lead_length prompt k : length (lead prompt k) = length prompt.
Proof. destruct k; cbn [lead]; [reflexivity|]. apply repeat_length. Qed.

Lemma line_length w prompt k c : (0 < w)%nat -> (length c <= 16)%nat ->
  length (line w prompt k c) =
  (length prompt + 9 + (if Nat.eqb w 1 then 49 + length c else length c * (2 * w + 1)))%nat.
Proof.
  intros Hw Hc. unfold line. rewrite !app_length, lead_length, hexn_length, cells_length.
  destruct (Nat.eqb_spec w 1) as [->|N]; rewrite ?app_length, ?map_length; unfold blank;
    rewrite ?repeat_length; cbn [length lit list_ascii_of_string]; lia.
Qed.

Lemma skipn_plus {A} (a b : nat) (l : list A) : skipn b (skipn a l) = skipn (a + b) l.
Proof.
  revert l. induction a as [|a IH]; intros l; [reflexivity|].
  destruct l; [now rewrite !skipn_nil|]. apply IH.
Qed.

(** Number of lines. *)
Definition groups (n : nat) (it : list Z) : nat := Nat.min n ((length it + 15) / 16).

Lemma groups_succ n it : it <> [] -> groups (S n) it = S (groups n (skipn 16 it)).
Proof.
  intros H. unfold groups. rewrite skipn_length. rewrite Nat.succ_min_distr. f_equal.
  destruct it as [|a it]; [congruence|]. cbn [length] in *.
  destruct (Nat.le_gt_cases (S (length it)) 16) as [L|L].
  - replace (S (length it) - 16)%nat with 0%nat by lia. change (0 + 15)%nat with 15%nat.
    change (15 / 16)%nat with 0%nat.
    assert (1 <= (S (length it) + 15) / 16 < 2)%nat.
    { split; [apply Nat.div_le_lower_bound; lia|apply Nat.div_lt_upper_bound; lia]. }
    lia.
  - replace (S (length it) + 15)%nat with ((S (length it) - 16 + 15) + 1 * 16)%nat by lia.
    rewrite Nat.div_add by lia. lia.
Qed.

Lemma lines_length_succ w prompt n : forall k it,
  length (lines w prompt n (S k) it) = groups n it.
Proof.
  induction n as [|n IH]; intros k it; [reflexivity|]. cbn [lines].
  destruct it as [|a it]; [unfold groups; simpl; lia|].
  rewrite groups_succ by congruence. cbn [length]. now rewrite IH.
Qed.

Lemma lines_length w prompt n it : (0 < n)%nat ->
  length (lines w prompt n 0 it) = Nat.max 1 (groups n it).
Proof.
  intros Hn. destruct n as [|n]; [lia|]. cbn [lines].
  destruct it as [|a it].
  - cbn [length]. rewrite lines_length_succ. unfold groups. simpl. lia.
  - rewrite groups_succ by congruence. cbn [length]. rewrite lines_length_succ. lia.
Qed.

Lemma line_count_groups data : line_count data = Nat.max 1 (groups 1000 data).
Proof.
  unfold line_count, groups, shown. f_equal.
  destruct (Nat.le_gt_cases (length data) (16 * 1000)) as [L|L].
  - rewrite Nat.min_l by lia. symmetry. apply Nat.min_r.
    apply Nat.lt_succ_r. apply Nat.div_lt_upper_bound; lia.
  - rewrite Nat.min_r by lia. rewrite Nat.min_l.
    + replace (16 * 1000 + 15)%nat with (15 + 1000 * 16)%nat by lia. rewrite Nat.div_add by lia.
      reflexivity.
    + apply Nat.div_le_lower_bound; lia.
Qed.

Lemma lines_nth_chunk w prompt n : forall k it j l,
  nth_error (lines w prompt n k it) j = Some l ->
  l = line w prompt (k + j) (firstn 16 (skipn (16 * j) it)) /\ (j < n)%nat /\
  (k + j = 0 \/ 16 * j < length it)%nat.
Proof.
  induction n as [|n IH]; intros k it j l H; [destruct j; discriminate|].
  cbn [lines] in H.
  assert (C : nth_error (line w prompt k (firstn 16 it) :: lines w prompt n (S k) (skipn 16 it)) j = Some l
              /\ (k = 0 \/ 0 < length it)%nat).
  { destruct it; [destruct k; [auto|destruct j; discriminate]|]. split; [exact H|right; simpl; lia]. }
  clear H. destruct C as (C & D). destruct j as [|j]; cbn [nth_error] in C.
  - injection C as <-. rewrite Nat.add_0_r. rewrite Nat.mul_0_r. split; [reflexivity|]. split; [lia|]. exact D.
  - apply IH in C as (-> & B & F). rewrite skipn_plus. rewrite skipn_length in F.
    replace (16 * S j)%nat with (16 + 16 * j)%nat by lia.
    replace (k + S j)%nat with (S k + j)%nat by lia. split; [reflexivity|]. split; lia.
Qed.

(** The lines before line j are complete. *)
Lemma concat_length_const {A} (L : list (list A)) W :
  (forall l, In l L -> length l = W) -> length (concat L) = (length L * W)%nat.
Proof.
  intros H. induction L as [|l L IH]; [reflexivity|]. cbn [concat length].
  rewrite app_length, IH by (intros; apply H; now right). rewrite (H l) by now left. lia.
Qed.

Lemma nth_lt {A} (l : list A) n : (n < length l)%nat -> exists x, nth_error l n = Some x.
Proof.
  intros H. destruct (nth_error l n) eqn:E; [eauto|]. apply nth_error_None in E. lia.
Qed.

Lemma locate w data prompt j : (0 < w)%nat -> (j < line_count data)%nat ->
  exists before after out,
    hexdump w data prompt = Ok out /\
    out = before ++ line w prompt j (firstn 16 (skipn (16 * j) data)) ++ after /\
    length before = (j * line_width (length prompt) w)%nat /\ (j < 1000)%nat /\
    (16 * j < length data \/ j = 0)%nat.
Proof.
  intros Hw Hj. rewrite line_count_groups in Hj.
  rewrite <- (lines_length w prompt 1000 data) in Hj by lia.
  remember (lines w prompt 1000 0 data) as L eqn:EL.
  destruct (nth_lt L j Hj) as (l & Hl).
  assert (Hn := Hl). apply nth_error_split in Hl as (L1 & L2 & E & LL).
  rewrite EL in Hn. apply lines_nth_chunk in Hn as (-> & Hb & Hd).
  exists (concat L1), (concat L2 ++ trailer prompt data), (concat L ++ trailer prompt data).
  split; [rewrite EL; now apply hexdump_some|].
  split; [rewrite E, concat_app; cbn [concat]; rewrite <- !app_assoc; reflexivity|].
  split; [|split; [exact Hb|lia]].
  rewrite (concat_length_const L1 (line_width (length prompt) w)); [now rewrite LL|].
  intros x Hx. apply In_nth_error in Hx as (i & Hi).
  assert (Li : (i < j)%nat) by (rewrite <- LL; apply nth_error_Some; congruence).
  assert (Hi' : nth_error L i = Some x).
  { rewrite E. rewrite nth_error_app1; [exact Hi|lia]. }
  rewrite EL in Hi'. apply lines_nth_chunk in Hi' as (-> & _ & _).
  rewrite line_length by (auto; rewrite firstn_length; lia).
  rewrite firstn_length, skipn_length. rewrite Nat.min_l by lia.
  unfold line_width, data_column. destruct (Nat.eqb_spec w 1); subst; lia.
Qed.

(** Reading a part of the output. *)
Lemma sub_app_l (s t : str) p n : (p + n <= length s)%nat -> sub p n (s ++ t) = sub p n s.
Proof.
  intros H. unfold sub. rewrite skipn_app. replace (p - length s)%nat with 0%nat by lia.
  cbn [skipn]. rewrite firstn_app. rewrite skipn_length.
  replace (n - (length s - p))%nat with 0%nat by lia. now rewrite app_nil_r.
Qed.
Lemma sub_app_r (s t : str) p n : sub (length s + p) n (s ++ t) = sub p n t.
Proof.
  unfold sub. rewrite skipn_app. rewrite skipn_all2 by lia.
  replace (length s + p - length s)%nat with p by lia. reflexivity.
Qed.
Lemma sub_exact (s t : str) : sub 0 (length s) (s ++ t) = s.
Proof. unfold sub. cbn [skipn]. rewrite firstn_app, Nat.sub_diag, firstn_all. now rewrite app_nil_r. Qed.

Lemma sub_mid (a s t : str) p n : length a = p -> length s = n -> sub p n (a ++ s ++ t) = s.
Proof.
  intros <- <-. rewrite <- (Nat.add_0_r (length a)). rewrite sub_app_r. apply sub_exact.
Qed.

Lemma cells_split w l k v : nth_error l k = Some v ->
  exists a b, cells w l = a ++ cell w v ++ b /\ length a = (k * (2 * w + 1))%nat.
Proof.
  intros H. apply nth_error_split in H as (l1 & l2 & -> & <-).
  exists (cells w l1), (cells w l2). split; [|apply cells_length].
  unfold cells. rewrite flat_map_app. reflexivity.
Qed.

Lemma hex_line_parts w data prompt j : (0 < w)%nat -> (j < line_count data)%nat ->
  exists out, hexdump w data prompt = Ok out /\
    let base := (j * line_width (length prompt) w)%nat in
    let p := length prompt in
    let c := firstn 16 (skipn (16 * j) data) in
    sub base p out = lead prompt j /\
    sub (base + p) 6 out = hexn 6 (16 * Z.of_nat j) /\
    sub (base + p + 6) 2 out = !": " /\
    (forall k v, nth_error c k = Some v ->
       sub (base + data_column p + k * (2 * w + 1)) (2 * w) out = hexn (2 * w) (v mod 2 ^ (8 * Z.of_nat w)) /\
       sub (base + data_column p + k * (2 * w + 1) + 2 * w) 1 out = [" "%char]) /\
    (w = 1%nat ->
       sub (base + data_column p + 3 * length c) (3 * (16 - length c) + 1) out
         = blank (3 * (16 - length c) + 1) /\
       sub (base + text_column p w) (length c) out = map txt c /\
       sub (base + text_column p w + length c) 1 out = [chr 10]).
Proof.
  intros Hw Hj. destruct (locate w data prompt j Hw Hj) as (B & F & out & E & Eo & LB & _ & _).
  exists out. split; [exact E|]. cbv zeta. rewrite <- LB.
  set (c := firstn 16 (skipn (16 * j) data)) in *.
  assert (Lc : (length c <= 16)%nat) by (unfold c; rewrite firstn_length; lia).
  unfold line in Eo. rewrite <- !app_assoc in Eo.
  pose proof (lead_length prompt j) as Ll. pose proof (hexn_length 6 (16 * Z.of_nat j)) as Lh.
  assert (L2 : length (!": ") = 2%nat) by reflexivity.
  assert (LC := cells_length w c).
  split; [|split; [|split; [|split]]].
  - rewrite Eo. rewrite <- (Nat.add_0_r (length B)). apply sub_mid; lia.
  - rewrite Eo. rewrite sub_app_r. apply sub_mid; lia.
  - rewrite Eo. rewrite <- Nat.add_assoc, sub_app_r. rewrite app_assoc. apply sub_mid; [rewrite app_length; lia|lia].
  - intros k v Hk. destruct (cells_split w c k v Hk) as (a & b & Ec & La).
    rewrite Ec in Eo. unfold cell in Eo. rewrite <- !app_assoc in Eo.
    pose proof (hexn_length (2 * w) (v mod 2 ^ (8 * Z.of_nat w))) as Lv.
    unfold data_column. rewrite Eo. split.
    + rewrite <- !Nat.add_assoc, sub_app_r. rewrite !(app_assoc _ _ (hexn (2 * w) _ ++ _)).
      apply sub_mid; [rewrite !app_length; lia|lia].
    + rewrite <- !Nat.add_assoc, sub_app_r. rewrite !(app_assoc _ _ ([" "%char] ++ _)).
      apply sub_mid; [rewrite !app_length; lia|reflexivity].
  - intros ->. change (Nat.eqb 1 1) with true in Eo. cbv iota in Eo. rewrite <- !app_assoc in Eo.
    unfold text_column, data_column. rewrite Eo.
    assert (Lb : length (blank (3 * (16 - length c))) = (3 * (16 - length c))%nat) by apply repeat_length.
    assert (Lt : length (map txt c) = length c) by apply map_length.
    split; [|split].
    + rewrite <- !Nat.add_assoc, sub_app_r.
      rewrite (app_assoc (blank _)). replace (blank (3 * (16 - length c)) ++ [" "%char]) with (blank (3 * (16 - length c) + 1)) by (unfold blank; now rewrite repeat_app).
      rewrite !(app_assoc _ _ (blank _ ++ _)).
      apply sub_mid; [rewrite !app_length; lia|apply repeat_length].
    + rewrite <- !Nat.add_assoc, sub_app_r. rewrite !(app_assoc _ _ (map txt c ++ _)).
      apply sub_mid; [rewrite !app_length; cbn [length]; lia|lia].
    + rewrite <- !Nat.add_assoc, sub_app_r. rewrite !(app_assoc _ _ ([chr 10] ++ _)).
      apply sub_mid; [rewrite !app_length; cbn [length]; lia|reflexivity].
Qed.

Lemma ok_inj {A} (a b : A) : Ok a = Ok b -> a = b.
Proof. intros H. now injection H. Qed.

(** Total length. *)
Definition per_elem (w : nat) : nat := if Nat.eqb w 1 then 1%nat else (2 * w + 1)%nat.
Definition per_line (p w : nat) : nat := (p + 9 + (if Nat.eqb w 1 then 49 else 0))%nat.

Lemma line_length' w prompt k c : (0 < w)%nat -> (length c <= 16)%nat ->
  length (line w prompt k c) = (per_line (length prompt) w + length c * per_elem w)%nat.
Proof.
  intros Hw Hc. rewrite line_length by auto. unfold per_line, per_elem.
  destruct (Nat.eqb w 1); lia.
Qed.

Lemma lines_total w prompt n : (0 < w)%nat -> forall k it,
  length (concat (lines w prompt n k it)) =
  (length (lines w prompt n k it) * per_line (length prompt) w + Nat.min (length it) (16 * n) * per_elem w)%nat.
Proof.
  intros Hw. induction n as [|n IH]; intros k it.
  - cbn [lines concat length]. rewrite Nat.mul_0_r, Nat.min_0_r. reflexivity.
  - cbn [lines]. destruct it as [|a it]; [destruct k|]; cbn [concat length].
    + rewrite app_length, IH, line_length' by (auto; cbn; lia). cbn [firstn skipn length]. lia.
    + reflexivity.
    + rewrite app_length, IH, line_length' by (auto; rewrite firstn_length; lia).
      rewrite firstn_length, skipn_length. cbn [length].
      replace (Nat.min (S (length it)) (16 * S n)) with
        (Nat.min 16 (S (length it)) + Nat.min (S (length it) - 16) (16 * n))%nat by lia.
      ring.
Qed.

Lemma hexdump_length w data prompt out : (0 < w)%nat -> hexdump w data prompt = Ok out ->
  length out = (line_count data * per_line (length prompt) w + shown data * per_elem w
                + (if 16 * 1000 <? length data then length prompt + 22 else 0))%nat.
Proof.
  intros Hw H. rewrite hexdump_some in H by auto. apply ok_inj in H. subst out.
  rewrite app_length, lines_total, lines_length, line_count_groups by (auto; lia).
  unfold shown, trailer. destruct (16 * 1000 <? length data)%nat; [|reflexivity].
  unfold blank. rewrite !app_length, repeat_length. reflexivity.
Qed.

(** Newlines. *)
Lemma newlines_app s t : newlines (s ++ t) = (newlines s + newlines t)%nat.
Proof. apply count_occ_app. Qed.

Lemma newlines_none s : (forall c, In c s -> c <> chr 10) -> newlines s = 0%nat.
Proof. intros H. apply count_occ_not_In. intros F. now apply (H _ F). Qed.

Lemma newlines_blank n : newlines (blank n) = 0%nat.
Proof.
  apply newlines_none. intros c H. apply List.repeat_spec in H as ->. discriminate.
Qed.

Lemma uc_10 : uc (chr 10) = 10.
Proof. reflexivity. Qed.

Lemma newlines_hexn n v : newlines (hexn n v) = 0%nat.
Proof.
  apply newlines_none. intros c H -> . apply hexn_digits in H. unfold lowercase_hex_digit in H.
  rewrite uc_10 in H. lia.
Qed.

Lemma newlines_cells w l : newlines (cells w l) = 0%nat.
Proof.
  induction l as [|v l IH]; [reflexivity|]. cbn [cells flat_map]. fold (cells w l).
  rewrite newlines_app, IH. unfold cell. rewrite newlines_app, newlines_hexn. reflexivity.
Qed.

Lemma uc_chr v : uc (chr v) = v mod 256.
Proof.
  unfold uc, chr. pose proof (Z.mod_pos_bound v 256). rewrite N_ascii_embedding; [lia|].
  change 256%N with (Z.to_N 256). lia.
Qed.

Lemma newlines_txt l : newlines (map txt l) = 0%nat.
Proof.
  apply newlines_none. intros c H. apply in_map_iff in H as (v & <- & _).
  unfold txt, printed.
  destruct (Z.leb_spec 32 (v mod 256)), (Z.leb_spec (v mod 256) 126); cbn [andb]; try discriminate.
  intros F. apply (f_equal uc) in F. rewrite uc_10, uc_chr, Z.mod_mod in F by lia. lia.
Qed.

Lemma newlines_line w prompt k c : newlines prompt = 0%nat -> newlines (line w prompt k c) = 1%nat.
Proof.
  intros Hp. unfold line. rewrite !newlines_app, newlines_hexn, newlines_cells.
  assert (newlines (lead prompt k) = 0%nat) as ->.
  { destruct k; cbn [lead]; [exact Hp|apply newlines_blank]. }
  assert (newlines (if Nat.eqb w 1 then blank (3 * (16 - length c)) ++ [" "%char] ++ map txt c else []) = 0%nat) as ->.
  { destruct (Nat.eqb w 1); [|reflexivity]. rewrite !newlines_app, newlines_blank, newlines_txt. reflexivity. }
  reflexivity.
Qed.

Lemma newlines_lines w prompt n : newlines prompt = 0%nat -> forall k it,
  newlines (concat (lines w prompt n k it)) = length (lines w prompt n k it).
Proof.
  intros Hp. induction n as [|n IH]; intros k it; [reflexivity|]. cbn [lines].
  destruct it as [|a it]; [destruct k|]; cbn [concat length]; try reflexivity;
    now rewrite newlines_app, IH, newlines_line.
Qed.

Lemma hexdump_newlines w data prompt out : (0 < w)%nat -> newlines prompt = 0%nat ->
  hexdump w data prompt = Ok out ->
  newlines out = (line_count data + (if 16 * 1000 <? length data then 1 else 0))%nat.
Proof.
  intros Hw Hp H. rewrite hexdump_some in H by auto. apply ok_inj in H. subst out.
  rewrite newlines_app, newlines_lines, lines_length, line_count_groups by (auto; lia). f_equal.
  unfold trailer. destruct (16 * 1000 <? length data)%nat; [|reflexivity].
  rewrite newlines_app, newlines_blank. reflexivity.
Qed.

(** Reconstruction. *)
Lemma nth_firstn {A} (l : list A) n i : (i < n)%nat -> nth_error (firstn n l) i = nth_error l i.
Proof.
  revert l i. induction n as [|n IH]; intros l i H; [lia|].
  destruct l; [now destruct i|]. destruct i; [reflexivity|]. apply (IH l i). lia.
Qed.
Lemma nth_skipn {A} (l : list A) n i : nth_error (skipn n l) i = nth_error l (n + i).
Proof. revert l. induction n as [|n IH]; intros l; [reflexivity|]. destruct l; [now destruct i|]. apply IH. Qed.

Lemma elem_line data i : (i < shown data)%nat -> (i / 16 < line_count data)%nat.
Proof.
  intros H. unfold line_count.
  assert (i / 16 < (shown data + 15) / 16)%nat; [|lia].
  apply Nat.lt_le_trans with ((i + 16) / 16)%nat.
  - replace (i + 16)%nat with (i + 1 * 16)%nat by lia. rewrite Nat.div_add by lia. lia.
  - apply Nat.div_le_mono; lia.
Qed.

Lemma hexdump_elem w data prompt i v : (0 < w)%nat -> (i < shown data)%nat ->
  nth_error data i = Some v ->
  exists out, hexdump w data prompt = Ok out /\
    sub (i / 16 * line_width (length prompt) w + data_column (length prompt) + i mod 16 * (2 * w + 1))
      (2 * w) out = hexn (2 * w) (v mod 2 ^ (8 * Z.of_nat w)).
Proof.
  intros Hw Hi Hv. pose proof (elem_line data i Hi) as Hl.
  destruct (hex_line_parts w data prompt (i / 16) Hw Hl) as (out & E & _ & _ & _ & P & _).
  exists out. split; [exact E|]. apply (P (i mod 16)%nat v).
  pose proof (Nat.mod_upper_bound i 16). rewrite nth_firstn by lia. rewrite nth_skipn.
  rewrite <- Nat.div_mod by lia. exact Hv.
Qed.

Lemma hexn_inj n a b : 0 <= a < 16 ^ Z.of_nat n -> 0 <= b < 16 ^ Z.of_nat n -> hexn n a = hexn n b -> a = b.
Proof.
  intros Ha Hb E. apply (denotes_hex_fun (hexn n a)); [now apply hexn_denotes|].
  rewrite E. now apply hexn_denotes.
Qed.

Lemma line_count_mono d1 d2 : (shown d1 <= shown d2)%nat -> (line_count d1 <= line_count d2)%nat.
Proof.
  intros H. unfold line_count. apply Nat.max_le_compat_l. apply Nat.div_le_mono; lia.
Qed.

Lemma reconstruct_size w d1 d2 prompt : (0 < w)%nat ->
  hexdump w d1 prompt = hexdump w d2 prompt ->
  shown d1 = shown d2 /\ ((16 * 1000 <? length d1) = (16 * 1000 <? length d2))%nat.
Proof.
  intros Hw H.
  assert (X : exists out, hexdump w d1 prompt = Ok out /\ hexdump w d2 prompt = Ok out).
  { eexists. split; [now apply hexdump_some|]. rewrite <- H. now apply hexdump_some. }
  destruct X as (out & E1 & E2).
  pose proof (hexdump_length w d1 prompt out Hw E1) as L1.
  pose proof (hexdump_length w d2 prompt out Hw E2) as L2.
  assert (He : (0 < per_elem w)%nat) by (unfold per_elem; destruct (Nat.eqb w 1); lia).
  assert (M1 := line_count_mono d1 d2). assert (M2 := line_count_mono d2 d1).
  assert (B : forall d, (16 * 1000 < length d -> shown d = 16 * 1000)%nat) by (unfold shown; lia).
  assert (B' : forall d, (shown d <= 16 * 1000)%nat) by (unfold shown; lia).
  pose proof (B d1). pose proof (B d2). pose proof (B' d1). pose proof (B' d2). clear B B'.
  set (q := per_line (length prompt) w) in *. set (e := per_elem w) in *.
  destruct (Nat.ltb_spec (16 * 1000) (length d1)), (Nat.ltb_spec (16 * 1000) (length d2)).
  - split; [lia|reflexivity].
  - exfalso. assert (shown d2 <= shown d1)%nat by lia. specialize (M2 H6).
    assert (line_count d2 * q <= line_count d1 * q)%nat by (apply Nat.mul_le_mono_r; auto).
    assert (shown d2 * e <= shown d1 * e)%nat by (apply Nat.mul_le_mono_r; auto). lia.
  - exfalso. assert (shown d1 <= shown d2)%nat by lia. specialize (M1 H6).
    assert (line_count d1 * q <= line_count d2 * q)%nat by (apply Nat.mul_le_mono_r; auto).
    assert (shown d1 * e <= shown d2 * e)%nat by (apply Nat.mul_le_mono_r; auto). lia.
  - split; [|reflexivity]. destruct (Nat.lt_trichotomy (shown d1) (shown d2)) as [C|[C|C]]; [|exact C|].
    + exfalso. assert (line_count d1 * q <= line_count d2 * q)%nat by (apply Nat.mul_le_mono_r; apply M1; lia).
      assert (shown d1 * e < shown d2 * e)%nat by (apply Nat.mul_lt_mono_pos_r; auto). lia.
    + exfalso. assert (line_count d2 * q <= line_count d1 * q)%nat by (apply Nat.mul_le_mono_r; apply M2; lia).
      assert (shown d2 * e < shown d1 * e)%nat by (apply Nat.mul_lt_mono_pos_r; auto). lia.
Qed.

Lemma firstn_ext {A} (n : nat) (l l' : list A) :
  Nat.min (length l) n = Nat.min (length l') n ->
  (forall i, (i < n)%nat -> (i < length l)%nat -> nth_error l i = nth_error l' i) ->
  firstn n l = firstn n l'.
Proof.
  revert l l'. induction n as [|n IH]; intros l l' Hl H; [reflexivity|].
  destruct l as [|a l], l' as [|b l']; cbn [length] in Hl; try lia; [reflexivity|].
  cbn [firstn]. pose proof (H 0%nat) as H0. cbn [nth_error length] in H0.
  injection H0 as ->; [|lia|lia]. f_equal. apply IH; [lia|].
  intros i Hi Hi'. apply (H (S i)); cbn [length]; lia.
Qed.

Lemma reconstruct w d1 d2 prompt : (0 < w)%nat ->
  Forall (fits w) d1 -> Forall (fits w) d2 ->
  hexdump w d1 prompt = hexdump w d2 prompt ->
  firstn (16 * 1000) d1 = firstn (16 * 1000) d2 /\
  ((length d1 <= 16 * 1000)%nat <-> (length d2 <= 16 * 1000)%nat).
Proof.
  intros Hw F1 F2 H. destruct (reconstruct_size w d1 d2 prompt Hw H) as (S & T).
  split.
  2:{ destruct (Nat.ltb_spec (16 * 1000) (length d1)), (Nat.ltb_spec (16 * 1000) (length d2));
      try discriminate; lia. }
  apply firstn_ext; [exact S|]. intros i Hi Hl.
  assert (Hs : (i < shown d1)%nat) by (unfold shown; lia).
  destruct (nth_lt d1 i Hl) as (a & Ha).
  destruct (nth_lt d2 i) as (b & Hb); [unfold shown in *; lia|].
  destruct (hexdump_elem w d1 prompt i a Hw Hs Ha) as (o1 & E1 & P1).
  destruct (hexdump_elem w d2 prompt i b Hw) as (o2 & E2 & P2); [lia|exact Hb|].
  assert (o1 = o2) by congruence. subst o2. rewrite P1 in P2. rewrite Ha, Hb. f_equal.
  rewrite Forall_forall in F1, F2.
  pose proof (F1 a (nth_error_In _ _ Ha)) as Fa. pose proof (F2 b (nth_error_In _ _ Hb)) as Fb.
  unfold fits in Fa, Fb. rewrite !Z.mod_small in P2 by lia.
  apply hexn_inj in P2; [exact P2| |]; rewrite <- pow_16; auto.
Qed.
