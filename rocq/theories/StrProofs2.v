(** Proofs about escape/unescape, hex_string, case conversion, repeat, cat, safe_string and
    the substring predicates. *)
From Verif Require Import Base StrSearch StrSpec StrModel StrProofs1.

(** Finite case analysis over the 256 bytes. *)
Ltac all_bytes c := destruct c as [[] [] [] [] [] [] [] []]; vm_compute.

Definition all_ascii : list ascii := map ascii_of_nat (seq 0 256).
Lemma all_ascii_complete c : In c all_ascii.
Proof.
  unfold all_ascii. apply in_map_iff. exists (nat_of_ascii c). split.
  - apply ascii_nat_embedding.
  - apply in_seq. split; [lia|]. simpl. apply nat_ascii_bounded.
Qed.
Lemma forall_bytes (P : ascii -> bool) : forallb P all_ascii = true -> forall c, P c = true.
Proof. intros H c. rewrite forallb_forall in H. apply H, all_ascii_complete. Qed.

Lemma uc_range c : (0 <= uc c < 256)%Z.
Proof.
  unfold uc. pose proof (N_ascii_bounded c). lia.
Qed.
Lemma uc_inj a b : uc a = uc b -> a = b.
Proof.
  unfold uc. intros H. apply N2Z.inj in H.
  rewrite <- (ascii_N_embedding a), <- (ascii_N_embedding b). now rewrite H.
Qed.
Lemma uc_chr z : uc (chr z) = (z mod 256)%Z.
Proof.
  unfold uc, chr. pose proof (Z.mod_pos_bound z 256).
  rewrite N_ascii_embedding; lia.
Qed.
Lemma chr_uc c : chr (uc c) = c.
Proof. apply uc_inj. rewrite uc_chr. apply Z.mod_small, uc_range. Qed.

(** * fold_left append = flat_map *)

Lemma fold_app_flat_map {A} (f : A -> str) l acc :
  fold_left (fun r x => r ++ f x) l acc = acc ++ flat_map f l.
Proof.
  revert acc; induction l as [|x l IH]; intros acc; simpl; [now rewrite app_nil_r|].
  rewrite IH. now rewrite app_assoc.
Qed.

(** * Case conversion *)

Lemma lowercase_char_spec c : lowercase_ascii_char c = lower_char c.
Proof. apply Ascii.eqb_eq. revert c. apply forall_bytes. vm_compute. reflexivity. Qed.
Lemma uppercase_char_spec c : uppercase_ascii_char c = upper_char c.
Proof. apply Ascii.eqb_eq. revert c. apply forall_bytes. vm_compute. reflexivity. Qed.

Lemma flat_map_singleton {A B} (f : A -> B) l : flat_map (fun x => [f x]) l = map f l.
Proof. induction l; simpl; congruence. Qed.

Lemma lowercase_spec s : lowercase_ascii s = lower s.
Proof.
  unfold lowercase_ascii. rewrite (fold_app_flat_map (fun c => [lowercase_ascii_char c])).
  rewrite flat_map_singleton. simpl. apply map_ext, lowercase_char_spec.
Qed.
Lemma uppercase_spec s : uppercase_ascii s = upper s.
Proof.
  unfold uppercase_ascii. rewrite (fold_app_flat_map (fun c => [uppercase_ascii_char c])).
  rewrite flat_map_singleton. simpl. apply map_ext, uppercase_char_spec.
Qed.

Lemma update_nth_app {A} (a b : list A) x y :
  update_nth (length a) x (a ++ y :: b) = a ++ x :: b.
Proof. induction a; simpl; congruence. Qed.

Lemma transform_inplace_aux f (done rest : str) :
  fold_left (fun t i => update_nth i (f (nth i t "000"%char)) t)
            (seq (length done) (length rest)) (done ++ rest)
  = done ++ map f rest.
Proof.
  revert done; induction rest as [|c rest IH]; intros done; [reflexivity|].
  cbn [length seq fold_left map].
  rewrite app_nth2, Nat.sub_diag by lia. cbn [nth]. rewrite update_nth_app.
  specialize (IH (done ++ [f c])). rewrite app_length in IH. simpl length in IH.
  replace (length done + 1) with (S (length done)) in IH by lia.
  rewrite <- !app_assoc in IH. simpl in IH. exact IH.
Qed.
Lemma transform_inplace_map f s : transform_inplace f s = map f s.
Proof. apply (transform_inplace_aux f [] s). Qed.

Lemma lower_char_idem c : lower_char (lower_char c) = lower_char c.
Proof. apply Ascii.eqb_eq. revert c. apply forall_bytes. vm_compute. reflexivity. Qed.
Lemma upper_char_idem c : upper_char (upper_char c) = upper_char c.
Proof. apply Ascii.eqb_eq. revert c. apply forall_bytes. vm_compute. reflexivity. Qed.
Lemma lower_upper_char c : lower_char (upper_char c) = lower_char c.
Proof. apply Ascii.eqb_eq. revert c. apply forall_bytes. vm_compute. reflexivity. Qed.
Lemma upper_lower_char c : upper_char (lower_char c) = upper_char c.
Proof. apply Ascii.eqb_eq. revert c. apply forall_bytes. vm_compute. reflexivity. Qed.

(** * hex *)

Lemma hex_value_fun c v w : hex_value c v -> hex_value c w -> v = w.
Proof. intros H1 H2; inversion H1; inversion H2; subst; lia. Qed.

Lemma denotes_hex_fun s v w : denotes_hex s v -> denotes_hex s w -> v = w.
Proof.
  intros H; revert w; induction H as [|s v c d Hs IH Hc]; intros w Hw.
  - inversion Hw; auto. destruct s; discriminate.
  - inversion Hw as [E|s' v' c' d' Hs' Hc' E].
    + destruct s; discriminate.
    + apply app_inj_tail in E as [-> ->].
      rewrite (hex_value_fun _ _ _ Hc Hc'), (IH _ Hs'). reflexivity.
Qed.

Lemma hex_digit_facts_bool i : (0 <= i < 16)%Z ->
  uc (hex_digit i) = (if i <? 10 then 48 + i else 87 + i)%Z.
Proof.
  intros H.
  assert (E : forallb (fun i => (uc (hex_digit i) =? (if i <? 10 then 48 + i else 87 + i)))%Z
                (map Z.of_nat (seq 0 16)) = true) by (vm_compute; reflexivity).
  rewrite forallb_forall in E. apply Z.eqb_eq, E. apply in_map_iff.
  exists (Z.to_nat i). split; [lia|]. apply in_seq. lia.
Qed.
Lemma hex_digit_value i : (0 <= i < 16)%Z -> hex_value (hex_digit i) i.
Proof.
  intros H. pose proof (hex_digit_facts_bool i H) as E.
  destruct (Z.ltb_spec i 10).
  - replace i with (uc (hex_digit i) - 48)%Z at 2 by lia. constructor. lia.
  - replace i with (uc (hex_digit i) - 87)%Z at 2 by lia. apply hv_lower. lia.
Qed.
Lemma hex_digit_lowercase i : (0 <= i < 16)%Z -> lowercase_hex_digit (hex_digit i).
Proof.
  intros H. pose proof (hex_digit_facts_bool i H) as E. unfold lowercase_hex_digit.
  destruct (Z.ltb_spec i 10); lia.
Qed.

Lemma land15 z : Z.land z 15 = (z mod 16)%Z.
Proof. change 15%Z with (Z.ones 4). now rewrite Z.land_ones. Qed.

Lemma hex_loop_snoc n u :
  hex_string_loop (S n) u
  = hex_string_loop n (u / 256)
    ++ [hex_digit ((u / 16) mod 16)%Z; hex_digit (u mod 16)%Z].
Proof.
  induction n as [|n IH].
  - cbn [hex_string_loop app]. simpl (8 * Z.of_nat 0)%Z. rewrite Z.shiftr_0_r, !land15.
    rewrite Z.shiftr_div_pow2 by lia. reflexivity.
  - remember (S n) as m. cbn [hex_string_loop]. rewrite IH. subst m.
    cbn [hex_string_loop app].
    assert (E : Z.shiftr u (8 * Z.of_nat (S n)) = Z.shiftr (u / 256) (8 * Z.of_nat n)).
    { change 256%Z with (2 ^ 8)%Z. rewrite <- (Z.shiftr_div_pow2 u 8) by lia.
      rewrite Z.shiftr_shiftr by lia. f_equal. lia. }
    now rewrite E.
Qed.

Lemma hex_loop_denotes n u : (0 <= u)%Z ->
  denotes_hex (hex_string_loop n u) (u mod 2 ^ (8 * Z.of_nat n)).
Proof.
  revert u; induction n as [|n IH]; intros u Hu.
  - simpl. rewrite Z.mod_1_r. constructor.
  - rewrite hex_loop_snoc.
    replace (hex_string_loop n (u / 256) ++ [hex_digit ((u / 16) mod 16)%Z; hex_digit (u mod 16)%Z])
      with ((hex_string_loop n (u / 256) ++ [hex_digit ((u / 16) mod 16)%Z])
              ++ [hex_digit (u mod 16)%Z]) by now rewrite <- app_assoc.
    assert (Hv : (u mod 2 ^ (8 * Z.of_nat (S n)) =
      16 * (16 * ((u / 256) mod 2 ^ (8 * Z.of_nat n)) + (u / 16) mod 16) + u mod 16)%Z).
    { replace (2 ^ (8 * Z.of_nat (S n)))%Z with (256 * 2 ^ (8 * Z.of_nat n))%Z.
      2:{ rewrite <- (Z.pow_add_r 2 8) by lia. f_equal. lia. }
      rewrite Z.rem_mul_r by lia.
      assert (u mod 256 = 16 * ((u / 16) mod 16) + u mod 16)%Z.
      { change 256%Z with (16 * 16)%Z. rewrite Z.rem_mul_r by lia. lia. }
      lia. }
    rewrite Hv. constructor; [constructor|].
    + apply IH. apply Z.div_pos; lia.
    + apply hex_digit_value, Z.mod_pos_bound. lia.
    + apply hex_digit_value, Z.mod_pos_bound. lia.
Qed.

Lemma hex_loop_length n u : length (hex_string_loop n u) = 2 * n.
Proof. induction n; simpl; [reflexivity|]. rewrite IHn. lia. Qed.

Lemma hex_loop_digits n u c : In c (hex_string_loop n u) -> lowercase_hex_digit c.
Proof.
  induction n as [|n IH]; simpl; [intros []|].
  intros [<-|[<-|H]]; auto; rewrite land15; apply hex_digit_lowercase, Z.mod_pos_bound; lia.
Qed.

Lemma hex_string_denotes n v :
  denotes_hex (hex_string n v) (v mod 2 ^ (8 * Z.of_nat n)).
Proof.
  unfold hex_string.
  pose proof (Z.mod_pos_bound v (2 ^ (8 * Z.of_nat n))) as Hb.
  assert (0 < 2 ^ (8 * Z.of_nat n))%Z by (apply Z.pow_pos_nonneg; lia).
  pose proof (hex_loop_denotes n (v mod 2 ^ (8 * Z.of_nat n))) as H1.
  rewrite Z.mod_mod in H1 by lia. apply H1. lia.
Qed.

Lemma hex_range_intercalate n vs sep :
  hex_string_range n vs sep = intercalate sep (map (hex_string n) vs).
Proof.
  destruct vs as [|v vs]; [reflexivity|]. unfold hex_string_range.
  enough (E : forall acc,
    fold_left (fun result it => (result ++ sep) ++ hex_string n it) vs acc
    = acc ++ match vs with [] => [] | _ => sep ++ intercalate sep (map (hex_string n) vs) end).
  { rewrite E. destruct vs; simpl; [apply app_nil_r|reflexivity]. }
  induction vs as [|w vs IH]; intros acc; simpl; [now rewrite app_nil_r|].
  rewrite IH. destruct vs; rewrite <- ?app_assoc; simpl; rewrite ?app_nil_r; reflexivity.
Qed.

Lemma concat_blocks_inj {A} k (l1 l2 : list (list A)) : 0 < k ->
  (forall b, In b l1 -> length b = k) -> (forall b, In b l2 -> length b = k) ->
  concat l1 = concat l2 -> l1 = l2.
Proof.
  intros Hk. revert l2; induction l1 as [|b l1 IH]; intros [|b' l2] H1 H2 E; simpl in *; auto.
  - assert (length b' = k) by (apply H2; auto). destruct b'; simpl in *; [lia|discriminate].
  - assert (length b = k) by (apply H1; auto). destruct b; simpl in *; [lia|discriminate].
  - apply app_inj_len in E as [-> E].
    + f_equal. apply IH; auto.
    + rewrite H1, H2; auto.
Qed.

(** * repeat, cat *)

Lemma repeat_loop_spec s n acc :
  repeat_loop s n acc = acc ++ concat (List.repeat s n).
Proof.
  revert acc; induction n as [|n IH]; intros acc; simpl; [now rewrite app_nil_r|].
  rewrite IH. now rewrite app_assoc.
Qed.
Lemma repeat_spec s n : repeat s n = concat (List.repeat s n).
Proof. apply repeat_loop_spec. Qed.

Lemma cat_spec args : cat args = concat args.
Proof.
  destruct args as [|a [|b [|c [|d args]]]]; unfold cat, cat0, cat1, cat2, cat3; simpl;
    rewrite ?app_nil_r, <- ?app_assoc; auto.
  unfold cat_list. rewrite (fold_app_flat_map (fun p : str => p)).
  simpl. rewrite flat_map_concat_map, map_id. reflexivity.
Qed.

Lemma concat_repeat_nth (s : str) n i d : i < n * length s ->
  nth i (concat (List.repeat s n)) d = nth (i mod length s) s d.
Proof.
  revert i; induction n as [|n IH]; intros i Hi; simpl in *; [lia|].
  destruct (Nat.lt_ge_cases i (length s)).
  - rewrite app_nth1 by lia. now rewrite Nat.mod_small.
  - rewrite app_nth2 by lia. rewrite IH by lia.
    f_equal. replace i with ((i - length s) + 1 * length s) at 2 by lia.
    rewrite Nat.mod_add by lia. reflexivity.
Qed.
Lemma concat_repeat_length (s : str) n : length (concat (List.repeat s n)) = n * length s.
Proof. induction n; simpl; [reflexivity|]. rewrite app_length, IHn. reflexivity. Qed.

(** * safe_string *)

(** With a terminator within the first [len] bytes, or [len] accessible bytes. *)
Lemma safe_string_loop_spec mem len :
  (len <= length mem \/ In "000"%char mem) ->
  exists pre post, mem = pre ++ post /\ safe_string_loop mem len = Ok pre /\
    ~ In "000"%char pre /\ length pre <= len /\
    (length pre = len \/ exists rest, post = "000"%char :: rest).
Proof.
  revert len; induction mem as [|c mem IH]; intros len H.
  - exists [], []. destruct len; simpl in *.
    + repeat split; auto.
    + destruct H as [H|[]]; lia.
  - destruct len as [|len]; simpl.
    + exists [], (c :: mem). repeat split; auto.
    + destruct (Ascii.eqb_spec c "000"%char) as [->|Hc].
      * exists [], ("000"%char :: mem). simpl. repeat split; auto; try lia.
        right. eauto.
      * destruct (IH len) as (pre & post & -> & -> & Hn & Hl & Hor).
        { destruct H as [H|[H|H]]; simpl in *; [left; lia | congruence | now right]. }
        exists (c :: pre), post. simpl. repeat split; auto; try lia.
        -- intros [E|E]; auto.
        -- destruct Hor; [left; lia|now right].
Qed.

(** * escape / unescape *)

Lemma escape_flat_map s : escape s = flat_map escape_char s.
Proof. unfold escape. now rewrite fold_app_flat_map. Qed.

Lemma xdigit_hex_value c : is_xdigit c = true -> hex_value c (xdigit_value c).
Proof.
  unfold is_xdigit, xdigit_value. intros H.
  rewrite !orb_true_iff, !andb_true_iff, !Z.leb_le in H.
  destruct (Z.leb_spec (uc c) 57).
  - apply hv_digit. lia.
  - destruct (Z.leb_spec (uc c) 70); [apply hv_upper | apply hv_lower]; lia.
Qed.
Lemma hex_value_xdigit c v : hex_value c v -> is_xdigit c = true /\ (0 <= v < 16)%Z.
Proof.
  unfold is_xdigit. intros H. rewrite !orb_true_iff, !andb_true_iff, !Z.leb_le.
  inversion H; subst; lia.
Qed.

(** Computed form: every byte is escaped to a sequence denoting it, or copied. *)
Lemma escape_char_cases c :
  escape_seq (escape_char c) c \/ (escape_char c = [c] /\ c <> "\"%char).
Proof.
  unfold escape_char.
  destruct (Ascii.eqb_spec c """"); [subst; left; constructor|].
  destruct (Ascii.eqb_spec c "\"); [subst; left; constructor|].
  destruct (Ascii.eqb_spec c "010"); [subst; left; constructor|].
  destruct (Ascii.eqb_spec c "013"); [subst; left; constructor|].
  destruct (Ascii.eqb_spec c "009"); [subst; left; constructor|].
  destruct (sc c <? 32)%Z; [|right; auto].
  left.
  unfold hex_string. simpl hex_string_loop. rewrite Z.shiftr_0_r, !land15.
  rewrite Z.shiftr_div_pow2 by lia.
  apply es_hex with (vh := ((sc c mod 2 ^ 8) / 2 ^ 4 mod 16)%Z) (vl := ((sc c mod 2 ^ 8) mod 16)%Z).
  - apply hex_digit_value, Z.mod_pos_bound. lia.
  - apply hex_digit_value, Z.mod_pos_bound. lia.
  - assert (E : (sc c mod 2 ^ 8 = uc c)%Z).
    { pose proof (uc_range c). unfold sc. change (2 ^ 8)%Z with 256%Z.
      destruct (Z.ltb_spec (uc c) 128); [apply Z.mod_small; lia|].
      replace (uc c - 256)%Z with (uc c + (-1) * 256)%Z by lia.
      rewrite Z.mod_add by lia. apply Z.mod_small; lia. }
    rewrite E. change (2 ^ 4)%Z with 16%Z. pose proof (uc_range c).
    rewrite (Z.mod_small (uc c / 16)).
    + pose proof (Z.div_mod (uc c) 16). lia.
    + split; [apply Z.div_pos; lia | apply Z.div_lt_upper_bound; lia].
Qed.

Lemma escape_seq_head e c : escape_seq e c -> exists e', e = "\"%char :: e'.
Proof. destruct 1; simpl; eauto. Qed.

Lemma unescapes_escape s : unescapes (escape s) s.
Proof.
  rewrite escape_flat_map. induction s as [|c s IH]; simpl; [constructor|].
  destruct (escape_char_cases c) as [H|[-> Hne]].
  - now constructor.
  - simpl. constructor; auto. intros e x rest He E.
    apply escape_seq_head in He as [e' ->]. simpl in E. injection E as E _. congruence.
Qed.

Lemma escape_seq_prefix_free e1 c1 e2 c2 s1 s2 :
  escape_seq e1 c1 -> escape_seq e2 c2 -> e1 ++ s1 = e2 ++ s2 -> e1 = e2 /\ c1 = c2 /\ s1 = s2.
Proof.
  intros H1 H2 E.
  destruct H1; destruct H2; simpl in E; try discriminate E;
    try (injection E; intros; subst; auto; fail).
  injection E as -> -> ->.
  repeat split. apply uc_inj. rewrite H1, H4.
  now rewrite (hex_value_fun _ _ _ H H2), (hex_value_fun _ _ _ H0 H3).
Qed.

Lemma unescapes_fun s r1 r2 : unescapes s r1 -> unescapes s r2 -> r1 = r2.
Proof.
  intros H; revert r2; induction H as [|e c s r He Hs IH|c s r Hc Hs IH]; intros r2 H2.
  - inversion H2 as [|e c s r He Hs E|]; auto.
    apply escape_seq_head in He as [e' ->]. discriminate.
  - inversion H2 as [E|e' c' s' r' He' Hs' E|c' s' r' Hc' Hs' E].
    + apply escape_seq_head in He as [x ->]. discriminate.
    + destruct (escape_seq_prefix_free _ _ _ _ _ _ He' He E) as (-> & -> & ->).
      f_equal. now apply IH.
    + exfalso. eapply Hc'; eauto.
  - inversion H2 as [|e' c' s' r' He' Hs' E|c' s' r' Hc' Hs' E].
    + exfalso. eapply Hc; eauto.
    + f_equal. now apply IH.
Qed.

Lemma memb_lit c : memb c (!"""\nrt") = true ->
  c = """"%char \/ c = "\"%char \/ c = "n"%char \/ c = "r"%char \/ c = "t"%char.
Proof. rewrite memb_In. simpl. intuition congruence. Qed.

Lemma match_escape_some s g :
  match_escape s = Some g ->
  exists c, escape_seq ("\"%char :: g) c /\ unescape_group g = [c] /\
            s = ("\"%char :: g) ++ skipn (S (length g)) s.
Proof.
  destruct s as [|bs [|c rest]]; try discriminate. unfold match_escape.
  destruct (Ascii.eqb_spec bs "\") as [->|]; [|discriminate].
  destruct (memb c (!"""\nrt")) eqn:Em.
  - intros [= <-]. apply memb_lit in Em.
    destruct Em as [->|[->|[->|[->| ->]]]]; eexists; (split; [|split; [|reflexivity]]);
      try reflexivity; constructor.
  - destruct (Ascii.eqb_spec c "x") as [->|]; [|discriminate].
    destruct rest as [|h [|l rest]]; try discriminate.
    destruct (is_xdigit h && is_xdigit l) eqn:E; [|discriminate].
    intros [= <-]. apply andb_true_iff in E as [Hh Hl].
    apply xdigit_hex_value in Hh. apply xdigit_hex_value in Hl.
    exists (chr (16 * xdigit_value h + xdigit_value l)). split; [|split].
    + apply (es_hex h l _ _ _ Hh Hl). rewrite uc_chr.
      apply hex_value_xdigit in Hh as [_ ?]. apply hex_value_xdigit in Hl as [_ ?].
      apply Z.mod_small. lia.
    + reflexivity.
    + reflexivity.
Qed.

Lemma match_escape_none s :
  match_escape s = None -> forall e x rest, escape_seq e x -> s <> e ++ rest.
Proof.
  intros Hm e x rest He ->. destruct He; simpl in Hm; try discriminate.
  apply hex_value_xdigit in H as [Hh _]. apply hex_value_xdigit in H0 as [Hl _].
  rewrite Hh, Hl in Hm. discriminate.
Qed.

Definition flatten_matches (ms : list (str * str)) : str :=
  flat_map (fun m => fst m ++ unescape_group (snd m)) ms.

Lemma fold_matches ms acc :
  fold_left (fun u (m : str * str) => (u ++ fst m) ++ unescape_group (snd m)) ms acc
  = acc ++ flatten_matches ms.
Proof.
  revert acc; induction ms as [|m ms IH]; intros acc; simpl; [now rewrite app_nil_r|].
  rewrite IH. now rewrite <- !app_assoc.
Qed.

Lemma regex_matches_spec fuel : forall s pre ms suffix,
  length s < fuel -> regex_matches fuel s pre = (ms, suffix) ->
  exists r, unescapes s r /\ flatten_matches ms ++ suffix = pre ++ r.
Proof.
  induction fuel as [|fuel IH]; intros s pre ms suffix Hf H; [lia|].
  destruct s as [|c s].
  - injection H as <- <-. exists []. split; [constructor|]. simpl. now rewrite app_nil_r.
  - cbn [regex_matches] in H. destruct (match_escape (c :: s)) as [g|] eqn:E.
    + destruct (match_escape_some _ _ E) as (x & He & Hg & Hs).
      destruct (regex_matches fuel (skipn (S (length g)) (c :: s)) []) as [ms' suf'] eqn:Er.
      injection H as <- <-.
      apply IH in Er; [|rewrite skipn_length; simpl in *; lia].
      destruct Er as (r & Hr & Hfl).
      exists (x :: r). split.
      * rewrite Hs. constructor; auto.
      * simpl. rewrite Hg. rewrite <- !app_assoc. simpl. do 2 f_equal. exact Hfl.
    + apply IH in H; [|simpl in *; lia]. destruct H as (r & Hr & Hfl).
      exists (c :: r). split.
      * constructor; auto. intros e x rest He. now apply (match_escape_none _ E e x rest).
      * rewrite Hfl, <- app_assoc. reflexivity.
Qed.

Lemma regex_matches_nomatch fuel : forall s pre suffix,
  regex_matches fuel s pre = ([], suffix) -> suffix = pre ++ s.
Proof.
  induction fuel as [|fuel IH]; intros s pre suffix H.
  - simpl in H. now injection H as <-.
  - destruct s as [|c s]; [injection H as <-; now rewrite app_nil_r|].
    cbn [regex_matches] in H. destruct (match_escape (c :: s)).
    + destruct (regex_matches fuel _ []). discriminate.
    + apply IH in H. rewrite H, <- app_assoc. reflexivity.
Qed.

Lemma unescape_unescapes s : unescapes s (unescape s).
Proof.
  unfold unescape. destruct (regex_matches (S (length s)) s []) as [ms suffix] eqn:E.
  destruct (regex_matches_spec _ _ _ _ _ (Nat.lt_succ_diag_r _) E) as (r & Hr & Hfl).
  simpl in Hfl. destruct ms as [|m ms].
  - apply regex_matches_nomatch in E. simpl in *. now subst suffix r.
  - rewrite fold_matches. cbn [app]. rewrite Hfl. exact Hr.
Qed.

Lemma unescape_escape s : unescape (escape s) = s.
Proof. eapply unescapes_fun; [apply unescape_unescapes | apply unescapes_escape]. Qed.

Lemma escape_char_printable c d :
  In d (escape_char c) -> (32 <= uc d <= 127)%Z.
Proof.
  assert (E : forall c, forallb (fun d => (32 <=? uc d) && (uc d <=? 127))%Z (escape_char c) = true).
  { apply (forall_bytes (fun c => forallb _ (escape_char c))). vm_compute. reflexivity. }
  intros H. specialize (E c). rewrite forallb_forall in E. apply E in H.
  apply andb_true_iff in H. lia.
Qed.

(** Quotes appear only inside an escape sequence. *)
Lemma escape_char_quote c a b :
  escape_char c = a ++ """"%char :: b -> a = ["\"%char] /\ b = [] /\ c = """"%char.
Proof.
  intros H.
  assert (E : forall c, negb (Ascii.eqb c """"%char) && memb """"%char (escape_char c) = false).
  { intros x. apply negb_true_iff. revert x.
    apply (forall_bytes (fun x => negb (negb (Ascii.eqb x """"%char) && memb """"%char (escape_char x)))).
    vm_compute. reflexivity. }
  specialize (E c). destruct (Ascii.eqb_spec c """"%char) as [->|Hn].
  - change (escape_char """"%char) with ["\"%char; """"%char] in H.
    destruct a as [|x [|y a]]; simpl in H; try discriminate.
    + injection H as -> <-. auto.
    + injection H as _ _ H. destruct a; discriminate.
  - simpl in E. apply memb_not_In in E. exfalso. apply E. rewrite H, in_app_iff. right. now left.
Qed.

(** * Substring predicates *)

Lemma compare_eq s t : compare s t = 0%Z <-> s = t.
Proof.
  revert t; induction s as [|a s IH]; intros [|b t]; simpl; try (split; intro; (discriminate || reflexivity); fail).
  destruct (Z.ltb_spec (uc a) (uc b)); [split; [discriminate | intros [= -> ->]; lia]|].
  destruct (Z.ltb_spec (uc b) (uc a)); [split; [discriminate | intros [= -> ->]; lia]|].
  rewrite IH. assert (a = b) by (apply uc_inj; lia). subst. split; [intros ->|intros [= ->]]; auto.
Qed.

Lemma contains_spec h n : contains h n = true <-> occurs n h.
Proof.
  unfold contains. destruct (find h n 0) eqn:E.
  - apply find_some in E as (a & b & Hs & _). simpl in Hs.
    split; [intros _|auto]. now exists a, b.
  - split; [discriminate|]. intros H. exfalso. revert H.
    apply (find_none h n 0 (Nat.le_0_l _) E).
Qed.

Lemma starts_with_spec s p : starts_with s p = true <-> exists b, s = p ++ b.
Proof.
  unfold starts_with. rewrite andb_true_iff, Nat.leb_le, Z.eqb_eq, compare_eq. split.
  - intros [_ H]. exists (skipn (length p) s). rewrite <- H at 1. symmetry. apply firstn_skipn.
  - intros [b ->]. rewrite app_length, firstn_app_exact. split; [lia|reflexivity].
Qed.

Lemma ends_with_spec s p : ends_with s p = true <-> exists a, s = a ++ p.
Proof.
  unfold ends_with. rewrite andb_true_iff, Nat.leb_le, Z.eqb_eq, compare_eq. split.
  - intros [Hl H]. exists (firstn (length s - length p) s).
    rewrite firstn_all2 in H by (rewrite skipn_length; lia).
    rewrite <- H at 2. symmetry. apply firstn_skipn.
  - intros [a ->]. rewrite app_length. split; [lia|].
    replace (length a + length p - length p) with (length a) by lia.
    rewrite skipn_app_exact. apply firstn_all.
Qed.

Lemma starts_with_char_spec s c : starts_with_char s c = true <-> exists b, s = c :: b.
Proof.
  unfold starts_with_char. destruct s as [|x s]; simpl.
  - split; [discriminate|]. intros [b H]; discriminate.
  - rewrite Ascii.eqb_eq. split; [intros ->; eauto | intros [b H]; congruence].
Qed.
Lemma ends_with_char_spec s c : ends_with_char s c = true <-> exists a, s = a ++ [c].
Proof.
  unfold ends_with_char. destruct s as [|x s] using rev_ind.
  - simpl. split; [discriminate|]. intros [[|? ?] H]; discriminate.
  - rewrite last_last, app_length. simpl length. rewrite Nat.add_comm. simpl.
    rewrite Ascii.eqb_eq. split; [intros ->; eauto|].
    intros [a H]. now apply app_inj_tail in H.
Qed.

Lemma eq_nocase_spec a b : eq_nocase a b = true <-> lower_char a = lower_char b.
Proof. unfold eq_nocase. rewrite Ascii.eqb_eq, !lowercase_char_spec. reflexivity. Qed.

Lemma equals_nocase_loop_spec s1 s2 : length s1 = length s2 ->
  exists r, equals_nocase_loop s1 s2 = Ok r /\ (r = true <-> lower s1 = lower s2).
Proof.
  revert s2; induction s1 as [|a s1 IH]; intros [|b s2] Hl; simpl in *; try discriminate.
  - exists true. split; auto. split; auto.
  - destruct (eq_nocase a b) eqn:E; simpl.
    + apply eq_nocase_spec in E. destruct (IH s2) as (r & -> & Hr); [lia|].
      exists r. split; auto. rewrite Hr. unfold lower. simpl. rewrite E.
      split; [now intros -> | now intros [=]].
    + exists false. split; auto. split; [discriminate|]. intros [= H _].
      apply eq_nocase_spec in H. congruence.
Qed.

Lemma equals_nocase_spec s1 s2 :
  exists r, equals_nocase s1 s2 = Ok r /\ (r = true <-> lower s1 = lower s2).
Proof.
  unfold equals_nocase. destruct (Nat.eqb_spec (length s1) (length s2)) as [E|E]; simpl.
  - now apply equals_nocase_loop_spec.
  - exists false. split; auto. split; [discriminate|]. intros H.
    apply (f_equal (@length _)) in H. unfold lower in H. rewrite !map_length in H. lia.
Qed.

Lemma nocase_back_loop_spec h n j :
  j <= length n -> j <= length h ->
  exists z, nocase_back_loop h n j = Ok z /\
    (z = (-1)%Z <-> lower (firstn j h) = lower (firstn j n)).
Proof.
  induction j as [|j IH]; intros Hn Hh; simpl nocase_back_loop.
  - exists (-1)%Z. split; auto. split; auto.
  - destruct (nth_error h j) as [a|] eqn:Ea.
    2:{ apply nth_error_None in Ea. lia. }
    destruct (nth_error n j) as [b|] eqn:Eb.
    2:{ apply nth_error_None in Eb. lia. }
    assert (Fa : firstn (S j) h = firstn j h ++ [a]).
    { apply nth_error_split in Ea as (l1 & l2 & -> & <-).
      change (l1 ++ a :: l2) with (l1 ++ [a] ++ l2). rewrite app_assoc at 1.
      replace (S (length l1)) with (length (l1 ++ [a])) by (rewrite app_length; simpl; lia).
      now rewrite !firstn_app_exact. }
    assert (Fb : firstn (S j) n = firstn j n ++ [b]).
    { apply nth_error_split in Eb as (l1 & l2 & -> & <-).
      change (l1 ++ b :: l2) with (l1 ++ [b] ++ l2). rewrite app_assoc at 1.
      replace (S (length l1)) with (length (l1 ++ [b])) by (rewrite app_length; simpl; lia).
      now rewrite !firstn_app_exact. }
    rewrite Fa, Fb. unfold lower. rewrite !map_app. fold (lower (firstn j h)) (lower (firstn j n)).
    simpl. destruct (eq_nocase a b) eqn:E; simpl.
    + apply eq_nocase_spec in E. destruct IH as (z & -> & Hz); try lia.
      exists z. split; auto. rewrite Hz, E. split; [now intros ->|].
      intros H. apply app_inj_tail in H. tauto.
    + exists (Z.of_nat j). split; auto. split; [lia|]. intros H.
      apply app_inj_tail in H as [_ H]. apply eq_nocase_spec in H. congruence.
Qed.

Lemma lower_app a b : lower (a ++ b) = lower a ++ lower b.
Proof. apply map_app. Qed.
Lemma lower_length a : length (lower a) = length a.
Proof. apply map_length. Qed.
Lemma lower_firstn j s : lower (firstn j s) = firstn j (lower s).
Proof. unfold lower. symmetry. apply firstn_map. Qed.

Lemma contains_nocase_loop_spec n : forall k h,
  length h = k + length n ->
  exists r, contains_nocase_loop (S k) h n = Ok r /\ (r = true <-> occurs (lower n) (lower h)).
Proof.
  induction k as [|k IH]; intros h Hl; unfold contains_nocase_loop; fold contains_nocase_loop.
  - destruct (nocase_back_loop_spec h n (length n)) as (z & -> & Hz); [lia | lia |].
    cbn [bind]. rewrite firstn_all, lower_firstn in Hz.
    destruct (Z.eqb_spec z (-1)) as [E|E].
    + exists true. split; auto. split; auto. intros _. apply Hz in E.
      exists [], (skipn (length n) (lower h)). simpl. rewrite <- E at 1.
      symmetry. apply firstn_skipn.
    + exists false. split; auto. split; [discriminate|]. intros (a & b & H). exfalso. apply E, Hz.
      assert (a = [] /\ b = []) as [-> ->].
      { apply (f_equal (@length _)) in H. rewrite !app_length, !lower_length in H.
        destruct a; destruct b; simpl in *; auto; lia. }
      rewrite H. simpl. rewrite app_nil_r. rewrite <- (lower_length n). apply firstn_all.
  - destruct (nocase_back_loop_spec h n (length n)) as (z & -> & Hz); [lia | lia |].
    cbn [bind]. rewrite firstn_all, lower_firstn in Hz.
    destruct (Z.eqb_spec z (-1)) as [E|E].
    + exists true. split; auto. split; auto. intros _. apply Hz in E.
      exists [], (skipn (length n) (lower h)). simpl. rewrite <- E at 1.
      symmetry. apply firstn_skipn.
    + destruct h as [|c h]; [simpl in Hl; lia|].
      destruct (IH h) as (r & Hr & Hor); [simpl in Hl; lia|]. simpl in Hr |- *.
      exists r. split; [exact Hr|]. rewrite Hor. split.
      * intros (a & b & H). exists (lower_char c :: a), b. simpl. now rewrite H.
      * intros (a & b & H). destruct a as [|x a].
        -- exfalso. apply E, Hz. change (lower_char c :: lower h) with (lower (c :: h)) in H.
           rewrite H. simpl app. rewrite <- (lower_length n).
           apply firstn_app_exact.
        -- exists a, b. simpl in H. now injection H as _ H.
Qed.

Lemma occurs_length n h : occurs n h -> length n <= length h.
Proof. intros (a & b & ->). rewrite !app_length. lia. Qed.

Lemma contains_nocase_spec h n :
  exists r, contains_nocase h n = Ok r /\ (r = true <-> occurs (lower n) (lower h)).
Proof.
  unfold contains_nocase. destruct (Nat.ltb_spec (length h) (length n)).
  - exists false. split; auto. split; [discriminate|]. intros Ho. apply occurs_length in Ho.
    rewrite !lower_length in Ho. lia.
  - apply contains_nocase_loop_spec. lia.
Qed.

Lemma contains_nocase_char_spec h c :
  contains_nocase_char h c = true <-> In (lower_char c) (lower h).
Proof.
  unfold contains_nocase_char. rewrite lowercase_char_spec.
  induction h as [|x h IH]; simpl; [split; [discriminate|tauto]|].
  rewrite lowercase_char_spec. destruct (Ascii.eqb_spec (lower_char x) (lower_char c)) as [E|E].
  - split; auto.
  - rewrite IH. split; auto. intros [H|H]; [contradiction|auto].
Qed.

Lemma starts_with_nocase_spec s p :
  starts_with_nocase s p = true <-> exists b, lower s = lower p ++ b.
Proof.
  revert p; induction s as [|a s IH]; intros p; simpl.
  - rewrite Nat.eqb_eq. destruct p; simpl; split; try discriminate; eauto.
    intros [b H]; discriminate.
  - destruct p as [|b p]; simpl; [split; eauto|].
    destruct (eq_nocase a b) eqn:E; simpl.
    + apply eq_nocase_spec in E. rewrite IH, E. split.
      * intros [r ->]. eauto.
      * intros [r [= H]]. eauto.
    + split; [discriminate|]. intros [r [= H _]]. apply eq_nocase_spec in H. congruence.
Qed.

Lemma starts_with_nocase_char_spec s c :
  starts_with_nocase_char s c = true <-> exists b, lower s = lower_char c :: b.
Proof.
  unfold starts_with_nocase_char. destruct s as [|x s]; simpl.
  - split; [discriminate|]. intros [b H]; discriminate.
  - rewrite eq_nocase_spec. split; [intros ->; eauto | intros [b H]; congruence].
Qed.

Lemma ends_with_nocase_char_spec s c :
  ends_with_nocase_char s c = true <-> exists a, lower s = a ++ [lower_char c].
Proof.
  unfold ends_with_nocase_char. destruct s as [|x s] using rev_ind.
  - simpl. split; [discriminate|]. intros [[|? ?] H]; discriminate.
  - rewrite last_last, app_length. simpl length. rewrite Nat.add_comm. simpl.
    rewrite eq_nocase_spec, lower_app. simpl. split; [intros ->; eauto|].
    intros [a H]. now apply app_inj_tail in H.
Qed.

Lemma ends_with_nocase_loop_spec fuel : forall s p,
  length s < fuel ->
  exists r, ends_with_nocase_loop fuel s p = Ok r /\
            (r = true <-> exists a, lower s = a ++ lower p).
Proof.
  induction fuel as [|fuel IH]; intros s p Hf; [lia|].
  destruct s as [|x s] using rev_ind; [|clear IHs].
  - simpl. eexists. split; [reflexivity|]. rewrite Nat.eqb_eq. destruct p; simpl.
    + split; auto. intros _. now exists [].
    + split; [discriminate|]. intros [u H]. destruct u; discriminate.
  - assert (Hm : forall (A : Type) (u v : A), match s ++ [x] with [] => u | _ :: _ => v end = v)
      by (intros; destruct s; reflexivity).
    cbn [ends_with_nocase_loop]. rewrite Hm.
    destruct p as [|y p] using rev_ind; [|clear IHp].
    + exists true. split; auto. split; auto. intros _. exists (lower (s ++ [x])).
      now rewrite app_nil_r.
    + assert (Hm2 : forall (A : Type) (u v : A), match p ++ [y] with [] => u | _ :: _ => v end = v)
        by (intros; destruct p; reflexivity).
      rewrite Hm2. rewrite !last_last, !removelast_last.
      destruct (eq_nocase x y) eqn:E; simpl.
      * apply eq_nocase_spec in E. destruct (IH s p) as (r & -> & Hr).
        { rewrite app_length in Hf. simpl in Hf. lia. }
        exists r. split; auto. rewrite Hr, !lower_app. simpl. rewrite E. split.
        -- intros [a ->]. exists a. now rewrite app_assoc.
        -- intros [a H]. rewrite app_assoc in H. apply app_inj_tail in H as [H _]. eauto.
      * exists false. split; auto. split; [discriminate|]. intros [a H].
        rewrite !lower_app in H. simpl in H. rewrite app_assoc in H.
        apply app_inj_tail in H as [_ H]. apply eq_nocase_spec in H. congruence.
Qed.

Lemma ends_with_nocase_spec s p :
  exists r, ends_with_nocase s p = Ok r /\ (r = true <-> exists a, lower s = a ++ lower p).
Proof. apply ends_with_nocase_loop_spec. lia. Qed.

Lemma escape_quotes (s a b : str) : escape s = a ++ """"%char :: b ->
  exists s1 s2, s = s1 ++ """"%char :: s2 /\ a = escape s1 ++ ["\"%char] /\ b = escape s2.
Proof.
  rewrite escape_flat_map. revert a.
  induction s as [|c s IH]; intros a H; simpl in H.
  - destruct a; discriminate.
  - (* the quote lies in the first piece or in the rest *)
    destruct (Nat.lt_ge_cases (length a) (length (escape_char c))) as [Hlt|Hge].
    + assert (E : escape_char c = a ++ """"%char :: skipn (S (length a)) (escape_char c)).
      { rewrite <- (firstn_skipn (S (length a)) (escape_char c)) at 1.
        assert (Hf : firstn (S (length a)) (escape_char c) = a ++ [""""%char]).
        { rewrite <- (firstn_app_exact (a ++ [""""%char]) b).
          rewrite app_length. simpl length. rewrite Nat.add_comm. simpl (1 + _).
          rewrite <- app_assoc. simpl app. rewrite <- H.
          rewrite firstn_app. replace (S (length a) - length (escape_char c)) with 0 by lia.
          simpl. now rewrite app_nil_r. }
        rewrite Hf, <- app_assoc. reflexivity. }
      destruct (escape_char_quote _ _ _ E) as (-> & _ & ->).
      change (escape_char """"%char) with ["\"%char; """"%char] in H.
      simpl in H. injection H as <-.
      exists [], s. rewrite !escape_flat_map. auto.
    + assert (E : a = escape_char c ++ skipn (length (escape_char c)) a).
      { rewrite <- (firstn_skipn (length (escape_char c)) a) at 1. f_equal.
        transitivity (firstn (length (escape_char c)) (escape_char c ++ flat_map escape_char s));
          [|apply firstn_app_exact].
        rewrite H, firstn_app.
        replace (length (escape_char c) - length a) with 0 by lia. simpl. now rewrite app_nil_r. }
      rewrite E, <- app_assoc in H. apply app_inv_head in H.
      destruct (IH _ H) as (s1 & s2 & -> & Ha & ->).
      exists (c :: s1), s2. split; [reflexivity|]. split; [|reflexivity].
      rewrite E, Ha, !escape_flat_map. simpl. now rewrite app_assoc.
Qed.

Lemma runs_unique ds s t1 t2 : runs ds s t1 -> runs ds s t2 -> t1 = t2.
Proof.
  intros H; revert t2; induction H as [t Ht | gap tok rest toks Hg Ht Hn Hr Hruns IH]; intros t2 H2.
  - inversion H2 as [t' Ht' | gap' tok' rest' toks' Hg' Ht0 Hn' Hr' Hruns' E]; auto. exfalso.
    destruct tok' as [|x tok']; [congruence|]. apply (Hn' x); [now left|]. apply Ht.
    rewrite <- E, !in_app_iff. right. left. now left.
  - inversion H2 as [t' Ht' E | gap' tok' rest' toks' Hg' Ht0 Hn' Hr' Hruns' E].
    + exfalso. destruct tok as [|x tok]; [congruence|]. apply (Hn x); [now left|]. apply Ht'.
      rewrite !in_app_iff. right. left. now left.
    + assert (E1 : tok ++ rest = tok' ++ rest').
      { symmetry. apply (trim_left_unique ds gap' _ gap _ E Hg' Hg).
        - intros x r Hx. destruct tok' as [|y tok']; [congruence|]. simpl in Hx.
          injection Hx as <- _. apply Hn'. now left.
        - intros x r Hx. destruct tok as [|y tok]; [congruence|]. simpl in Hx.
          injection Hx as <- _. apply Hn. now left. }
      assert (E2 : tok = tok').
      { clear -E1 Hn Hn' Hr Hr'. revert tok' Hn' E1.
        induction tok as [|x tok IHt]; intros [|y tok'] Hn' E1; simpl in *; auto.
        - destruct Hr as [->|(c & r & -> & Hc)]; [discriminate|]. injection E1 as <- _.
          exfalso. apply (Hn' c); auto. now left.
        - destruct Hr' as [->|(c & r & -> & Hc)]; [discriminate|]. injection E1 as -> _.
          exfalso. apply (Hn c); auto. now left.
        - injection E1 as -> E1. f_equal. apply IHt; auto.
          + intros z Hz. apply Hn. now right.
          + intros z Hz. apply Hn'. now right. }
      subst tok'. apply app_inv_head in E1. subst rest'. f_equal. now apply IH.
Qed.

Lemma all_in_app ws a b : all_in ws a -> all_in ws b -> all_in ws (a ++ b).
Proof. intros Ha Hb x Hx. apply in_app_iff in Hx. destruct Hx; auto. Qed.

Lemma trim_both_unique ws l t r l' t' r' :
  l ++ t ++ r = l' ++ t' ++ r' ->
  all_in ws l -> all_in ws r -> no_start ws t -> no_end ws t ->
  all_in ws l' -> all_in ws r' -> no_start ws t' -> no_end ws t' -> t = t'.
Proof.
  intros E Hl Hr Hs He Hl' Hr' Hs' He'.
  assert (Haux : forall l r l' c t r', l ++ r = l' ++ (c :: t) ++ r' ->
            all_in ws l -> all_in ws r -> no_start ws (c :: t) -> False).
  { intros a b a' c u b' Eq Ha Hb Hc. apply (Hc c u); auto.
    apply (all_in_app ws a b Ha Hb). rewrite Eq, !in_app_iff. right. left. now left. }
  destruct t as [|c t]; destruct t' as [|c' t']; auto.
  - exfalso. eapply Haux; eauto.
  - exfalso. symmetry in E. eapply Haux; eauto.
  - assert (E1 : (c :: t) ++ r = (c' :: t') ++ r').
    { apply (trim_left_unique ws l _ l' _ E Hl Hl').
      - intros x y Hx. simpl in Hx. injection Hx as <- _. now apply (Hs c t).
      - intros x y Hx. simpl in Hx. injection Hx as <- _. now apply (Hs' c' t'). }
    apply (trim_right_unique ws _ r _ r' E1); auto.
Qed.
