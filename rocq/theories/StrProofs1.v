(** Proofs about searching, split, join, replace, tokenize and trim. *)
From Verif Require Import Base StrSearch StrSpec StrModel.

(** * Searching *)

Lemma prefixb_true s t : prefixb s t = true <-> exists u, t = s ++ u.
Proof.
  revert t; induction s as [|a s IH]; intros t; simpl.
  - split; [intros _; now exists t | reflexivity].
  - destruct t as [|b t]; simpl.
    + split; [discriminate | intros [u H]; discriminate].
    + rewrite andb_true_iff, Ascii.eqb_eq, IH. split.
      * intros [-> [u ->]]; now exists u.
      * intros [u H]; injection H as -> ->. eauto.
Qed.

Lemma find0_some t s i :
  find0 t s = Some i ->
  exists a b, t = a ++ s ++ b /\ length a = i /\
    forall a' b', t = a' ++ s ++ b' -> length a <= length a'.
Proof.
  revert i; induction t as [|c t IH]; intros i; simpl.
  - destruct (prefixb s []) eqn:E; [|discriminate].
    intros [= <-]. apply prefixb_true in E as [u Hu].
    exists [], u. simpl. repeat split; auto. intros; lia.
  - destruct (prefixb s (c :: t)) eqn:E.
    + intros [= <-]. apply prefixb_true in E as [u Hu].
      exists [], u. simpl. repeat split; auto. intros; lia.
    + destruct (find0 t s) as [k|] eqn:Ef; simpl; [|discriminate].
      intros [= <-]. destruct (IH _ eq_refl) as (a & b & -> & Hlen & Hmin).
      exists (c :: a), b. simpl. split; [reflexivity|]. split; [lia|].
      intros a' b' H. destruct a' as [|x a']; simpl in *.
      * exfalso. rewrite H in E. assert (prefixb s (s ++ b') = true)
          by (apply prefixb_true; eauto). congruence.
      * injection H as -> H. apply Hmin in H. lia.
Qed.

Lemma find0_none t s : find0 t s = None <-> ~ occurs s t.
Proof.
  induction t as [|c t IH]; simpl.
  - destruct (prefixb s []) eqn:E.
    + apply prefixb_true in E as [u Hu]. split; [discriminate|].
      intros H; exfalso; apply H. exists [], u. auto.
    + split; [|auto]. intros _ [a [b H]].
      destruct a; [|discriminate]. simpl in H.
      assert (prefixb s [] = true) by (apply prefixb_true; eauto). congruence.
  - destruct (prefixb s (c :: t)) eqn:E.
    + apply prefixb_true in E as [u Hu]. split; [discriminate|].
      intros H; exfalso; apply H. exists [], u. auto.
    + destruct (find0 t s) eqn:Ef; simpl.
      * split; [discriminate|]. intros H. exfalso.
        apply find0_some in Ef as (a & b & -> & _). apply H.
        exists (c :: a), b. reflexivity.
      * split; [|auto]. intros _ [a [b H]]. destruct a as [|x a]; simpl in H.
        -- rewrite H in E. assert (prefixb s (s ++ b) = true) by (apply prefixb_true; eauto).
           congruence.
        -- injection H as -> H. apply IH; [reflexivity|]. exists a, b. exact H.
Qed.

Lemma find_some t s pos i :
  find t s pos = Some i ->
  exists a b, skipn pos t = a ++ s ++ b /\ i = pos + length a /\ pos <= length t /\
     first_occurrence s (skipn pos t) a b.
Proof.
  unfold find. destruct (Nat.leb_spec pos (length t)); [|discriminate].
  destruct (find0 (skipn pos t) s) eqn:E; simpl; [|discriminate].
  intros [= <-]. apply find0_some in E as (a & b & Ht & Hlen & Hmin).
  exists a, b. repeat split; auto.
Qed.

Lemma find_none t s pos :
  pos <= length t -> find t s pos = None -> ~ occurs s (skipn pos t).
Proof.
  unfold find. intros H. destruct (Nat.leb_spec pos (length t)); [|lia].
  destruct (find0 (skipn pos t) s) eqn:E; simpl; [discriminate|].
  intros _. now apply find0_none.
Qed.

Lemma skipn_app_exact {A} (a b : list A) : skipn (length a) (a ++ b) = b.
Proof. rewrite skipn_app, skipn_all, Nat.sub_diag. reflexivity. Qed.
Lemma firstn_app_exact {A} (a b : list A) : firstn (length a) (a ++ b) = a.
Proof. rewrite firstn_app, firstn_all, Nat.sub_diag. apply app_nil_r. Qed.
Lemma skipn_add {A} i j (l : list A) : skipn (i + j) l = skipn j (skipn i l).
Proof.
  revert l; induction i as [|i IH]; intros l; simpl; [reflexivity|].
  destruct l; [now rewrite skipn_nil | apply IH].
Qed.

(** * join *)

Lemma join_fold ps glue acc :
  fold_left (fun result it => (result ++ glue) ++ it) ps acc
  = acc ++ match ps with [] => [] | _ => glue ++ intercalate glue ps end.
Proof.
  revert acc; induction ps as [|p ps IH]; intros acc; simpl.
  - now rewrite app_nil_r.
  - rewrite IH. destruct ps; rewrite <- ?app_assoc; simpl; rewrite ?app_nil_r; reflexivity.
Qed.

Lemma join_intercalate parts glue : join parts glue = intercalate glue parts.
Proof.
  destruct parts as [|p ps]; [reflexivity|]. unfold join. rewrite join_fold.
  destruct ps; simpl; [apply app_nil_r | reflexivity].
Qed.

(** * split *)

Lemma cuts_intercalate d t parts : leftmost_cuts d t parts -> intercalate d parts = t.
Proof.
  induction 1 as [t H | t a rest parts [Ht Hmin] Hc IH].
  - reflexivity.
  - destruct Hc as [t' H' | t' a' rest' parts' H' Hc']; simpl in *.
    + now rewrite Ht.
    + rewrite Ht. simpl in IH. now rewrite IH.
Qed.

Lemma cuts_length d t parts : leftmost_cuts d t parts -> parts <> [].
Proof. now destruct 1. Qed.

Lemma app_inj_len {A} (a a' b b' : list A) :
  length a = length a' -> a ++ b = a' ++ b' -> a = a' /\ b = b'.
Proof.
  revert a'; induction a as [|x a IH]; intros [|y a'] Hl H; simpl in *; try discriminate; auto.
  injection H as -> H. destruct (IH a') as [-> ->]; auto.
Qed.

Lemma first_occurrence_unique d t a rest a' rest' :
  first_occurrence d t a rest -> first_occurrence d t a' rest' -> a = a' /\ rest = rest'.
Proof.
  intros [H1 M1] [H2 M2].
  assert (L : length a = length a').
  { apply Nat.le_antisymm; [eapply M1 | eapply M2]; eauto. }
  rewrite H1 in H2. apply app_inj_len in H2 as [-> H2]; auto.
  split; auto. now apply app_inv_head in H2.
Qed.

Lemma cuts_unique d t p1 p2 : leftmost_cuts d t p1 -> leftmost_cuts d t p2 -> p1 = p2.
Proof.
  intros H; revert p2; induction H as [t Hn | t a rest parts Ho Hc IH]; intros p2 H2.
  - destruct H2 as [t Hn2 | t a' rest' parts' [Ht _] _]; auto.
    exfalso; apply Hn. now exists a', rest'.
  - destruct H2 as [t Hn2 | t a' rest' parts' Ho' Hc'].
    + exfalso; apply Hn2. destruct Ho as [Ht _]. now exists a, rest.
    + destruct (first_occurrence_unique _ _ _ _ _ _ Ho Ho') as [-> ->].
      f_equal. now apply IH.
Qed.

Lemma first_occurrence_no_inner d t a rest :
  first_occurrence d t a rest -> d <> [] -> ~ occurs d a.
Proof.
  intros [Ht Hmin] Hd (x & y & Ha). subst a.
  specialize (Hmin x (y ++ d ++ rest)).
  rewrite !app_length in Hmin. destruct d; [congruence|]. simpl in Hmin.
  enough (length x + S (length d + length y) <= length x) by lia.
  apply Hmin. rewrite Ht. now rewrite <- !app_assoc.
Qed.

Lemma cuts_no_delim d t parts :
  d <> [] -> leftmost_cuts d t parts -> forall p, In p parts -> ~ occurs d p.
Proof.
  intros Hd. induction 1 as [t Hn | t a rest parts Ho Hc IH]; intros p [<-|Hp];
    try contradiction; auto.
  eapply first_occurrence_no_inner; eauto.
Qed.

Lemma split_loop_cuts d text : d <> [] ->
  forall fuel p result,
  p <= length text -> length text - p < fuel ->
  exists parts, split_loop fuel text d p p result = Ok (result ++ parts)
                /\ leftmost_cuts d (skipn p text) parts.
Proof.
  intros Hd. induction fuel as [|fuel IH]; intros p result Hp Hf; [lia|].
  cbn [split_loop]. destruct (find text d p) as [hit|] eqn:E.
  - apply find_some in E as (a & b & Hs & -> & _ & Ho).
    replace (p + length a - p) with (length a) by lia.
    unfold substr. destruct (Nat.ltb_spec (length text) p); [lia|]. cbn [bind].
    rewrite Hs in Ho |- *. rewrite firstn_app_exact.
    assert (Hd1 : length d >= 1) by (destruct d; simpl; [congruence|lia]).
    replace (Nat.max (length d + length a) 1) with (length d + length a) by lia.
    assert (Hlen : length text - p = length a + (length d + length b)).
    { rewrite <- skipn_length, Hs, !app_length. reflexivity. }
    destruct (IH (p + (length d + length a)) (result ++ [a])) as (parts & -> & Hc); try lia.
    exists (a :: parts). split; [now rewrite <- app_assoc|].
    econstructor.
    + exact Ho.
    + replace b with (skipn (p + (length d + length a)) text); [exact Hc|].
      rewrite skipn_add, Hs. rewrite app_assoc.
      replace (length d + length a) with (length (a ++ d)) by (rewrite app_length; lia).
      apply skipn_app_exact.
  - apply find_none in E; [|exact Hp].
    unfold substr_from. destruct (Nat.ltb_spec (length text) p); [lia|]. cbn [bind].
    eexists. split; [reflexivity|]. now constructor.
Qed.

Lemma split_cuts text d : d <> [] ->
  exists parts, split text d = Ok parts /\ leftmost_cuts d text parts.
Proof.
  intros Hd. destruct (split_loop_cuts d text Hd (length text + 2) 0 []) as (parts & H & Hc);
    try lia.
  exists parts. split; [exact H | exact Hc].
Qed.

(** Empty delimiter: split("abc", "") = ["", "a", "b", "c", ""]. *)
Lemma find_empty t pos : pos <= length t -> find t [] pos = Some pos.
Proof.
  intros H. unfold find. destruct (Nat.leb_spec pos (length t)); [|lia].
  assert (E : find0 (skipn pos t) [] = Some 0) by (destruct (skipn pos t); reflexivity).
  rewrite E. simpl. f_equal. lia.
Qed.

Lemma find_beyond t s pos : length t < pos -> find t s pos = None.
Proof. intros H. unfold find. destruct (Nat.leb_spec pos (length t)); [lia|reflexivity]. Qed.

Lemma split_empty_loop text : forall fuel p result,
  p <= length text -> length text - p < fuel ->
  split_loop fuel text [] (S p) p result
  = Ok (result ++ map (fun c => [c]) (skipn p text) ++ [[]]).
Proof.
  induction fuel as [|fuel IH]; intros p result Hp Hf; [lia|].
  cbn [split_loop]. destruct (Nat.eq_dec p (length text)) as [->|Hne].
  - rewrite find_beyond by lia. unfold substr_from.
    rewrite Nat.ltb_irrefl, skipn_all. reflexivity.
  - rewrite find_empty by lia.
    replace (S p - p) with 1 by lia.
    unfold substr. destruct (Nat.ltb_spec (length text) p); [lia|].
    cbn [bind length].
    replace (S p + Nat.max (0 + 1) 1) with (S (S p)) by (simpl; lia).
    replace (p + (0 + 1)) with (S p) by lia.
    rewrite IH by lia. rewrite <- app_assoc. f_equal. f_equal.
    destruct (skipn p text) as [|c r] eqn:Es.
    + exfalso. assert (length (skipn p text) = 0) by now rewrite Es.
      rewrite skipn_length in *. lia.
    + assert (skipn (S p) text = r) as ->.
      { replace (S p) with (p + 1) by lia. rewrite skipn_add, Es. reflexivity. }
      reflexivity.
Qed.

Lemma split_empty text : split text [] = Ok ([] :: map (fun c => [c]) text ++ [[]]).
Proof.
  unfold split. replace (length text + 2) with (S (length text + 1)) by lia.
  cbn [split_loop]. rewrite find_empty by lia.
  unfold substr. destruct (Nat.ltb_spec (length text) 0); [lia|].
  cbn [bind firstn length app].
  change (0 + Nat.max (0 + (0 - 0)) 1) with 1. change (0 + (0 + (0 - 0))) with 0.
  rewrite split_empty_loop by lia. reflexivity.
Qed.

Lemma intercalate_nil_concat parts : intercalate [] parts = concat parts.
Proof.
  induction parts as [|p ps IH]; simpl; [reflexivity|].
  destruct ps as [|q ps]; [simpl; now rewrite app_nil_r|]. now rewrite IH.
Qed.

Lemma concat_singletons (t : str) : concat (map (fun c => [c]) t) = t.
Proof. induction t; simpl; congruence. Qed.

Lemma split_join_total text d :
  exists parts, split text d = Ok parts /\ parts <> [] /\ join parts d = text.
Proof.
  destruct d as [|x d].
  - rewrite split_empty. eexists; split; [reflexivity|]. split; [discriminate|].
    rewrite join_intercalate, intercalate_nil_concat. simpl.
    rewrite concat_app, concat_singletons. simpl. now rewrite !app_nil_r.
  - destruct (split_cuts text (x :: d)) as (parts & Hs & Hc); [discriminate|].
    exists parts. split; [exact Hs|]. split; [eapply cuts_length; eauto|].
    rewrite join_intercalate. now apply cuts_intercalate.
Qed.

(** split inverts join for a one-character delimiter *)

Lemma occurs_char c t : occurs [c] t <-> In c t.
Proof.
  split.
  - intros (a & b & ->). rewrite in_app_iff. right. now left.
  - intros H. apply in_split in H as (a & b & ->). now exists a, b.
Qed.

Lemma cuts_join_char c parts :
  parts <> [] -> (forall p, In p parts -> ~ In c p) ->
  leftmost_cuts [c] (intercalate [c] parts) parts.
Proof.
  induction parts as [|p ps IH]; intros Hne Hp; [congruence|].
  destruct ps as [|q ps].
  - simpl. constructor. rewrite occurs_char. apply Hp. now left.
  - econstructor; [|apply IH; [discriminate | intros; apply Hp; now right]].
    split; [reflexivity|].
    intros a' b' H. destruct (Nat.le_gt_cases (length p) (length a')) as [|Hlt]; auto.
    exfalso. apply (Hp p); [now left|].
    change (intercalate [c] (p :: q :: ps)) with (p ++ [c] ++ intercalate [c] (q :: ps)) in H.
    assert (E : firstn (length a' + 1) (p ++ [c] ++ intercalate [c] (q :: ps))
                = a' ++ [c]).
    { rewrite H. rewrite app_assoc. replace (length a' + 1) with (length (a' ++ [c]))
        by (rewrite app_length; simpl; lia). apply firstn_app_exact. }
    rewrite firstn_app in E. replace (length a' + 1 - length p) with 0 in E by lia.
    simpl in E. rewrite app_nil_r in E.
    rewrite <- (firstn_skipn (length a' + 1) p), in_app_iff. left. rewrite E.
    rewrite in_app_iff. right. now left.
Qed.

Lemma split_join_char c parts :
  parts <> [] -> (forall p, In p parts -> ~ In c p) ->
  split (join parts [c]) [c] = Ok parts.
Proof.
  intros Hne Hp. rewrite join_intercalate.
  destruct (split_cuts (intercalate [c] parts) [c]) as (ps & Hs & Hc); [discriminate|].
  rewrite Hs. f_equal. eapply cuts_unique; [exact Hc|]. now apply cuts_join_char.
Qed.

(** * replace *)

Lemma replace_loop_cuts needle hammer haystack : needle <> [] ->
  forall fuel p result,
  p <= length haystack -> length haystack - p < fuel ->
  exists parts, leftmost_cuts needle (skipn p haystack) parts /\
    replace_loop fuel haystack needle hammer p p result
    = Ok (result ++ intercalate hammer parts).
Proof.
  intros Hd. induction fuel as [|fuel IH]; intros p result Hp Hf; [lia|].
  cbn [replace_loop]. destruct (find haystack needle p) as [hit|] eqn:E.
  - apply find_some in E as (a & b & Hs & -> & _ & Ho).
    replace (p + length a - p) with (length a) by lia.
    rewrite Hs in Ho |- *. rewrite firstn_app_exact.
    assert (Hd1 : length needle >= 1) by (destruct needle; simpl; [congruence|lia]).
    assert (Hlen : length haystack - p = length a + (length needle + length b)).
    { rewrite <- skipn_length, Hs, !app_length. reflexivity. }
    destruct (IH (p + length a + length needle) ((result ++ a) ++ hammer))
      as (parts & Hc & ->); try lia.
    assert (Hb : skipn (p + length a + length needle) haystack = b).
    { rewrite <- Nat.add_assoc, skipn_add, Hs, app_assoc.
      replace (length a + length needle) with (length (a ++ needle)) by (rewrite app_length; lia).
      apply skipn_app_exact. }
    rewrite Hb in Hc.
    exists (a :: parts). split; [econstructor; eauto|].
    pose proof (cuts_length _ _ _ Hc). destruct parts; [congruence|].
    simpl. now rewrite <- !app_assoc.
  - apply find_none in E; [|exact Hp]. eexists. split; [now constructor|].
    simpl. now rewrite <- skipn_length, firstn_all.
Qed.

Lemma replace_cuts haystack needle hammer : needle <> [] ->
  exists parts, leftmost_cuts needle haystack parts /\
    replace haystack needle hammer = Ok (intercalate hammer parts).
Proof.
  intros Hd. destruct (replace_loop_cuts needle hammer haystack Hd (length haystack + 2) 0 [])
    as (parts & Hc & H); try lia.
  exists parts. split; [exact Hc|]. unfold replace. destruct needle; [congruence|]. exact H.
Qed.

Lemma replace_inplace_loop_cuts needle hammer : needle <> [] ->
  forall fuel done rest, length rest + 1 < fuel ->
  exists parts, leftmost_cuts needle rest parts /\
    replace_inplace_loop fuel (done ++ rest) needle hammer (find (done ++ rest) needle (length done))
    = Ok (done ++ intercalate hammer parts).
Proof.
  intros Hd. induction fuel as [|fuel IH]; intros done rest Hf; [lia|].
  cbn [replace_inplace_loop].
  destruct (find (done ++ rest) needle (length done)) as [p|] eqn:E.
  - apply find_some in E as (a & b & Hs & -> & _ & Ho).
    rewrite skipn_app_exact in Hs, Ho. subst rest.
    unfold erase_str. rewrite app_length.
    destruct (Nat.ltb_spec (length done + length (a ++ needle ++ b)) (length done + length a)).
    { rewrite app_length in *. lia. }
    cbn [bind].
    assert (E1 : firstn (length done + length a) (done ++ a ++ needle ++ b) = done ++ a).
    { rewrite app_assoc, <- app_length. apply firstn_app_exact. }
    assert (E2 : skipn (length done + length a) (done ++ a ++ needle ++ b) = needle ++ b).
    { rewrite app_assoc, <- app_length. apply skipn_app_exact. }
    rewrite E1, E2, skipn_app_exact.
    unfold insert_str. rewrite app_length, <- (app_length done a).
    destruct (Nat.ltb_spec (length (done ++ a) + length b) (length (done ++ a))); [lia|].
    cbn [bind]. rewrite firstn_app_exact, skipn_app_exact.
    assert (Hd1 : length needle >= 1) by (destruct needle; simpl; [congruence|lia]).
    destruct (IH ((done ++ a) ++ hammer) b) as (parts & Hc & Hr).
    { rewrite !app_length in Hf. lia. }
    exists (a :: parts). split; [econstructor; eauto|].
    rewrite <- (app_assoc (done ++ a)) in Hr.
    rewrite (app_length (done ++ a)) in Hr. rewrite Hr.
    pose proof (cuts_length _ _ _ Hc). destruct parts; [congruence|].
    simpl. now rewrite <- !app_assoc.
  - apply find_none in E; [|rewrite app_length; lia]. rewrite skipn_app_exact in E.
    eexists. split; [now constructor|]. reflexivity.
Qed.

Lemma replace_inplace_replace haystack needle hammer :
  replace_inplace haystack needle hammer = replace haystack needle hammer.
Proof.
  destruct needle as [|c needle]; [reflexivity|].
  destruct (replace_cuts haystack (c :: needle) hammer) as (parts & Hc & ->); [discriminate|].
  destruct (replace_inplace_loop_cuts (c :: needle) hammer) with
    (fuel := length haystack + 2) (done := @nil ascii) (rest := haystack)
    as (parts' & Hc' & H); [discriminate | lia |].
  rewrite (cuts_unique _ _ _ _ Hc Hc'). exact H.
Qed.

(** * find_if *)

Lemma find_if_some p t i :
  find_if p t = Some i ->
  exists a c b, t = a ++ c :: b /\ length a = i /\ p c = true /\ forall x, In x a -> p x = false.
Proof.
  revert i; induction t as [|c t IH]; intros i; simpl; [discriminate|].
  destruct (p c) eqn:E.
  - intros [= <-]. exists [], c, t. repeat split; auto. intros x [].
  - destruct (find_if p t) eqn:Ef; simpl; [|discriminate]. intros [= <-].
    destruct (IH _ eq_refl) as (a & d & b & -> & Hl & Hp & Ha).
    exists (c :: a), d, b. repeat split; simpl; auto.
    intros x [<-|Hx]; auto.
Qed.

Lemma find_if_none p t : find_if p t = None -> forall x, In x t -> p x = false.
Proof.
  induction t as [|c t IH]; simpl; [intros _ x []|].
  destruct (p c) eqn:E; [discriminate|].
  destruct (find_if p t) eqn:Ef; simpl; [discriminate|]. intros _ x [<-|Hx]; auto.
Qed.

Lemma find_if_app_first p a c b :
  (forall x, In x a -> p x = false) -> p c = true -> find_if p (a ++ c :: b) = Some (length a).
Proof.
  induction a as [|x a IH]; simpl; intros Ha Hc; [now rewrite Hc|].
  rewrite Ha by auto. rewrite IH; auto.
Qed.

Lemma find_if_all_false p a : (forall x, In x a -> p x = false) -> find_if p a = None.
Proof.
  induction a as [|x a IH]; simpl; intros Ha; [reflexivity|].
  rewrite Ha by auto. rewrite IH; auto.
Qed.

Lemma memb_In c s : memb c s = true <-> In c s.
Proof.
  unfold memb. rewrite existsb_exists. split.
  - intros (x & Hx & He). apply Ascii.eqb_eq in He. now subst.
  - intros H. exists c. split; [exact H|]. apply Ascii.eqb_refl.
Qed.
Lemma memb_not_In c s : memb c s = false <-> ~ In c s.
Proof. rewrite <- memb_In. now destruct (memb c s); split. Qed.

(** * tokenize *)

Lemma tokenize_loop_runs ds s :
  forall fuel e toks,
  e <= length s -> length s - e + 1 < fuel ->
  exists ts, tokenize_loop fuel s ds e toks = Ok (toks ++ ts) /\ runs ds (skipn e s) ts.
Proof.
  induction fuel as [|fuel IH]; intros e toks He Hf; [lia|].
  cbn [tokenize_loop]. unfold find_first_not_of at 1, find_if_from at 1.
  destruct (find_if (fun c => negb (memb c ds)) (skipn e s)) as [k|] eqn:E; cbn [option_map].
  - apply find_if_some in E as (gap & c & b & Hs & Hk & Hc & Hg).
    apply negb_true_iff, memb_not_In in Hc.
    assert (Hgap : all_in ds gap).
    { intros x Hx. apply Hg in Hx. apply negb_false_iff in Hx. now apply memb_In. }
    assert (Hsk : skipn (e + k) s = c :: b).
    { rewrite skipn_add, Hs, <- Hk. apply skipn_app_exact. }
    assert (Hlen : length s - e = length gap + S (length b)).
    { rewrite <- skipn_length, Hs, app_length. reflexivity. }
    unfold find_first_of, find_if_from. rewrite Hsk.
    destruct (find_if (fun c0 => memb c0 ds) (c :: b)) as [m|] eqn:Em; cbn [option_map].
    + apply find_if_some in Em as (tok & d & rest & Ht & Hm & Hd & Htok).
      apply memb_In in Hd.
      replace (e + k + m - (e + k)) with m by lia. rewrite Ht, <- Hm, firstn_app_exact.
      assert (Htok0 : tok <> []).
      { intros ->. simpl in Ht. injection Ht as -> ->. contradiction. }
      assert (Hl2 : S (length b) = length tok + S (length rest)).
      { change (S (length b)) with (length (c :: b)). rewrite Ht, app_length. reflexivity. }
      assert (length tok >= 1) by (destruct tok; simpl; [congruence|lia]).
      destruct (IH (e + k + length tok) (toks ++ [tok])) as (ts & -> & Hr); try lia.
      assert (Hrest : skipn (e + k + length tok) s = d :: rest).
      { rewrite skipn_add, Hsk, Ht. apply skipn_app_exact. }
      rewrite Hrest in Hr. exists (tok :: ts). split; [now rewrite <- app_assoc|].
      rewrite Hs, Ht. constructor; auto.
      * intros x Hx. apply memb_not_In. now apply Htok.
      * right; eauto.
    + eexists. split; [reflexivity|].
      assert (Hnone : forall x, In x (c :: b) -> ~ In x ds).
      { intros x Hx. apply memb_not_In. eapply find_if_none in Em; eauto. }
      replace (length s - (e + k)) with (length (c :: b)) by (simpl; lia).
      rewrite firstn_all, Hs.
      replace (gap ++ c :: b) with (gap ++ (c :: b) ++ []) by now rewrite app_nil_r.
      constructor; auto; [discriminate | constructor; intros x []].
  - exists []. rewrite app_nil_r. split; [reflexivity|]. constructor.
    intros x Hx. eapply find_if_none in E; eauto. apply negb_false_iff in E. now apply memb_In.
Qed.

Lemma tokenize_runs s ds : exists ts, tokenize s ds = Ok ts /\ runs ds s ts.
Proof.
  destruct (tokenize_loop_runs ds s (length s + 2) 0 []) as (ts & H & Hr); try lia.
  now exists ts.
Qed.

Lemma runs_token ds s ts : runs ds s ts -> forall t, In t ts -> t <> [] /\ none_in ds t.
Proof.
  induction 1; intros x Hx; [destruct Hx|]. destruct Hx as [<-|Hx]; auto.
Qed.

Lemma runs_concat ds s ts :
  runs ds s ts -> concat ts = filter (fun c => negb (memb c ds)) s.
Proof.
  induction 1 as [t H | gap tok rest toks Hg Ht Hn Hr Hruns IH]; simpl.
  - induction t as [|c t IHt]; simpl; [reflexivity|].
    assert (memb c ds = true) as -> by (apply memb_In, H; now left). simpl.
    apply IHt. intros x Hx. apply H. now right.
  - rewrite !filter_app. rewrite <- IH.
    assert (E1 : filter (fun c => negb (memb c ds)) gap = []).
    { clear -Hg. induction gap as [|c gap IHg]; simpl; [reflexivity|].
      assert (memb c ds = true) as -> by (apply memb_In, Hg; now left). simpl.
      apply IHg. intros x Hx. apply Hg. now right. }
    assert (E2 : filter (fun c => negb (memb c ds)) tok = tok).
    { clear -Hn. induction tok as [|c tok IHt]; simpl; [reflexivity|].
      assert (memb c ds = false) as -> by (apply memb_not_In, Hn; now left). simpl.
      f_equal. apply IHt. intros x Hx. apply Hn. now right. }
    now rewrite E1, E2.
Qed.

(** * trim *)

Lemma find_first_not_of_0 s ws :
  find_first_not_of s ws 0 = find_if (fun c => negb (memb c ws)) s.
Proof.
  unfold find_first_not_of, find_if_from. simpl. destruct (find_if _ s); reflexivity.
Qed.

Lemma trim_left_decomp s ws :
  exists l t, s = l ++ t /\ trim_left s ws = Ok t /\ all_in ws l /\ no_start ws t.
Proof.
  unfold trim_left. rewrite find_first_not_of_0.
  destruct (find_if _ s) as [i|] eqn:E.
  - apply find_if_some in E as (a & c & b & -> & <- & Hc & Ha).
    exists a, (c :: b). unfold substr_from. rewrite app_length.
    destruct (Nat.ltb_spec (length a + length (c :: b)) (length a)); [lia|].
    rewrite skipn_app_exact. repeat split; auto.
    + intros x Hx. apply Ha in Hx. apply negb_false_iff in Hx. now apply memb_In.
    + intros x r [= <- <-]. apply memb_not_In. now apply negb_true_iff.
  - exists s, []. rewrite app_nil_r. repeat split; auto.
    + intros x Hx. eapply find_if_none in E; eauto. apply negb_false_iff in E. now apply memb_In.
    + intros x r H. discriminate.
Qed.

Lemma find_last_not_of_some s ws i :
  find_last_not_of s ws = Some i ->
  exists a c b, s = a ++ c :: b /\ length a = i /\ ~ In c ws /\ all_in ws b.
Proof.
  unfold find_last_not_of. destruct (find_if _ (rev s)) as [k|] eqn:E; cbn [option_map]; [|discriminate].
  intros [= <-]. apply find_if_some in E as (a & c & b & Hs & Hk & Hc & Ha).
  assert (Hs' : s = rev b ++ c :: rev a).
  { rewrite <- (rev_involutive s), Hs, rev_app_distr. simpl. now rewrite <- app_assoc. }
  exists (rev b), c, (rev a). split; [exact Hs'|]. split.
  - rewrite Hs', app_length. simpl. rewrite !rev_length. lia.
  - split; [apply memb_not_In; now apply negb_true_iff|].
    intros x Hx. apply in_rev in Hx. apply Ha in Hx. apply negb_false_iff in Hx. now apply memb_In.
Qed.

Lemma find_last_not_of_none s ws : find_last_not_of s ws = None -> all_in ws s.
Proof.
  unfold find_last_not_of. destruct (find_if _ (rev s)) as [k|] eqn:E; cbn [option_map]; [discriminate|].
  intros _ x Hx. apply in_rev in Hx. eapply find_if_none in E; eauto.
  apply negb_false_iff in E. now apply memb_In.
Qed.

Lemma trim_right_decomp s ws :
  exists t r, s = t ++ r /\ trim_right s ws = Ok t /\ all_in ws r /\ no_end ws t.
Proof.
  unfold trim_right. destruct (find_last_not_of s ws) as [i|] eqn:E.
  - apply find_last_not_of_some in E as (a & c & b & -> & <- & Hc & Hb).
    exists (a ++ [c]), b. rewrite <- app_assoc. split; [reflexivity|].
    unfold substr. simpl Nat.ltb. cbn [skipn].
    replace (length a + 1) with (length (a ++ [c])) by (rewrite app_length; reflexivity).
    replace (a ++ c :: b) with ((a ++ [c]) ++ b) by now rewrite <- app_assoc.
    rewrite firstn_app_exact. repeat split; auto.
    intros x r H. apply app_inj_tail in H as [-> ->]. exact Hc.
  - exists [], s. repeat split; auto.
    + now apply find_last_not_of_none.
    + intros x r H. destruct r; discriminate.
Qed.

Lemma trim_decomp s ws :
  exists l t r, s = l ++ t ++ r /\ trim s ws = Ok t /\ all_in ws l /\ all_in ws r /\
    no_start ws t /\ no_end ws t.
Proof.
  unfold trim. rewrite find_first_not_of_0.
  destruct (find_if _ s) as [i|] eqn:E.
  - apply find_if_some in E as (l & c & b & Hs & Hi & Hc & Hl).
    apply negb_true_iff, memb_not_In in Hc.
    assert (Hl' : all_in ws l).
    { intros x Hx. apply Hl in Hx. apply negb_false_iff in Hx. now apply memb_In. }
    destruct (find_last_not_of s ws) as [j|] eqn:E2.
    + apply find_last_not_of_some in E2 as (a & d & r & Hs2 & Hj & Hd & Hr).
      (* l is no longer than a *)
      assert (Hla : length l <= length a).
      { destruct (Nat.le_gt_cases (length l) (length a)) as [|Hgt]; auto. exfalso.
        apply Hd, Hl'. rewrite <- (firstn_skipn (length a) l).
        assert (nth_error l (length a) = Some d).
        { rewrite <- (nth_error_app1 l (c :: b)) by lia. rewrite <- Hs, Hs2.
          rewrite nth_error_app2, Nat.sub_diag; auto. }
        rewrite firstn_skipn. eapply nth_error_In; eauto. }
      assert (Ha : exists m, a = l ++ m).
      { exists (skipn (length l) a). rewrite <- (firstn_skipn (length l) a) at 1. f_equal.
        assert (firstn (length l) s = firstn (length l) (a ++ d :: r)) by now rewrite Hs2.
        rewrite Hs in H at 1. rewrite firstn_app_exact in H.
        rewrite firstn_app in H. replace (length l - length a) with 0 in H by lia.
        simpl in H. rewrite app_nil_r in H. now symmetry. }
      destruct Ha as [m ->].
      exists l, (m ++ [d]), r.
      assert (Hs3 : s = l ++ (m ++ [d]) ++ r).
      { rewrite Hs2. now rewrite <- !app_assoc. }
      split; [exact Hs3|]. unfold substr.
      destruct (Nat.ltb_spec (length s) i); [rewrite Hs3, !app_length in *; simpl in *; lia|].
      assert (j - i + 1 = length (m ++ [d])) as ->.
      { subst j i. rewrite !app_length. simpl. lia. }
      rewrite <- Hi, Hs3, skipn_app_exact, firstn_app_exact.
      repeat split; auto.
      * intros x t Ht. rewrite Hs in Hs3. apply app_inv_head in Hs3.
        rewrite Ht in Hs3. simpl in Hs3. now injection Hs3 as <- _.
      * intros x t Ht. apply app_inj_tail in Ht as [_ ->]. exact Hd.
    + exfalso. apply find_last_not_of_none in E2. apply Hc, E2. rewrite Hs.
      rewrite in_app_iff. right. now left.
  - exists s, [], []. rewrite app_nil_r. repeat split; auto.
    + intros x Hx. eapply find_if_none in E; eauto. apply negb_false_iff in E. now apply memb_In.
    + intros x [].
    + intros x r H. discriminate.
    + intros x r H. destruct r; discriminate.
Qed.

(** The trimmed string is determined by its specification. *)
Lemma trim_left_unique ws l t l' t' :
  l ++ t = l' ++ t' -> all_in ws l -> all_in ws l' -> no_start ws t -> no_start ws t' -> t = t'.
Proof.
  revert l'; induction l as [|c l IH]; intros [|c' l'] H Hl Hl' Ht Ht'; simpl in *.
  - exact H.
  - exfalso. apply (Ht c' (l' ++ t')); auto. apply Hl'. now left.
  - exfalso. apply (Ht' c (l ++ t)); auto. apply Hl. now left.
  - injection H as -> H. apply (IH l'); auto; intros x Hx; [apply Hl|apply Hl']; now right.
Qed.

Lemma trim_right_unique ws t r t' r' :
  t ++ r = t' ++ r' -> all_in ws r -> all_in ws r' -> no_end ws t -> no_end ws t' -> t = t'.
Proof.
  intros H Hr Hr' Ht Ht'.
  assert (E : rev t = rev t').
  { apply (trim_left_unique ws (rev r) (rev t) (rev r') (rev t')).
    - now rewrite <- !rev_app_distr, H.
    - intros x Hx. apply Hr. now apply in_rev.
    - intros x Hx. apply Hr'. now apply in_rev.
    - intros x y He. apply (Ht x (rev y)). rewrite <- (rev_involutive t), He. reflexivity.
    - intros x y He. apply (Ht' x (rev y)). rewrite <- (rev_involutive t'), He. reflexivity. }
  rewrite <- (rev_involutive t), E. apply rev_involutive.
Qed.

Lemma no_end_suffix ws l t : no_end ws (l ++ t) -> no_end ws t.
Proof. intros H c r ->. apply (H c (l ++ r)). now rewrite app_assoc. Qed.

Lemma trim_left_right s ws t :
  trim_right s ws = Ok t -> trim s ws = trim_left t ws.
Proof.
  intros H.
  destruct (trim_right_decomp s ws) as (t0 & r & Hs & Ht0 & Hr & Hne).
  rewrite Ht0 in H. injection H as ->.
  destruct (trim_left_decomp t ws) as (l & u & Ht & -> & Hl & Hns).
  destruct (trim_decomp s ws) as (l' & u' & r' & Hs' & -> & Hl' & Hr' & Hns' & Hne').
  f_equal.
  (* u' and u *)
  assert (Hu : no_end ws u) by (rewrite Ht in Hne; eapply no_end_suffix; eauto).
  rewrite Hs, Ht, <- app_assoc in Hs'.
  destruct u as [|c u]; destruct u' as [|c' u']; auto.
  - exfalso. simpl in Hs'.
    assert (Hall : all_in ws (l' ++ (c' :: u') ++ r')).
    { intros x Hx. simpl in Hx. rewrite <- Hs' in Hx. rewrite in_app_iff in Hx. destruct Hx; auto. }
    apply (Hns' c' u'); auto. apply Hall. rewrite !in_app_iff. right. left. now left.
  - exfalso. simpl in Hs'.
    assert (Hall : all_in ws (l ++ (c :: u) ++ r)).
    { intros x Hx. simpl in Hx. rewrite Hs' in Hx. rewrite in_app_iff in Hx. destruct Hx; auto. }
    apply (Hns c u); auto. apply Hall. rewrite !in_app_iff. right. left. now left.
  - assert (E : (c :: u) ++ r = (c' :: u') ++ r').
    { apply (trim_left_unique ws l _ l' _ Hs' Hl Hl').
      - intros x y Hx. simpl in Hx. injection Hx as <- _. now apply (Hns c u).
      - intros x y Hx. simpl in Hx. injection Hx as <- _. now apply (Hns' c' u'). }
    symmetry. apply (trim_right_unique ws _ r _ r' E); auto.
Qed.
