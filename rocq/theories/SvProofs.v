(** Proofs about the string_view model. *)
From Verif Require Import Base StrSpec StrSearch StrProofs1 StrProofs2 SvModel SvSpec.
Local Open Scope Z_scope.
Local Open Scope outcome_scope.

Lemma zlen_content v : valid v -> zlen (content v) = v_len v.
Proof.
  unfold valid, content, zlen. intros H.
  rewrite firstn_length, skipn_length. lia.
Qed.

Lemma length_content v : valid v -> length (content v) = Z.to_nat (v_len v).
Proof. intros H. pose proof (zlen_content v H). unfold zlen in *. lia. Qed.

Lemma rd_ok v i : valid v -> 0 <= i < v_len v ->
  rd v i = Ok (nth (Z.to_nat i) (content v) "000"%char).
Proof.
  intros Hv Hi. unfold rd. destruct Hv as (Ho & Hl & Hm).
  destruct (Z.leb_spec 0 i); [|lia]. destruct (Z.ltb_spec i (v_len v)); [|lia].
  destruct (Z.leb_spec 0 (v_off v + i)); [|lia]. simpl.
  unfold zlen in Hm.
  assert (E : nth_error (v_mem v) (Z.to_nat (v_off v + i))
              = Some (nth (Z.to_nat (v_off v + i)) (v_mem v) "000"%char)).
  { apply nth_error_nth'. lia. }
  rewrite E. f_equal. unfold content.
  rewrite <- (firstn_skipn (Z.to_nat (v_off v)) (v_mem v)) at 1.
  rewrite app_nth2; rewrite firstn_length; [|lia].
  replace (Z.to_nat (v_off v + i) - Nat.min (Z.to_nat (v_off v)) (length (v_mem v)))%nat
    with (Z.to_nat i) by lia.
  rewrite <- (firstn_skipn (Z.to_nat (v_len v)) (skipn (Z.to_nat (v_off v)) (v_mem v))) at 1.
  rewrite app_nth1; [reflexivity|]. rewrite firstn_length, skipn_length. lia.
Qed.

Lemma skipn_skipn {A} (l : list A) : forall m n, skipn m (skipn n l) = skipn (m + n) l.
Proof.
  induction l as [|c l IH]; intros m n; [now rewrite !skipn_nil|].
  destruct n as [|n]; simpl; [now rewrite Nat.add_0_r|].
  rewrite Nat.add_succ_r. simpl. apply IH.
Qed.

Lemma nth_skipn_le {A} (l : list A) d : forall n k, (n <= k)%nat ->
  nth k l d = nth (k - n) (skipn n l) d.
Proof.
  induction l as [|c l IH]; intros [|n] [|k] H; simpl; try lia; auto.
  - now destruct (k - n)%nat.
  - apply IH. lia.
Qed.

Lemma skipn_nth_cons (l : str) i d : (i < length l)%nat ->
  skipn i l = nth i l d :: skipn (S i) l.
Proof.
  revert i; induction l as [|c l IH]; intros [|i] H; simpl in *; try lia; auto.
  apply IH. lia.
Qed.

Lemma rd_range_ok v n : valid v -> forall i, 0 <= i -> i + Z.of_nat n <= v_len v ->
  rd_range v i n = Ok (firstn n (skipn (Z.to_nat i) (content v))).
Proof.
  intros Hv. induction n as [|n IH]; intros i Hi Hn; cbn [rd_range]; [reflexivity|].
  rewrite rd_ok by (auto; lia). cbn [bind]. rewrite IH by lia. cbn [bind].
  rewrite (skipn_nth_cons (content v) (Z.to_nat i) "000"%char)
    by (rewrite length_content by auto; lia).
  cbn [firstn]. replace (Z.to_nat (i + 1)) with (S (Z.to_nat i)) by lia. reflexivity.
Qed.

Lemma sv_to_string_ok v : valid v -> sv_to_string v = Ok (content v).
Proof.
  intros Hv. unfold sv_to_string. pose proof Hv as (H1 & H2 & H3). rewrite rd_range_ok by (auto; lia).
  simpl. rewrite firstn_all2; [reflexivity|]. rewrite length_content by auto. lia.
Qed.

Lemma compare_refl_head a b s t : uc a = uc b -> compare (a :: s) (b :: t) = compare s t.
Proof. intros E. simpl. rewrite E, !Z.ltb_irrefl. reflexivity. Qed.

Lemma traits_compare_ok x y n : valid x -> valid y -> forall i j,
  0 <= i -> i + Z.of_nat n <= v_len x -> 0 <= j -> j + Z.of_nat n <= v_len y ->
  traits_compare x i y j n
  = Ok (compare (firstn n (skipn (Z.to_nat i) (content x)))
                (firstn n (skipn (Z.to_nat j) (content y)))).
Proof.
  intros Hx Hy. induction n as [|n IH]; intros i j Hi Hin Hj Hjn; cbn [traits_compare]; [reflexivity|].
  rewrite !rd_ok by (auto; lia). cbn [bind].
  rewrite (skipn_nth_cons (content x) (Z.to_nat i) "000"%char)
    by (rewrite length_content by auto; lia).
  rewrite (skipn_nth_cons (content y) (Z.to_nat j) "000"%char)
    by (rewrite length_content by auto; lia).
  cbn [firstn compare]. unfold ch_lt.
  destruct (_ <? _); [reflexivity|]. destruct (_ <? _); [reflexivity|].
  rewrite IH by lia. do 3 f_equal; f_equal; lia.
Qed.

(** ** Occurrences as slices *)

Lemma occurs_at_slice n h p :
  occurs_at n h p <->
  0 <= p /\ p + zlen n <= zlen h /\ firstn (length n) (skipn (Z.to_nat p) h) = n.
Proof.
  unfold occurs_at, zlen. split.
  - intros (a & b & -> & <-). rewrite Nat2Z.id, skipn_app_exact, firstn_app_exact, !app_length.
    repeat split; lia.
  - intros (H1 & H2 & H3). exists (firstn (Z.to_nat p) h), (skipn (length n) (skipn (Z.to_nat p) h)).
    split.
    + rewrite <- H3 at 1. rewrite (firstn_skipn (length n)). symmetry. apply firstn_skipn.
    + rewrite firstn_length. lia.
Qed.

Lemma find_test_ok t s p : valid t -> valid s -> 0 <= p -> p + v_len s <= v_len t ->
  exists c, traits_compare t p s 0 (Z.to_nat (v_len s)) = Ok c /\
            (c = 0 <-> occurs_at (content s) (content t) p).
Proof.
  intros Ht Hs Hp Hl. pose proof Hs as (_ & Hs2 & _).
  rewrite traits_compare_ok by (auto; lia). eexists. split; [reflexivity|].
  rewrite compare_eq, occurs_at_slice, !zlen_content, length_content by auto. simpl.
  rewrite (firstn_all2 (content s)) by (rewrite length_content by auto; lia). intuition.
Qed.

Lemma w64_small z : 0 <= z < 2 ^ 64 -> w64 z = z.
Proof. apply Z.mod_small. Qed.

Lemma occurs_at_bound n h p : occurs_at n h p -> 0 <= p <= zlen h - zlen n.
Proof. rewrite occurs_at_slice. lia. Qed.

Lemma sv_find_loop_ok t s e : valid t -> valid s -> 0 < v_len s ->
  e = v_len t - v_len s -> 0 <= e ->
  forall fuel cur, 0 <= cur -> (Z.to_nat (e + 2 - cur) <= fuel)%nat -> (0 < fuel)%nat ->
  exists r, sv_find_loop fuel t s cur e = Ok r /\
            is_first (occurs_at (content s) (content t)) cur r.
Proof.
  intros Ht Hs Hsl He He0. pose proof Ht as (_ & Htl & _).
  induction fuel as [|fuel IH]; intros cur Hc Hf Hf0; [lia|]. cbn [sv_find_loop].
  destruct (Z.leb_spec cur e).
  - destruct (find_test_ok t s cur Ht Hs) as (c & -> & Hc0); [lia|lia|]. cbn [bind].
    destruct (Z.eqb_spec c 0).
    + exists cur. split; [reflexivity|]. right. unfold npos. repeat split; try lia; tauto.
    + rewrite w64_small by lia. destruct (IH (cur + 1)) as (r & -> & Hr); try lia.
      exists r. split; [reflexivity|]. destruct Hr as [[-> Hr]|(Hr1 & Hr2 & Hr3)].
      * left. split; [reflexivity|]. intros p Hp. destruct (Z.eq_dec p cur) as [->|]; [tauto|].
        apply Hr; lia.
      * right. repeat split; auto; try lia. intros p Hp.
        destruct (Z.eq_dec p cur) as [->|]; [tauto|]. apply Hr3; lia.
  - exists npos. split; [reflexivity|]. left. split; [reflexivity|]. intros p Hp Ho.
    apply occurs_at_bound in Ho. rewrite !zlen_content in Ho by auto. lia.
Qed.

Lemma occurs_at_nil h p : 0 <= p <= zlen h -> occurs_at [] h p.
Proof. intros H. apply occurs_at_slice. unfold zlen in *. simpl. auto with zarith. Qed.

Lemma content_nil v : valid v -> v_len v = 0 -> content v = [].
Proof. intros _ H. unfold content. rewrite H. reflexivity. Qed.

Lemma sv_find_ok t s pos : valid t -> valid s -> is_size_t pos ->
  exists r, sv_find t s pos = Ok r /\ is_first (occurs_at (content s) (content t)) pos r.
Proof.
  intros Ht Hs Hp. pose proof Ht as (_ & Htl & _). pose proof Hs as (_ & Hsl & _).
  unfold sv_find, is_size_t in *.
  destruct (Z.ltb_spec (v_len t) pos).
  { exists npos. split; [reflexivity|]. left. split; [reflexivity|]. intros p Hpp Ho.
    apply occurs_at_bound in Ho. rewrite !zlen_content in Ho by auto. lia. }
  destruct (Z.eqb_spec (v_len s) 0) as [E|E].
  { exists pos. split; [reflexivity|]. right. unfold npos. repeat split; try lia.
    rewrite (content_nil s) by auto. apply occurs_at_nil. rewrite zlen_content by auto. lia. }
  destruct (Z.ltb_spec (v_len t) (v_len s)).
  { exists npos. split; [reflexivity|]. left. split; [reflexivity|]. intros p Hpp Ho.
    apply occurs_at_bound in Ho. rewrite !zlen_content in Ho by auto. lia. }
  rewrite w64_small by lia. apply sv_find_loop_ok; auto; lia.
Qed.

Lemma sv_rfind_loop_ok t s : valid t -> valid s -> 0 < v_len s ->
  forall fuel cur, 0 <= cur <= v_len t - v_len s -> (Z.to_nat cur < fuel)%nat ->
  exists r, sv_rfind_loop fuel t s cur = Ok r /\
            is_last (occurs_at (content s) (content t)) cur r.
Proof.
  intros Ht Hs Hsl. pose proof Ht as (_ & Htl & _).
  induction fuel as [|fuel IH]; intros cur Hc Hf; [lia|]. cbn [sv_rfind_loop].
  destruct (find_test_ok t s cur Ht Hs) as (c & -> & Hc0); [lia|lia|]. cbn [bind].
  destruct (Z.eqb_spec c 0).
  - exists cur. split; [reflexivity|]. right. unfold npos. repeat split; try lia; tauto.
  - destruct (Z.eqb_spec cur 0).
    + exists npos. split; [reflexivity|]. left. split; [reflexivity|]. intros p Hp Ho.
      pose proof (occurs_at_bound _ _ _ Ho). assert (p = cur) as -> by lia. tauto.
    + destruct (IH (cur - 1)) as (r & -> & Hr); try lia.
      exists r. split; [reflexivity|]. destruct Hr as [[-> Hr]|(Hr1 & Hr2 & Hr3 & Hr4)].
      * left. split; [reflexivity|]. intros p Hp. destruct (Z.eq_dec p cur) as [->|]; [tauto|].
        apply Hr; lia.
      * right. repeat split; auto; try lia. intros p Hp.
        destruct (Z.eq_dec p cur) as [->|]; [tauto|]. apply Hr4; lia.
Qed.

Lemma sv_rfind_ok t s pos : valid t -> valid s -> is_size_t pos ->
  exists r, sv_rfind t s pos = Ok r /\ is_last (occurs_at (content s) (content t)) pos r.
Proof.
  intros Ht Hs Hp. pose proof Ht as (_ & Htl & _). pose proof Hs as (_ & Hsl & _).
  unfold sv_rfind, is_size_t in *.
  destruct (Z.ltb_spec (v_len t) (v_len s)).
  { exists npos. split; [reflexivity|]. left. split; [reflexivity|]. intros p Hpp Ho.
    apply occurs_at_bound in Ho. rewrite !zlen_content in Ho by auto. lia. }
  rewrite w64_small by lia.
  assert (Hb : forall p, occurs_at (content s) (content t) p -> 0 <= p <= v_len t - v_len s).
  { intros p Ho. apply occurs_at_bound in Ho. rewrite !zlen_content in Ho by auto. lia. }
  set (pos' := if v_len t - v_len s <? pos then v_len t - v_len s else pos).
  assert (Hpos' : 0 <= pos' <= v_len t - v_len s /\ pos' <= pos /\
                  forall p, occurs_at (content s) (content t) p -> p <= pos -> p <= pos').
  { unfold pos'. destruct (Z.ltb_spec (v_len t - v_len s) pos); repeat split; try lia.
    intros p Ho _. specialize (Hb p Ho). lia. }
  destruct Hpos' as (Hq1 & Hq2 & Hq3).
  assert (Hfin : forall r, is_last (occurs_at (content s) (content t)) pos' r ->
                           is_last (occurs_at (content s) (content t)) pos r).
  { intros r [[-> H']|(H1 & H2 & H3 & H4)].
    - left. split; [reflexivity|]. intros p Hpp Ho. apply (H' p); auto.
    - right. repeat split; auto; try lia. intros p Hpp Ho. apply (H4 p); auto.
      specialize (Hq3 p Ho). lia. }
  destruct (Z.eqb_spec (v_len s) 0) as [E|E].
  - exists pos'. split; [reflexivity|]. apply Hfin. right. unfold npos. repeat split; try lia.
    rewrite (content_nil s) by auto. apply occurs_at_nil. rewrite zlen_content by auto. lia.
  - destruct (sv_rfind_loop_ok t s Ht Hs ltac:(lia) (Z.to_nat (v_len t + 1)) pos') as (r & -> & Hr);
      try lia. eauto.
Qed.

(** ** Character searches *)

Lemma scan_ok read test f g : forall n i,
  (forall k, i <= k < i + Z.of_nat n -> read k = Ok (f k)) ->
  (forall c, test c = Ok (g c)) ->
  exists r, scan read test i n = Ok r /\
    match r with
    | None => forall k, i <= k < i + Z.of_nat n -> g (f k) = false
    | Some k => i <= k < i + Z.of_nat n /\ g (f k) = true /\
                forall k', i <= k' < k -> g (f k') = false
    end.
Proof.
  induction n as [|n IH]; intros i Hr Ht; cbn [scan].
  - exists None. split; [reflexivity|]. intros k Hk. lia.
  - rewrite Hr by lia. cbn [bind]. rewrite Ht. cbn [bind]. destruct (g (f i)) eqn:E.
    + exists (Some i). split; [reflexivity|]. repeat split; auto; lia.
    + destruct (IH (i + 1)) as (r & -> & H).
      { intros k Hk. apply Hr. lia. }
      { exact Ht. }
      exists r. split; [reflexivity|]. destruct r as [k|].
      * destruct H as (H1 & H2 & H3). repeat split; auto; try lia. intros k' Hk'.
        destruct (Z.eq_dec k' i) as [->|]; auto. apply H3. lia.
      * intros k Hk. destruct (Z.eq_dec k i) as [->|]; auto. apply H. lia.
Qed.

Lemma existsb_skip_nth (l : str) i n (p : ascii -> bool) : (i + S n <= length l)%nat ->
  existsb p (firstn (S n) (skipn i l))
  = p (nth i l "000"%char) || existsb p (firstn n (skipn (S i) l)).
Proof.
  intros H. rewrite (skipn_nth_cons l i "000"%char) by lia. reflexivity.
Qed.

Lemma any_eq_ok y a n : valid y -> forall j, 0 <= j -> j + Z.of_nat n <= v_len y ->
  any_eq y j n a = Ok (existsb (Ascii.eqb a) (firstn n (skipn (Z.to_nat j) (content y)))).
Proof.
  intros Hy. induction n as [|n IH]; intros j Hj Hn; cbn [any_eq]; [reflexivity|].
  rewrite rd_ok by (auto; lia). cbn [bind]. unfold ch_eq.
  rewrite existsb_skip_nth by (rewrite length_content by auto; lia).
  destruct (Ascii.eqb a _); [reflexivity|].
  rewrite IH by lia. replace (Z.to_nat (j + 1)) with (S (Z.to_nat j)) by lia. reflexivity.
Qed.

Lemma in_set_ok s a : valid s -> in_set s a = Ok (memb a (content s)).
Proof.
  intros Hs. pose proof Hs as (_ & Hsl & _). unfold in_set.
  rewrite any_eq_ok by (auto; lia). simpl.
  rewrite firstn_all2; [reflexivity|]. rewrite length_content by auto. lia.
Qed.

Lemma traits_find_any_eq y n a : forall j, traits_find y j n a = any_eq y j n a.
Proof.
  induction n as [|n IH]; intros j; [reflexivity|]. cbn [traits_find any_eq].
  destruct (rd y j) as [b| | |]; cbn [bind]; try reflexivity.
  unfold ch_eq. rewrite (Ascii.eqb_sym b a). destruct (Ascii.eqb a b); auto.
Qed.

Lemma not_in_set_ok s a : valid s -> not_in_set s a = Ok (negb (memb a (content s))).
Proof.
  intros Hs. unfold not_in_set. rewrite traits_find_any_eq.
  change (any_eq s 0 (Z.to_nat (v_len s)) a) with (in_set s a).
  rewrite in_set_ok by auto. reflexivity.
Qed.

Lemma char_in_nth set h p :
  char_in set h p <-> 0 <= p < zlen h /\ memb (nth (Z.to_nat p) h "000"%char) set = true.
Proof.
  unfold char_in, zlen. split.
  - intros (a & c & b & -> & <- & Hc). rewrite app_length. simpl. split; [lia|].
    rewrite Nat2Z.id, app_nth2, Nat.sub_diag by lia. simpl. now apply memb_In.
  - intros [H Hm]. exists (firstn (Z.to_nat p) h), (nth (Z.to_nat p) h "000"%char), (skipn (S (Z.to_nat p)) h).
    repeat split.
    + rewrite <- (firstn_skipn (Z.to_nat p) h) at 1. f_equal. apply skipn_nth_cons. lia.
    + rewrite firstn_length. lia.
    + now apply memb_In.
Qed.

Lemma char_not_in_nth set h p :
  char_not_in set h p <-> 0 <= p < zlen h /\ memb (nth (Z.to_nat p) h "000"%char) set = false.
Proof.
  unfold char_not_in, zlen. split.
  - intros (a & c & b & -> & <- & Hc). rewrite app_length. simpl. split; [lia|].
    rewrite Nat2Z.id, app_nth2, Nat.sub_diag by lia. simpl. now apply memb_not_In.
  - intros [H Hm]. exists (firstn (Z.to_nat p) h), (nth (Z.to_nat p) h "000"%char), (skipn (S (Z.to_nat p)) h).
    repeat split.
    + rewrite <- (firstn_skipn (Z.to_nat p) h) at 1. f_equal. apply skipn_nth_cons. lia.
    + rewrite firstn_length. lia.
    + now apply memb_not_In.
Qed.

(** Forward character search with a test [g] that expresses [P]. *)
Lemma fwd_search t test g P pos : valid t -> 0 <= pos < v_len t ->
  (forall c, test c = Ok (g c)) ->
  (forall p, P p <-> 0 <= p < v_len t /\ g (nth (Z.to_nat p) (content t) "000"%char) = true) ->
  exists r, (r <- scan (rd t) test pos (Z.to_nat (v_len t - pos)) ;;
             Ok (match r with Some i => i | None => npos end)) = Ok r /\ is_first P pos r.
Proof.
  intros Ht Hp Htest HP. pose proof Ht as (_ & Htl & _).
  destruct (scan_ok (rd t) test (fun k => nth (Z.to_nat k) (content t) "000"%char) g
              (Z.to_nat (v_len t - pos)) pos) as (r & -> & Hr); auto.
  { intros k Hk. apply rd_ok; auto. lia. }
  cbn [bind]. eexists. split; [reflexivity|]. destruct r as [k|].
  - destruct Hr as (H1 & H2 & H3). right. unfold npos. repeat split; try lia.
    + apply HP. split; [lia|exact H2].
    + intros p Hpp Hc. apply HP in Hc as [_ Hc]. rewrite H3 in Hc by lia. discriminate.
  - left. split; [reflexivity|]. intros p Hpp Hc. apply HP in Hc as [Hc1 Hc].
    rewrite Hr in Hc by lia. discriminate.
Qed.

(** Backward character search starting at index [v_len t - 1 - k]. *)
Lemma bwd_search t test g P k : valid t -> 0 <= k <= v_len t ->
  (forall c, test c = Ok (g c)) ->
  (forall p, P p <-> 0 <= p < v_len t /\ g (nth (Z.to_nat p) (content t) "000"%char) = true) ->
  exists r, (r <- scan (rrd t) test k (Z.to_nat (v_len t - k)) ;;
             Ok (match r with Some k => w64 (v_len t - 1 - k) | None => npos end)) = Ok r /\
            is_last P (v_len t - 1 - k) r.
Proof.
  intros Ht Hp Htest HP. pose proof Ht as (_ & Htl & _).
  destruct (scan_ok (rrd t) test (fun k => nth (Z.to_nat (v_len t - 1 - k)) (content t) "000"%char) g
              (Z.to_nat (v_len t - k)) k) as (r & -> & Hr); auto.
  { intros j Hj. unfold rrd. apply rd_ok; auto. lia. }
  cbn [bind]. eexists. split; [reflexivity|]. destruct r as [j|].
  - destruct Hr as (H1 & H2 & H3). rewrite w64_small by lia. right. unfold npos. repeat split; try lia.
    + apply HP. split; [lia|exact H2].
    + intros p Hpp Hc. apply HP in Hc as [_ Hc].
      specialize (H3 (v_len t - 1 - p)).
      replace (v_len t - 1 - (v_len t - 1 - p)) with p in H3 by lia.
      rewrite H3 in Hc by lia. discriminate.
  - left. split; [reflexivity|]. intros p Hpp Hc. apply HP in Hc as [Hc1 Hc].
    specialize (Hr (v_len t - 1 - p)).
    replace (v_len t - 1 - (v_len t - 1 - p)) with p in Hr by lia.
    rewrite Hr in Hc by lia. discriminate.
Qed.

Lemma P_in t s : valid t -> forall p, char_in (content s) (content t) p <->
  0 <= p < v_len t /\ memb (nth (Z.to_nat p) (content t) "000"%char) (content s) = true.
Proof. intros Ht p. rewrite char_in_nth, zlen_content by auto. reflexivity. Qed.
Lemma P_not_in t s : valid t -> forall p, char_not_in (content s) (content t) p <->
  0 <= p < v_len t /\ negb (memb (nth (Z.to_nat p) (content t) "000"%char) (content s)) = true.
Proof. intros Ht p. rewrite char_not_in_nth, zlen_content, negb_true_iff by auto. reflexivity. Qed.

Lemma sv_find_first_of_ok t s pos : valid t -> valid s -> is_size_t pos ->
  exists r, sv_find_first_of t s pos = Ok r /\ is_first (char_in (content s) (content t)) pos r.
Proof.
  intros Ht Hs Hp. unfold sv_find_first_of, is_size_t in *.
  destruct (Z.leb_spec (v_len t) pos); simpl.
  { exists npos. split; [reflexivity|]. left. split; [reflexivity|]. intros p Hpp Hc.
    apply P_in in Hc; auto. lia. }
  destruct (Z.eqb_spec (v_len s) 0).
  { exists npos. split; [reflexivity|]. left. split; [reflexivity|]. intros p Hpp Hc.
    rewrite (content_nil s) in Hc by auto. destruct Hc as (? & ? & ? & _ & _ & []). }
  apply (fwd_search t _ (fun c => memb c (content s))); auto; try lia.
  - intros c. now apply in_set_ok.
  - now apply P_in.
Qed.

Lemma sv_find_first_not_of_ok t s pos : valid t -> valid s -> is_size_t pos ->
  exists r, sv_find_first_not_of t s pos = Ok r /\ is_first (char_not_in (content s) (content t)) pos r.
Proof.
  intros Ht Hs Hp. pose proof Ht as (_ & Htl & _). unfold sv_find_first_not_of, is_size_t in *.
  destruct (Z.leb_spec (v_len t) pos); simpl.
  { exists npos. split; [reflexivity|]. left. split; [reflexivity|]. intros p Hpp Hc.
    apply P_not_in in Hc; auto. lia. }
  destruct (Z.eqb_spec (v_len s) 0).
  { exists pos. split; [reflexivity|]. right. unfold npos. repeat split; try lia.
    rewrite (content_nil s) by auto. apply char_not_in_nth. rewrite zlen_content by auto.
    split; [lia|reflexivity]. }
  apply (fwd_search t _ (fun c => negb (memb c (content s)))); auto; try lia.
  - intros c. now apply not_in_set_ok.
  - now apply P_not_in.
Qed.

Lemma is_last_widen (P : Z -> Prop) pos pos' r :
  pos' <= pos -> (forall p, P p -> p <= pos -> p <= pos') -> is_last P pos' r -> is_last P pos r.
Proof.
  intros Hle Hb [[-> H]|(H1 & H2 & H3 & H4)].
  - left. split; [reflexivity|]. intros p Hp Hpp. apply (H p); auto.
  - right. repeat split; auto; try lia. intros p Hp Hpp. apply (H4 p); auto.
    specialize (Hb p Hpp). lia.
Qed.

Lemma sv_find_last_of_ok t s pos : valid t -> valid s -> is_size_t pos ->
  exists r, sv_find_last_of t s pos = Ok r /\ is_last (char_in (content s) (content t)) pos r.
Proof.
  intros Ht Hs Hp. pose proof Ht as (_ & Htl & _). unfold sv_find_last_of, is_size_t in *.
  destruct (Z.eqb_spec (v_len s) 0).
  { exists npos. split; [reflexivity|]. left. split; [reflexivity|]. intros p Hpp Hc.
    rewrite (content_nil s) in Hc by auto. destruct Hc as (? & ? & ? & _ & _ & []). }
  set (k := if v_len t <=? pos then 0 else w64 (v_len t - w64 (pos + 1))).
  assert (Hk : 0 <= k <= v_len t /\ v_len t - 1 - k <= pos /\
               forall p, p < v_len t -> p <= pos -> p <= v_len t - 1 - k).
  { unfold k. destruct (Z.leb_spec (v_len t) pos).
    - repeat split; try lia.
    - rewrite (w64_small (pos + 1)), w64_small by lia. repeat split; try lia. }
  destruct (bwd_search t (in_set s) (fun c => memb c (content s))
              (char_in (content s) (content t)) k) as (r & -> & Hr); auto; try lia.
  { intros c. now apply in_set_ok. }
  { now apply P_in. }
  exists r. split; [reflexivity|]. eapply is_last_widen; [| |exact Hr]; [lia|].
  intros p Hc Hpp. apply P_in in Hc; auto. apply Hk; lia.
Qed.

Lemma sv_find_last_not_of_ok t s pos : valid t -> valid s -> is_size_t pos ->
  exists r, sv_find_last_not_of t s pos = Ok r /\
            is_last (char_not_in (content s) (content t)) pos r.
Proof.
  intros Ht Hs Hp. pose proof Ht as (_ & Htl & _). unfold sv_find_last_not_of, is_size_t in *.
  destruct (Z.eq_dec (v_len t) 0) as [E0|E0].
  { (* empty view: both index computations wrap around *)
    assert (Hno : forall p, ~ char_not_in (content s) (content t) p).
    { intros p Hc. apply P_not_in in Hc; auto. lia. }
    rewrite E0. destruct (Z.leb_spec 0 pos); [|lia].
    destruct (Z.eqb_spec (v_len s) 0).
    - exists npos. split; [reflexivity|]. left. split; [reflexivity|]. intros p _. apply Hno.
    - change (w64 (0 - w64 (w64 (0 - 1) + 1))) with 0. simpl.
      exists npos. split; [reflexivity|]. left. split; [reflexivity|]. intros p _. apply Hno. }
  set (q := if v_len t <=? pos then w64 (v_len t - 1) else pos).
  assert (Hq : 0 <= q < v_len t /\ q <= pos /\ forall p, p < v_len t -> p <= pos -> p <= q).
  { unfold q. destruct (Z.leb_spec (v_len t) pos); rewrite ?w64_small by lia; repeat split; lia. }
  destruct (Z.eqb_spec (v_len s) 0).
  { exists q. split; [reflexivity|]. right. unfold npos. repeat split; try lia.
    - rewrite (content_nil s) by auto. apply char_not_in_nth. rewrite zlen_content by auto.
      split; [lia|reflexivity].
    - intros p Hpp Hc. apply P_not_in in Hc as [Hc _]; auto.
      destruct Hq as (_ & _ & Hq). specialize (Hq p). lia. }
  rewrite (w64_small (q + 1)), w64_small by lia.
  destruct (bwd_search t (not_in_set s) (fun c => negb (memb c (content s)))
              (char_not_in (content s) (content t)) (v_len t - (q + 1))) as (r & -> & Hr); auto; try lia.
  { intros c. now apply not_in_set_ok. }
  { now apply P_not_in. }
  exists r. split; [reflexivity|]. eapply is_last_widen; [| |exact Hr]; [lia|].
  intros p Hc Hpp. apply P_not_in in Hc; auto. destruct Hq as (_ & _ & Hq). specialize (Hq p). lia.
Qed.

(** ** Bridge to the list-level functions of StrSearch *)

Definition pos_z (o : option nat) : Z := match o with Some i => Z.of_nat i | None => npos end.

Lemma is_first_unique P pos r1 r2 : is_first P pos r1 -> is_first P pos r2 -> r1 = r2.
Proof.
  intros [[-> H1]|(A1 & B1 & C1)] [[-> H2]|(A2 & B2 & C2)]; auto.
  - exfalso. apply (H1 r2); auto. lia.
  - exfalso. apply (H2 r1); auto. lia.
  - destruct (Z.lt_trichotomy r1 r2) as [H|[H|H]]; auto.
    + exfalso. apply (C2 r1); auto. lia.
    + exfalso. apply (C1 r2); auto. lia.
Qed.
Lemma is_last_unique P pos r1 r2 : is_last P pos r1 -> is_last P pos r2 -> r1 = r2.
Proof.
  intros [[-> H1]|(A1 & A1' & B1 & C1)] [[-> H2]|(A2 & A2' & B2 & C2)]; auto.
  - exfalso. apply (H1 r2); auto.
  - exfalso. apply (H2 r1); auto.
  - destruct (Z.lt_trichotomy r1 r2) as [H|[H|H]]; auto.
    + exfalso. apply (C1 r2); auto.
    + exfalso. apply (C2 r1); auto.
Qed.

Lemma skipn_occurs n h pos p : (pos <= length h)%nat ->
  occurs_at n (skipn pos h) p <-> 0 <= p /\ occurs_at n h (Z.of_nat pos + p).
Proof.
  intros Hpos. rewrite !occurs_at_slice. unfold zlen. rewrite skipn_length.
  assert (E : 0 <= p -> skipn (Z.to_nat (Z.of_nat pos + p)) h = skipn (Z.to_nat p) (skipn pos h)).
  { intros Hp. rewrite skipn_skipn. f_equal. lia. }
  split.
  - intros (H1 & H2 & H3). rewrite E by lia. repeat split; auto; lia.
  - intros (H0 & H1 & H2 & H3). rewrite E in H3 by lia. repeat split; auto; lia.
Qed.

Lemma occurs_occurs_at n h : occurs n h <-> exists p, occurs_at n h p.
Proof.
  split.
  - intros (a & b & H). exists (zlen a), a, b. auto.
  - intros (p & a & b & H & _). exists a, b. auto.
Qed.

Lemma find_is_first t s pos : zlen t < 2 ^ 63 ->
  is_first (occurs_at s t) (Z.of_nat pos) (pos_z (find t s pos)).
Proof.
  intros Hlen. destruct (find t s pos) as [i|] eqn:E; cbn [pos_z].
  - apply find_some in E as (a & b & Hab & -> & Hp & Hab' & Hmin). right.
    assert (Hocc : occurs_at s (skipn pos t) (zlen a)) by (exists a, b; auto).
    apply skipn_occurs in Hocc as [_ Hocc]; auto. unfold zlen in *.
    replace (Z.of_nat (pos + length a)) with (Z.of_nat pos + Z.of_nat (length a)) by lia.
    pose proof (occurs_at_bound _ _ _ Hocc). unfold zlen, npos in *. repeat split; auto; try lia.
    intros p Hpp Ho.
    assert (Hs : occurs_at s (skipn pos t) (p - Z.of_nat pos)).
    { apply skipn_occurs; auto. split; [lia|]. replace (Z.of_nat pos + (p - Z.of_nat pos)) with p by lia. auto. }
    destruct Hs as (a' & b' & Ha' & Hz). specialize (Hmin a' b' Ha'). unfold zlen in Hz. lia.
  - left. split; [reflexivity|]. intros p Hp Ho.
    pose proof (occurs_at_bound _ _ _ Ho). unfold zlen in *.
    assert (Hle : (pos <= length t)%nat) by lia.
    apply (find_none _ _ _ Hle E). apply occurs_occurs_at. exists (p - Z.of_nat pos).
    apply skipn_occurs; auto. split; [lia|].
    replace (Z.of_nat pos + (p - Z.of_nat pos)) with p by lia. auto.
Qed.

Lemma content_bound v : valid v -> zlen (content v) < 2 ^ 63.
Proof. intros H. rewrite zlen_content by auto. apply H. Qed.

Lemma sv_find_bridge t s pos : valid t -> valid s -> is_size_t pos ->
  sv_find t s pos = Ok (pos_z (find (content t) (content s) (Z.to_nat pos))).
Proof.
  intros Ht Hs Hp. destruct (sv_find_ok t s pos Ht Hs Hp) as (r & -> & Hr). f_equal.
  eapply is_first_unique; [exact Hr|].
  pose proof (find_is_first (content t) (content s) (Z.to_nat pos) (content_bound t Ht)) as H.
  unfold is_size_t in Hp. rewrite Z2Nat.id in H by lia. exact H.
Qed.

Lemma find_if_from_is_first (P : Z -> Prop) g t pos : zlen t < 2 ^ 63 ->
  (forall p, P p <-> 0 <= p < zlen t /\ g (nth (Z.to_nat p) t "000"%char) = true) ->
  is_first P (Z.of_nat pos) (pos_z (find_if_from g t pos)).
Proof.
  intros Hlen HP. unfold find_if_from, zlen in *.
  destruct (find_if g (skipn pos t)) as [i|] eqn:E; cbn [option_map pos_z].
  - apply find_if_some in E as (a & c & b & Hs & <- & Hc & Ha). right.
    assert (Hl : (length a < length (skipn pos t))%nat) by (rewrite Hs, app_length; simpl; lia).
    rewrite skipn_length in Hl. unfold npos. repeat split; try lia.
    + apply HP. split; [lia|]. rewrite Nat2Z.id.
      rewrite <- (firstn_skipn pos t), app_nth2; rewrite firstn_length; [|lia].
      replace (pos + length a - Nat.min pos (length t))%nat with (length a) by lia.
      rewrite Hs, app_nth2, Nat.sub_diag by lia. exact Hc.
    + intros p Hp Hpp. apply HP in Hpp as [_ Hpp].
      rewrite <- (firstn_skipn pos t), app_nth2 in Hpp; rewrite firstn_length in *; [|lia].
      rewrite Hs, app_nth1 in Hpp by lia. rewrite Ha in Hpp; [discriminate|]. apply nth_In. lia.
  - left. split; [reflexivity|]. intros p Hp Hpp. apply HP in Hpp as [Hb Hpp].
    rewrite (nth_skipn_le t _ pos) in Hpp by lia.
    rewrite (find_if_none g _ E) in Hpp; [discriminate|]. apply nth_In. rewrite skipn_length. lia.
Qed.

Lemma sv_find_first_of_bridge t s pos : valid t -> valid s -> is_size_t pos ->
  sv_find_first_of t s pos = Ok (pos_z (find_first_of (content t) (content s) (Z.to_nat pos))).
Proof.
  intros Ht Hs Hp. destruct (sv_find_first_of_ok t s pos Ht Hs Hp) as (r & -> & Hr). f_equal.
  eapply is_first_unique; [exact Hr|]. unfold is_size_t in Hp.
  rewrite <- (Z2Nat.id pos) at 1 by lia. apply find_if_from_is_first; [now apply content_bound|].
  intros p. apply char_in_nth.
Qed.

Lemma sv_find_first_not_of_bridge t s pos : valid t -> valid s -> is_size_t pos ->
  sv_find_first_not_of t s pos = Ok (pos_z (find_first_not_of (content t) (content s) (Z.to_nat pos))).
Proof.
  intros Ht Hs Hp. destruct (sv_find_first_not_of_ok t s pos Ht Hs Hp) as (r & -> & Hr). f_equal.
  eapply is_first_unique; [exact Hr|]. unfold is_size_t in Hp.
  rewrite <- (Z2Nat.id pos) at 1 by lia. apply find_if_from_is_first; [now apply content_bound|].
  intros p. rewrite negb_true_iff. apply char_not_in_nth.
Qed.

Lemma sv_find_last_not_of_bridge t s : valid t -> valid s ->
  sv_find_last_not_of t s npos = Ok (pos_z (find_last_not_of (content t) (content s))).
Proof.
  intros Ht Hs. destruct (sv_find_last_not_of_ok t s npos Ht Hs) as (r & -> & Hr).
  { unfold is_size_t, npos. lia. }
  f_equal. eapply is_last_unique; [exact Hr|].
  destruct (find_last_not_of (content t) (content s)) as [i|] eqn:E; cbn [pos_z].
  - apply find_last_not_of_some in E as (a & c & b & Ha & <- & Hc & Hb).
    pose proof (content_bound t Ht) as Hl. unfold zlen in Hl. rewrite Ha, app_length in Hl.
    simpl in Hl. right. unfold npos. repeat split; try lia.
    + exists a, c, b. auto.
    + intros p Hp (a' & c' & b' & Ha' & Hz & Hn). apply Hn, Hb.
      rewrite Ha in Ha'. unfold zlen in Hz.
      assert (Hlt : (length a < length a')%nat) by lia. clear - Ha' Hlt.
      revert a' Ha' Hlt; induction a as [|x a IH]; intros [|y a'] E Hl; simpl in *; try lia.
      * injection E as _ ->. apply in_or_app. right. now left.
      * injection E as _ E. apply (IH a'); auto. lia.
  - apply find_last_not_of_none in E. left. split; [reflexivity|].
    intros p _ (a & c & b & Ha & _ & Hn). apply Hn, E. rewrite Ha. apply in_or_app. right. now left.
Qed.

(** ** compare *)

Lemma compare_min : forall (s t : str),
  let n := Nat.min (length s) (length t) in
  compare s t = (if negb (compare (firstn n s) (firstn n t) =? 0)
                 then compare (firstn n s) (firstn n t)
                 else if zlen s =? zlen t then 0 else if zlen s <? zlen t then -1 else 1).
Proof.
  induction s as [|a s IH]; intros [|b t]; try reflexivity.
  unfold zlen in *. cbn [length Nat.min firstn compare].
  destruct (uc a <? uc b); [reflexivity|]. destruct (uc b <? uc a); [reflexivity|].
  rewrite IH. cbn zeta. destruct (negb _); [reflexivity|].
  repeat match goal with
         | |- context [?x =? ?y] => destruct (Z.eqb_spec x y)
         | |- context [?x <? ?y] => destruct (Z.ltb_spec x y)
         end; try reflexivity; lia.
Qed.

Lemma sv_compare_ok v x : valid v -> valid x ->
  sv_compare v x = Ok (compare (content v) (content x)).
Proof.
  intros Hv Hx. pose proof Hv as (_ & Hvl & _). pose proof Hx as (_ & Hxl & _).
  unfold sv_compare. rewrite traits_compare_ok by (auto; lia). cbn [bind].
  rewrite (compare_min (content v) (content x)). cbn zeta.
  rewrite !zlen_content, !length_content by auto.
  replace (Nat.min (Z.to_nat (v_len v)) (Z.to_nat (v_len x)))
    with (Z.to_nat (Z.min (v_len v) (v_len x))) by lia. reflexivity.
Qed.

Lemma compare_lt s t : compare s t < 0 <-> lex_lt s t.
Proof.
  revert t; induction s as [|a s IH]; intros [|b t]; simpl.
  - split; [lia|]. inversion 1.
  - split; [constructor | lia].
  - split; [lia|]. inversion 1.
  - destruct (Z.ltb_spec (uc a) (uc b)).
    + split; [|lia]. intros _. now constructor.
    + destruct (Z.ltb_spec (uc b) (uc a)).
      * split; [lia|]. inversion 1; subst; lia.
      * assert (a = b) as -> by (apply uc_inj; lia). rewrite IH. split.
        -- now constructor.
        -- inversion 1; subst; auto. lia.
Qed.

Lemma compare_opp s t : compare t s = - compare s t.
Proof.
  revert t; induction s as [|a s IH]; intros [|b t]; simpl; auto.
  destruct (Z.ltb_spec (uc a) (uc b)), (Z.ltb_spec (uc b) (uc a)); try lia; auto.
Qed.
Lemma compare_values s t : compare s t = -1 \/ compare s t = 0 \/ compare s t = 1.
Proof.
  revert t; induction s as [|a s IH]; intros [|b t]; simpl; auto.
  destruct (uc a <? uc b); auto. destruct (uc b <? uc a); auto.
Qed.

Lemma lex_lt_irrefl s : ~ lex_lt s s.
Proof. induction s; inversion 1; subst; auto. lia. Qed.
Lemma lex_lt_trans r s t : lex_lt r s -> lex_lt s t -> lex_lt r t.
Proof.
  intros H; revert t; induction H as [c s | a b r s Hab | c r s H IH]; intros t Ht;
    inversion Ht; subst.
  - constructor.
  - constructor.
  - constructor. lia.
  - now constructor.
  - now constructor.
  - apply lex_tail. auto.
Qed.
Lemma lex_lt_total s t : lex_lt s t \/ s = t \/ lex_lt t s.
Proof.
  rewrite <- !compare_lt, <- compare_eq, (compare_opp s t). pose proof (compare_values s t). lia.
Qed.

(** ** substr and other members *)

Lemma slice_content v pos n : valid v -> 0 <= pos -> 0 <= n -> pos + n <= v_len v ->
  let v' := View (v_mem v) (v_off v + pos) n in
  valid v' /\ content v' = firstn (Z.to_nat n) (skipn (Z.to_nat pos) (content v)).
Proof.
  intros (H1 & H2 & H3) Hp Hn Hl. unfold valid, content. cbn [v_mem v_off v_len]. split.
  - repeat split; lia.
  - rewrite skipn_firstn_comm, firstn_firstn, skipn_skipn.
    replace (Nat.min (Z.to_nat n) (Z.to_nat (v_len v) - Z.to_nat pos)) with (Z.to_nat n) by lia.
    f_equal. f_equal. lia.
Qed.

Lemma sv_substr_ok v pos n : valid v -> is_size_t pos -> is_size_t n ->
  (n = npos \/ pos + n < 2 ^ 64) -> pos <= v_len v ->
  exists v', sv_substr v pos n = Ok v' /\ valid v' /\
    v_len v' = Z.min n (v_len v - pos) /\
    content v' = firstn (Z.to_nat (Z.min n (v_len v - pos))) (skipn (Z.to_nat pos) (content v)).
Proof.
  intros Hv Hp Hn Hw Hle. pose proof Hv as (_ & Hvl & _). unfold sv_substr, is_size_t in *.
  destruct (Z.ltb_spec (v_len v) pos); [lia|].
  assert (E : (if (n =? npos) || (v_len v <? w64 (pos + n)) then w64 (v_len v - pos) else n)
              = Z.min n (v_len v - pos)).
  { rewrite (w64_small (v_len v - pos)) by lia. unfold npos in *.
    destruct (Z.eqb_spec n (2 ^ 64 - 1)); simpl; [lia|].
    rewrite w64_small by lia. destruct (Z.ltb_spec (v_len v) (pos + n)); lia. }
  rewrite E. eexists. split; [reflexivity|].
  destruct (slice_content v pos (Z.min n (v_len v - pos)) Hv) as [Hv' Hc]; try lia.
  repeat split; auto; apply Hv'.
Qed.

Lemma sv_substr_wraps v pos n : valid v -> is_size_t pos -> is_size_t n ->
  pos <= v_len v -> n <> npos -> 2 ^ 64 <= pos + n ->
  exists v', sv_substr v pos n = Ok v' /\ v_len v' = n /\ v_len v - pos < n /\ ~ valid v'.
Proof.
  intros Hv Hp Hn Hle Hnn Hw. pose proof Hv as (_ & Hvl & _). unfold sv_substr, is_size_t in *.
  destruct (Z.ltb_spec (v_len v) pos); [lia|].
  destruct (Z.eqb_spec n npos); [contradiction|]. simpl.
  assert (E : w64 (pos + n) = pos + n - 2 ^ 64).
  { unfold w64. symmetry. apply (Z.mod_unique _ _ 1); lia. }
  rewrite E. destruct (Z.ltb_spec (v_len v) (pos + n - 2 ^ 64)); [lia|].
  eexists. split; [reflexivity|]. cbn [v_len]. repeat split; try lia.
  unfold valid. cbn [v_len]. lia.
Qed.

Lemma sv_remove_prefix_ok v n : valid v -> is_size_t n ->
  valid (sv_remove_prefix v n) /\ content (sv_remove_prefix v n) = skipn (Z.to_nat n) (content v).
Proof.
  intros Hv Hn. pose proof Hv as (_ & Hvl & _). unfold sv_remove_prefix, is_size_t in *.
  destruct (Z.ltb_spec (v_len v) n).
  - replace (w64 (v_len v - v_len v)) with 0 by (rewrite Z.sub_diag; reflexivity).
    destruct (slice_content v (v_len v) 0 Hv) as [Hv' Hc]; try lia. split; auto.
    rewrite Hc. simpl. symmetry. apply skipn_all2. rewrite length_content by auto. lia.
  - rewrite w64_small by lia.
    destruct (slice_content v n (v_len v - n) Hv) as [Hv' Hc]; try lia. split; auto.
    rewrite Hc. apply firstn_all2. rewrite skipn_length, length_content by auto. lia.
Qed.

Lemma sv_remove_suffix_ok v n : valid v -> is_size_t n ->
  valid (sv_remove_suffix v n) /\
  content (sv_remove_suffix v n) = firstn (length (content v) - Z.to_nat n) (content v).
Proof.
  intros Hv Hn. pose proof Hv as (_ & Hvl & _). unfold sv_remove_suffix, is_size_t in *.
  set (m := if v_len v <? n then v_len v else n).
  assert (Hm : 0 <= m <= v_len v /\ v_len v - m = Z.max 0 (v_len v - n)).
  { unfold m. destruct (Z.ltb_spec (v_len v) n); lia. }
  rewrite w64_small by lia.
  destruct (slice_content v 0 (v_len v - m) Hv) as [Hv' Hc]; try lia.
  rewrite Z.add_0_r in Hv', Hc. split; auto. rewrite Hc. simpl.
  f_equal. rewrite length_content by auto. lia.
Qed.

Lemma sv_copy_ok v n pos : valid v -> is_size_t n -> is_size_t pos ->
  sv_copy v n pos = if v_len v <? pos then Throw OutOfRange
                    else Ok (firstn (Z.to_nat n) (skipn (Z.to_nat pos) (content v))).
Proof.
  intros Hv Hn Hp. pose proof Hv as (_ & Hvl & _). unfold sv_copy, is_size_t in *.
  destruct (Z.ltb_spec (v_len v) pos); [reflexivity|].
  rewrite w64_small by lia. rewrite rd_range_ok by (auto; lia). f_equal.
  destruct (Z.min_spec n (v_len v - pos)) as [[? ->]|[? ->]]; [reflexivity|].
  rewrite !firstn_all2; auto; rewrite skipn_length, length_content by auto; lia.
Qed.

Lemma sv_at_ok v pos : valid v -> is_size_t pos ->
  sv_at v pos = match nth_error (content v) (Z.to_nat pos) with
                | Some c => Ok c
                | None => Throw OutOfRange
                end.
Proof.
  intros Hv Hp. unfold sv_at, is_size_t in *. destruct (Z.leb_spec (v_len v) pos).
  - replace (nth_error (content v) (Z.to_nat pos)) with (@None ascii); [reflexivity|].
    symmetry. apply nth_error_None. rewrite length_content by auto. lia.
  - rewrite rd_ok by (auto; lia).
    rewrite (nth_error_nth' (content v) "000"%char); [reflexivity|].
    rewrite length_content by auto. lia.
Qed.

Lemma sv_front_back_ok v : valid v -> 0 < v_len v ->
  exists c s s' d, content v = c :: s /\ sv_front v = Ok c /\
                   content v = s' ++ [d] /\ sv_back v = Ok d.
Proof.
  intros Hv H0. pose proof Hv as (_ & Hvl & _).
  pose proof (length_content v Hv) as Hl. unfold sv_front, sv_back.
  rewrite w64_small by lia. rewrite !rd_ok by (auto; lia).
  destruct (content v) as [|c s] eqn:E; [simpl in Hl; lia|].
  destruct (exists_last (l := c :: s)) as (s' & d & Hd); [discriminate|].
  exists c, s, s', d. repeat split; auto. f_equal. rewrite Hd.
  assert (length s' + 1 = Z.to_nat (v_len v))%nat.
  { rewrite <- Hl, Hd, app_length. simpl. lia. }
  replace (Z.to_nat (v_len v - 1)) with (length s') by lia.
  rewrite app_nth2, Nat.sub_diag by lia. reflexivity.
Qed.

Lemma traits_length_ok s rest : ~ In "000"%char s -> forall k,
  traits_length (s ++ "000"%char :: rest) k = Ok (k + zlen s).
Proof.
  unfold zlen. intros H; induction s as [|c s IH]; intros k; simpl.
  - f_equal. lia.
  - unfold ch_eq. destruct (Ascii.eqb_spec c "000"%char) as [->|Hc].
    + exfalso. apply H. now left.
    + rewrite IH; [f_equal; lia|]. intros Hin. apply H. now right.
Qed.

(** ** operator<< *)

Lemma fill_loop_ok : forall fuel os n, 0 <= n < 2 ^ 64 -> (Z.to_nat n < fuel)%nat ->
  exists k m, sv_insert_fill_loop fuel os n
    = Ok (OStream (os_width os) (os_fill os) (os_left os)
                  (os_out os ++ List.repeat (os_fill os) k), m) /\
    0 <= m < 8 /\ Z.of_nat k + m = n.
Proof.
  induction fuel as [|fuel IH]; intros os n Hn Hf; [lia|]. cbn [sv_insert_fill_loop].
  destruct (Z.leb_spec 8 n).
  - rewrite w64_small by lia.
    destruct (IH (os_write os (List.repeat (os_fill os) 8)) (n - 8)) as (k & m & -> & Hm & Hk); try lia.
    exists (8 + k)%nat, m. split; [|lia]. cbn [os_write os_width os_fill os_left os_out].
    rewrite <- app_assoc, <- repeat_app. reflexivity.
  - exists O, n. split; [|lia]. simpl. rewrite app_nil_r. now destruct os.
Qed.

Lemma firstn_repeat_le {A} (x : A) m n : (m <= n)%nat ->
  firstn m (List.repeat x n) = List.repeat x m.
Proof.
  revert n; induction m as [|m IH]; intros [|n] H; simpl; auto; try lia. f_equal. apply IH. lia.
Qed.

Lemma sv_insert_fill_ok os n : 0 <= n < 2 ^ 64 ->
  sv_insert_fill_chars os n
  = Ok (OStream (os_width os) (os_fill os) (os_left os)
          (os_out os ++ List.repeat (os_fill os) (Z.to_nat n))).
Proof.
  intros Hn. unfold sv_insert_fill_chars.
  destruct (fill_loop_ok (S (Z.to_nat n)) os n Hn) as (k & m & -> & Hm & Hk); [lia|].
  cbn [bind]. destruct (Z.ltb_spec 0 m).
  - cbn [os_write os_width os_fill os_left os_out]. rewrite firstn_repeat_le by lia.
    unfold os_write. cbn [os_width os_fill os_left os_out].
    rewrite <- app_assoc, <- repeat_app. replace (k + Z.to_nat m)%nat with (Z.to_nat n) by lia.
    reflexivity.
  - replace k with (Z.to_nat n) by lia. reflexivity.
Qed.

Lemma sv_insert_ok os v : valid v -> 0 <= os_width os < 2 ^ 63 ->
  sv_insert os v
  = let pad := List.repeat (os_fill os) (Z.to_nat (os_width os) - length (content v)) in
    Ok (OStream 0 (os_fill os) (os_left os)
          (os_out os ++ if os_left os then content v ++ pad else pad ++ content v)).
Proof.
  intros Hv Hw. pose proof Hv as (_ & Hvl & _). unfold sv_insert.
  rewrite length_content by auto. cbn zeta.
  destruct (Z.leb_spec (os_width os) (v_len v)).
  - rewrite sv_to_string_ok by auto. unfold os_write. cbn [bind os_width os_fill os_left os_out].
    replace (Z.to_nat (os_width os) - Z.to_nat (v_len v))%nat with O by lia. simpl.
    rewrite app_nil_r. now destruct (os_left os).
  - unfold sv_insert_aligned. rewrite sv_to_string_ok by auto. cbn [bind].
    rewrite w64_small by lia.
    replace (Z.to_nat (os_width os) - Z.to_nat (v_len v))%nat
      with (Z.to_nat (os_width os - v_len v)) by lia.
    destruct (os_left os) eqn:El; cbn [negb].
    + rewrite sv_insert_fill_ok by lia. unfold os_write. cbn [bind os_width os_fill os_left os_out].
      rewrite El, <- app_assoc. reflexivity.
    + rewrite sv_insert_fill_ok by lia. unfold os_write. cbn [bind os_width os_fill os_left os_out].
      rewrite El, <- app_assoc. reflexivity.
Qed.

Lemma sv_operators_ok x y : valid x -> valid y ->
  exists eq ne lt gt le ge,
  sv_eq x y = Ok eq /\ sv_ne x y = Ok ne /\ sv_lt x y = Ok lt /\ sv_gt x y = Ok gt /\
  sv_le x y = Ok le /\ sv_ge x y = Ok ge /\
  (eq = true <-> content x = content y) /\ (ne = true <-> content x <> content y) /\
  (lt = true <-> lex_lt (content x) (content y)) /\
  (gt = true <-> lex_lt (content y) (content x)) /\
  (le = true <-> lex_lt (content x) (content y) \/ content x = content y) /\
  (ge = true <-> lex_lt (content y) (content x) \/ content x = content y).
Proof.
  intros Hx Hy. unfold sv_eq, sv_ne, sv_lt, sv_gt, sv_le, sv_ge.
  rewrite sv_compare_ok by auto. cbn [bind].
  set (c := compare (content x) (content y)).
  assert (Hlen : v_len x <> v_len y -> content x <> content y).
  { intros Hne E. rewrite <- (zlen_content x), <- (zlen_content y), E in Hne by auto. auto. }
  assert (Heq : c = 0 <-> content x = content y) by apply compare_eq.
  assert (Hlt : c < 0 <-> lex_lt (content x) (content y)) by apply compare_lt.
  assert (Hgt : 0 < c <-> lex_lt (content y) (content x)).
  { rewrite <- (compare_lt (content y)), (compare_opp (content x) (content y)). subst c. lia. }
  exists (if negb (v_len x =? v_len y) then false else c =? 0),
         (if negb (v_len x =? v_len y) then true else negb (c =? 0)),
         (c <? 0), (0 <? c), (c <=? 0), (0 <=? c).
  rewrite <- Hlt, <- Hgt, <- Heq, !Z.ltb_lt, !Z.leb_le.
  destruct (Z.eqb_spec (v_len x) (v_len y)) as [E|E]; cbn [negb].
  - rewrite negb_true_iff, Z.eqb_neq, Z.eqb_eq. repeat split; auto; lia.
  - specialize (Hlen E). rewrite <- Heq in Hlen. repeat split; auto; try lia; try discriminate.
Qed.
