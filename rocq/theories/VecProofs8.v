(** Every call has the effect given in the specification. *)
From Verif Require Import Base VecModel VecProofs VecProofs2 VecProofs3 VecProofs4 VecProofs5 VecProofs6 VecProofs7 VecSpec.
From Coq Require Import PeanoNat.

Section Vec.
Context {A : Type} (d : A) (mv : A -> A) (nothrow_move copyable : bool) (N M : nat).
Notation state := (@state A).
Notation comp := (@comp A).
Notation cell := (@cell A).
Notation Live := (@Live A).
Notation Raw := (@Raw A).
Notation blk := (@blk A).
Notation upd := (@upd A).
Notation with_bud := (@with_bud A).
Notation lives := (map Live).
Notation raws := (repeat Raw).
Notation reserve := (reserve mv nothrow_move copyable).
Notation grow := (grow mv nothrow_move copyable M).
Notation push_back := (push_back mv nothrow_move copyable M).
Notation Own := (Own (A := A) N M).
Notation FR := (FR (A := A)).
Notation Exc := (Exc (A := A) nothrow_move copyable N M).
Implicit Types s : state.
Implicit Types l : list A.

Ltac openO H := destruct H as (Ho & Hs & Hl & Hm & Hk & Hb & Hd).
Notation Post := (Post (A := A) N M).
Notation ok m s Q := (sat m s Q (fun _ _ => False)).

Notation WF := (WF (A := A) N M).
Notation world := (@world A).
Notation exec := (exec d N M mv nothrow_move copyable).
Notation meaning := (meaning d N M).

Definition WFc s (w : world) : Prop :=
  WF s (map fst w) /\
  forall i l c, nth_error w i = Some (l, c) -> exists v, nth_error (objs s) i = Some v /\ cap v = c.
Lemma WFc_own s w i l c : WFc s w -> nth_error w i = Some (l, c) -> exists v, Own s i v l /\ cap v = c.
Proof.
  intros [H1 H2] Hi. destruct (H2 i l c Hi) as (v & Hv & Hc). exists v. split; [|exact Hc].
  destruct (WF_nth N M s _ i v H1 Hv) as (l' & O & Hl'). rewrite nth_error_map, Hi in Hl'. cbn in Hl'. injection Hl' as <-. exact O.
Qed.
Lemma put_set (w : world) i x y : nth_error w i = Some y -> put w i x = set_nth w i x.
Proof.
  unfold put. revert i. induction w as [|a w IH]; intros [|i] H; try discriminate H; [reflexivity|].
  cbn in H |- *. f_equal. apply (IH i H).
Qed.
Lemma map_set_nth {S T} (f : S -> T) (l : list S) i x : map f (set_nth l i x) = set_nth (map f l) i (f x).
Proof. revert i. induction l as [|a l IH]; intros [|i]; cbn; try reflexivity. f_equal. apply IH. Qed.
Lemma WFc_step1 s w i s' v' l' c' : WFc s w -> FR i s s' -> Own s' i v' l' -> cap v' = c' -> WFc s' (set_nth w i (l', c')).
Proof.
  intros [H1 H2] HF O Hc. split.
  - rewrite map_set_nth. cbn [fst]. eapply WF_step1; eassumption.
  - intros k l c Hk. rewrite nth_set_nth in Hk. destruct (Nat.eqb_spec i k) as [<-|Hne]; cbn [andb] in Hk.
    + destruct (Nat.ltb_spec i (length w)) as [L|L].
      * injection Hk as <- <-. exists v'. split; [apply O|exact Hc].
      * apply nth_error_None in L. congruence.
    + destruct (H2 k l c Hk) as (v & Hv & Hcv). exists v. split; [|exact Hcv].
      destruct HF as (_ & _ & Fo & _). rewrite Fo by auto. exact Hv.
Qed.
(** Two vectors *)
Lemma WFc_step2 s w i j li ci lj cj s' vi' vj' :
  WF s' (set_nth (set_nth (map fst w) i li) j lj) -> i <> j -> WFc s w ->
  nth_error (objs s') i = Some vi' -> cap vi' = ci -> nth_error (objs s') j = Some vj' -> cap vj' = cj ->
  (forall k, k <> i -> k <> j -> nth_error (objs s') k = nth_error (objs s) k) ->
  WFc s' (set_nth (set_nth w i (li, ci)) j (lj, cj)).
Proof.
  intros HW Hij [_ H2] Hi Ci Hj Cj Fo. split; [rewrite !map_set_nth; exact HW|].
  intros k l c Hk. rewrite !nth_set_nth, len_set_nth in Hk.
  destruct (Nat.eqb_spec j k) as [<-|Nj]; cbn [andb] in Hk.
  - destruct (Nat.ltb_spec j (length w)) as [L|L]; [injection Hk as <- <-; eauto|].
    destruct (Nat.eqb_spec i j); [congruence|]. cbn [andb] in Hk. apply nth_error_None in L. congruence.
  - destruct (Nat.eqb_spec i k) as [<-|Ni]; cbn [andb] in Hk.
    + destruct (Nat.ltb_spec i (length w)) as [L|L]; [injection Hk as <- <-; eauto|]. apply nth_error_None in L. congruence.
    + destruct (H2 k l c Hk) as (v & Hv & Hcv). exists v. rewrite Fo by auto. auto.
Qed.

(** The memory of a vector stays in place: data pointers before and after *)
Definition kept s s' (i : nat) : Prop :=
  forall v v', nth_error (objs s) i = Some v -> nth_error (objs s') i = Some v' -> data v' = data v.
(** What every call does: [w'], [r] as specified; the other vectors are not moved, and vector i
    only if its new capacity is different *)
Definition same_cap s s' (i : nat) : Prop :=
  forall v v', nth_error (objs s) i = Some v -> nth_error (objs s') i = Some v' -> cap v' = cap v -> data v' = data v.
Definition done1 (st : bool) (i : nat) s (w' : world) (r : nat) : nat -> state -> Prop := fun r' s' =>
  r' = r /\ WFc s' w' /\ bud s' = None /\ (forall k, k <> i -> kept s s' k) /\ (st = true -> same_cap s s' i).
Lemma FR_kept i s s' k : FR i s s' -> k <> i -> kept s s' k.
Proof. intros (_ & _ & Fo & _) Hk v v' H1 H2. rewrite Fo in H2 by assumption. congruence. Qed.
Lemma done1_intro st s w i s' v v' v0 l0 l' c' r : bud s = None -> WFc s w -> nth_error w i = Some v -> FR i s s' -> Own s' i v' l' -> cap v' = c' ->
  Own s i v0 l0 -> (st = true -> cap v' = cap v0 -> data v' = data v0) ->
  done1 st i s (put w i (l', c')) r r s'.
Proof.
  intros Hb H1 Hi HF O Hc O0 Hst. split; [reflexivity|]. split; [erewrite put_set by exact Hi; eapply WFc_step1; eassumption|].
  split; [apply HF; exact Hb|]. split; [intros k Hk; eapply FR_kept; eassumption|].
  intros E va va' Ha Ha' HC. destruct O as (Ha1 & _). destruct O0 as (Ha0 & _).
  assert (va = v0) by congruence. assert (va' = v') by congruence. subst. auto.
Qed.
Lemma Keep_same s i l v v' n : Own s i v' l -> Keep v v' n -> (n <= length l)%nat -> cap v' = cap v -> data v' = data v.
Proof. intros (_ & _ & Hl & _) [_ K] Hn E. apply K. lia. Qed.
Lemma ok_ret {X} (m : comp X) s (Q : nat -> state -> Prop) r :
  ok m s (fun _ s' => Q r s') -> ok (bindc m (fun _ => ret r)) s Q.
Proof. intros H. apply sat_bind. eapply sat_conseq; [exact H| |auto]. intros x s' HQ. apply sat_ret. exact HQ. Qed.
Lemma bind_assoc {X Y Z} (m : comp X) (f : X -> comp Y) (g : Y -> comp Z) s :
  bindc m (fun x => bindc (f x) g) s = bindc (bindc m f) g s.
Proof. unfold bindc. destruct (m s); reflexivity. Qed.
Lemma ok_assoc {X Y Z} (m : comp X) (f : X -> comp Y) (g : Y -> comp Z) s (Q : Z -> state -> Prop) :
  ok (bindc (bindc m f) g) s Q -> ok (bindc m (fun x => bindc (f x) g)) s Q.
Proof. unfold sat. rewrite bind_assoc. auto. Qed.
Lemma firstn_app_len {T} (a b : list T) : firstn (length a) (a ++ b) = a.
Proof. rewrite firstn_app, Nat.sub_diag, firstn_all, app_nil_r. reflexivity. Qed.

Lemma skipn_app_S {T} (a b : list T) y : skipn (S (length a)) (a ++ y :: b) = b.
Proof. induction a; [reflexivity|exact IHa]. Qed.
Lemma cut {T} (l : list T) pos : (pos <= length l)%nat -> l = firstn pos l ++ skipn pos l /\ pos = length (firstn pos l).
Proof. intros H. rewrite firstn_skipn, firstn_length. split; [reflexivity|lia]. Qed.

Notation single i op := (match op with
  | PushBack k _ _ | PopBack k | Write k _ _ | Insert k _ _ _ | Emplace k _ _ | InsertN k _ _ _ | InsertRange k _ _ | Erase k _ _
  | Resize k _ | ResizeWith k _ _ | AssignN k _ _ | AssignRange k _ | AssignInit k _ | Clear k | Reserve k _ | ShrinkToFit k
  | NewDefault k | NewN k _ | NewFilled k _ _ | NewRange k _ => k = i
  | CopyAssign a _ | NewCopy a _ => a = i
  | _ => False end).
Lemma on_inv (w w' : world) i f r : on w i f = Some (w', r) ->
  exists l c l' c', nth_error w i = Some (l, c) /\ f l c = Some (l', c', r) /\ w' = put w i (l', c').
Proof.
  unfold on. destruct (nth_error w i) as [[l c]|]; [|discriminate].
  destruct (f l c) as [[[l' c'] r']|] eqn:E; [|discriminate]. intros H. injection H as <- <-. exists l, c, l', c'. auto.
Qed.
Lemma check_inv {X Y Z} b (x1 y1 : X) (x2 y2 : Y) (x3 y3 : Z) :
  check b (x1, x2, x3) = Some (y1, y2, y3) -> b = true /\ x1 = y1 /\ x2 = y2 /\ x3 = y3.
Proof. unfold check. destruct b; [|discriminate]. intros H. injection H as <- <- <-. auto. Qed.
Ltac exc := intros ? ? (? & _); contradiction.
Ltac inv_on H l c Hi := apply on_inv in H; destruct H as (l & c & l' & c' & Hi & H & ->).
Ltac inv_check H := apply check_inv in H; destruct H as (Hck & <- & <- & <-).
Ltac keep_cap K := let Hk := fresh in destruct K as [Hk _]; lia.

Ltac lenlia := rewrite ?app_length in *; cbn [length] in *; rewrite ?app_length, ?repeat_length in *; lia.
Ltac stab := let E := fresh in let HC := fresh in intros E HC; cbn [cap data in_place] in *;
  first [discriminate E | reflexivity
  | match goal with K : Keep ?v ?v' ?n, O : VecProofs2.Own _ _ _ _ ?v' _ |- _ => eapply Keep_same; [exact O|exact K| |exact HC]; lenlia end
  | match goal with K : _ -> data ?v' = data ?v |- _ => apply K; lenlia end
  | match goal with K : cap ?v' = cap ?v -> ?s' = ?s, O : VecProofs2.Own _ _ ?s' _ ?v' _, O2 : VecProofs2.Own _ _ ?s _ ?v _ |- _ =>
      specialize (K HC); subst s'; destruct O as (? & _); destruct O2 as (? & _); congruence end ].
Ltac fin := eapply done1_intro; eauto; try solve [stab].

Theorem exec_single s w w' op i r : WFc s w -> bud s = None -> (N <= M)%nat -> single i op ->
  meaning w op = Some (w', r) -> ok (exec op) s (done1 (in_place op) i s w' r).
Proof.
  intros HW Hbu HNM Hs H. destruct op; try contradiction Hs; try subst i0; cbn [VecSpec.meaning VecSpec.exec] in *.
  - (* push_back *) inv_on H l c Hi. inv_check H. apply Nat.ltb_lt in Hck. destruct (WFc_own _ _ _ _ _ HW Hi) as (v & O & <-).
    apply ok_ret. eapply push_back_sat; try exact d; [exact O|exact Hck| |exc].
    intros s' v' O' F K C. fin.
  - (* pop_back *) inv_on H l c Hi. inv_check H. apply Nat.ltb_lt in Hck. destruct (WFc_own _ _ _ _ _ HW Hi) as (v & O & <-).
    apply ok_ret. destruct l as [|x l _] using rev_ind; [cbn in Hck; lia|]. rewrite removelast_last.
    eapply pop_back_sat; [exact O|]. intros s' O' F. fin.
  - (* write *) inv_on H l c Hi. inv_check H. apply Nat.ltb_lt in Hck. destruct (WFc_own _ _ _ _ _ HW Hi) as (v & O & <-).
    apply ok_ret. unfold write. eapply sat_getv; [apply O|]. apply sat_bind. eapply sat_eq; [apply tick_none; exact Hbu|].
    destruct (nth_error l k) as [y|] eqn:Ey; [|apply nth_error_None in Ey; lia].
    destruct (nth_error_split l k Ey) as (l1 & l2 & -> & <-).
    rewrite firstn_app_len, skipn_app_S.
    pose proof O as O0. destruct O as (Ho & Hsz & Hl & Hm & Hk & Hb & Hd).
    eapply sat_eq; [apply poke_eq with (pre := lives l1) (x := y) (post := lives l2 ++ raws (cap v - length (l1 ++ y :: l2)))|].
    { rewrite Hb, map_app, <- app_assoc. reflexivity. } { rewrite len_lives. reflexivity. }
    assert (E : length (l1 ++ [x] ++ l2) = length (l1 ++ y :: l2)) by (rewrite !app_length; reflexivity).
    destruct (own_step N M s i v _ (l1 ++ [x] ++ l2) (bud s) O0) as [O2 F2]; [lia|apply later_refl|].
    assert (Hst : upd s (data v) (lives l1 ++ Live x :: lives l2 ++ raws (cap v - length (l1 ++ y :: l2))) = final s i v (l1 ++ [x] ++ l2) (bud s)).
    { unfold final, VecModel.upd. rewrite E. rewrite (set_same (objs s)) by (rewrite Ho, <- Hsz; destruct v; reflexivity).
      f_equal. f_equal. f_equal. rewrite !map_app, <- !app_assoc. reflexivity. }
    rewrite Hst. eapply done1_intro; [assumption|exact HW|exact Hi|exact F2|exact O2|reflexivity|exact O0|stab].
  - (* insert *) inv_on H l c Hi. inv_check H. apply andb_true_iff in Hck. destruct Hck as [Hp Hck].
    apply Nat.leb_le in Hp. apply Nat.ltb_lt in Hck. destruct (WFc_own _ _ _ _ _ HW Hi) as (v & O & <-).
    destruct (cut l pos Hp) as [E1 E2]. set (l1 := firstn pos l) in *. set (l2 := skipn pos l) in *. clearbody l1 l2. subst pos l.
    eapply insert_single_sat; try exact d; [exact O|exact Hbu|exact Hck|].
    intros s' v' O' F K C. fin.
  - (* emplace *) inv_on H l c Hi. inv_check H. apply andb_true_iff in Hck. destruct Hck as [Hp Hck].
    apply Nat.leb_le in Hp. apply Nat.ltb_lt in Hck. destruct (WFc_own _ _ _ _ _ HW Hi) as (v & O & <-).
    destruct (cut l pos Hp) as [E1 E2]. set (l1 := firstn pos l) in *. set (l2 := skipn pos l) in *. clearbody l1 l2. subst pos l.
    eapply emplace_sat; try exact d; [exact O|exact Hbu|exact Hck|].
    intros s' v' O' F K C. fin.
  - (* insert n *) inv_on H l c Hi. inv_check H. apply andb_true_iff in Hck. destruct Hck as [Hp Hck].
    apply Nat.leb_le in Hp. apply Nat.leb_le in Hck. destruct (WFc_own _ _ _ _ _ HW Hi) as (v & O & <-).
    destruct (cut l pos Hp) as [E1 E2]. set (l1 := firstn pos l) in *. set (l2 := skipn pos l) in *. clearbody l1 l2. subst pos l.
    eapply insert_value_sat; try exact d; [exact O|exact Hbu|exact Hck|].
    intros s' v' O' F K C. fin.
  - (* insert range *) inv_on H l c Hi. inv_check H. apply andb_true_iff in Hck. destruct Hck as [Hp Hck].
    apply Nat.leb_le in Hp. apply Nat.leb_le in Hck. destruct (WFc_own _ _ _ _ _ HW Hi) as (v & O & <-).
    destruct (cut l pos Hp) as [E1 E2]. set (l1 := firstn pos l) in *. set (l2 := skipn pos l) in *. clearbody l1 l2. subst pos l.
    eapply insert_range_sat; try exact d; [exact O|exact Hbu|exact Hck|].
    intros s' v' O' F K C. fin.
  - (* erase *) inv_on H l c Hi. inv_check H. apply Nat.leb_le in Hck. destruct (WFc_own _ _ _ _ _ HW Hi) as (v & O & <-).
    destruct (cut l (pos + n) Hck) as [E1 E2]. destruct (cut (firstn (pos + n) l) pos) as [E3 E4]; [rewrite firstn_length; lia|].
    rewrite firstn_firstn in E3, E4. replace (Nat.min pos (pos + n)) with pos in * by lia.
    assert (E5 : n = length (skipn pos (firstn (pos + n) l))) by (rewrite skipn_length, firstn_length; lia).
    set (l1 := firstn pos l) in *. set (l2 := skipn pos (firstn (pos + n) l)) in *. set (l3 := skipn (pos + n) l) in *.
    clearbody l1 l2 l3. rewrite E3, <- app_assoc in E1. rewrite E1 in O. rewrite E4, E5. clear E3 E2.
    eapply erase_sat; [exact O|exact Hbu|].
    intros s' O' F. fin.
  - (* resize *) inv_on H l c Hi. inv_check H. apply Nat.leb_le in Hck. destruct (WFc_own _ _ _ _ _ HW Hi) as (v & O & <-).
    apply ok_ret. eapply resize_sat; [exact O|exact Hck| |exc].
    intros s' v' O' F C K. fin.
  - (* resize with *) inv_on H l c Hi. inv_check H. apply Nat.leb_le in Hck. destruct (WFc_own _ _ _ _ _ HW Hi) as (v & O & <-).
    apply ok_ret. eapply resize_value_sat; try exact d; [exact O|exact Hck|exact Hbu|].
    intros s' v' O' F C K. fin.
  - (* assign n *) inv_on H l c Hi. inv_check H. apply Nat.leb_le in Hck. destruct (WFc_own _ _ _ _ _ HW Hi) as (v & O & <-).
    apply ok_ret. unfold assign_value. apply sat_bind. eapply clear_sat; [exact O|]. intros s1 O1 F1 B1.
    eapply fill_value_sat; try exact d; [exact O1|exact Hck|congruence|].
    intros s' v' O' F C K. fin. eapply FR_trans; eassumption.
  - (* assign range *) inv_on H l c Hi. inv_check H. apply Nat.leb_le in Hck. destruct (WFc_own _ _ _ _ _ HW Hi) as (v & O & <-).
    apply ok_ret. unfold assign_range. apply sat_bind. eapply clear_sat; [exact O|]. intros s1 O1 F1 B1.
    eapply fill_range_sat; try exact d; [exact O1|exact Hck| |].
    + intros s' v' O' F C K. fin. eapply FR_trans; eassumption.
    + intros ? ? (Z & _). congruence.
  - (* assign init *) inv_on H l c Hi. inv_check H. apply Nat.leb_le in Hck. destruct (WFc_own _ _ _ _ _ HW Hi) as (v & O & <-).
    apply ok_ret. change (ok (assign_range mv nothrow_move copyable M i xs) s (fun (_ : unit) s' => done1 true i s (put w i (xs, Nat.max (cap v) (length xs))) 0 0 s')).
    unfold assign_range. apply sat_bind. eapply clear_sat; [exact O|]. intros s1 O1 F1 B1.
    eapply fill_range_sat; try exact d; [exact O1|exact Hck| |].
    + intros s' v' O' F C K. fin. eapply FR_trans; eassumption.
    + intros ? ? (Z & _). congruence.
  - (* clear *) inv_on H l c Hi. injection H as <- <- <-. destruct (WFc_own _ _ _ _ _ HW Hi) as (v & O & <-).
    apply ok_ret. eapply clear_sat; [exact O|]. intros s1 O1 F1 B1. fin.
  - (* reserve *) inv_on H l c Hi. inv_check H. apply Nat.leb_le in Hck. destruct (WFc_own _ _ _ _ _ HW Hi) as (v & O & <-).
    apply ok_ret. eapply sat_conseq; [eapply reserve_ok; try exact d; [exact O|exact Hck]| |].
    + intros _ s' (v' & O' & F & C & K). fin.
    + exc.
  - (* shrink_to_fit *) inv_on H l c Hi. injection H as <- <- <-. destruct (WFc_own _ _ _ _ _ HW Hi) as (v & O & <-).
    apply ok_ret. eapply shrink_to_fit_sat; try exact d; [exact O|exact HNM| |exc].
    intros s' v' O' F C K. fin.
  - (* copy assignment *)
    destruct (nth_error w j) as [[xs cj]|] eqn:Hj; [|discriminate H].
    destruct (Nat.eqb_spec i j) as [<-|Hij].
    { injection H as <- <-. apply ok_ret. unfold assign_copy. rewrite Nat.eqb_refl. apply sat_ret.
      split; [reflexivity|]. split; [assumption|]. split; [assumption|]. split; [intros k _ v v' H1 H2; congruence|intros _ v v' H1 H2 _; congruence]. }
    inv_on H l c Hi. injection H as <- <- <-. destruct (WFc_own _ _ _ _ _ HW Hi) as (v & O & <-).
    destruct (WFc_own _ _ _ _ _ HW Hj) as (vj & Oj & <-).
    assert (Hdd : data v <> data vj) by (eapply WF_data_neq; [exact (proj1 HW)|exact Hij|apply O|apply Oj]).
    apply ok_ret. unfold assign_copy. destruct (Nat.eqb_spec j i); [congruence|]. apply sat_bind.
    eapply clear_sat; [exact O|]. intros s1 O1 F1 B1.
    assert (Oj1 : Own s1 j vj xs) by (eapply Own_frame; [exact O|exact Oj|exact F1|exact Hij|exact Hdd]).
    assert (Hsz : size vj = length xs) by apply Oj. assert (Hlm : (length xs <= M)%nat) by (destruct Oj as (_ & _ & Z1 & Z2 & _); lia).
    eapply sat_getv; [apply Oj1|]. rewrite Hsz. apply sat_bind.
    eapply (reserve_keep d); [exact O1|exact Hlm| |intros ? ? (Z & _); congruence].
    intros s2 v2 O2 F2 C1 C2 C3 C4. cbn [cap data] in *.
    assert (Oj2 : Own s2 j vj xs) by (eapply Own_frame; [exact O1|exact Oj1|exact F2|exact Hij|exact Hdd]).
    assert (B2 : bud s2 = None) by (apply F2; congruence).
    assert (Hdd2 : data vj <> data v2).
    { assert (W1 : WFc s1 (set_nth w i ([], cap v))) by (eapply WFc_step1; eauto).
      assert (W2 : WFc s2 (set_nth (set_nth w i ([], cap v)) i ([], cap v2))) by (eapply WFc_step1; eauto).
      intros E. symmetry in E. revert E. eapply WF_data_neq; [exact (proj1 W2)|exact Hij|apply O2|apply Oj2]. }
    eapply sat_getv; [apply O2|]. apply sat_bind.
    pose proof Oj2 as Oj2'. destruct Oj2' as (_ & _ & _ & _ & _ & Hbj & _).
    pose proof O2 as O2'. destruct O2' as (Ho2 & _ & _ & _ & _ & Hb2 & _).
    eapply uninit_copy_sat with (p1 := []) (p2 := []) (q2 := raws (cap v2 - length xs)); [exact Hdd2|reflexivity|reflexivity|exact Hbj| | |].
    { rewrite Hb2. cbn [app map length]. rewrite Nat.sub_0_r, <- raws_split by assumption. reflexivity. }
    2: { intros Z. congruence. }
    intros g Hg. cbn [app]. destruct (own_step N M s2 i v2 [] xs g O2) as [O3 F3]; [assumption|assumption|].
    eapply sat_eq; [apply set_size_upd with (l' := xs); [exact Ho2|reflexivity|reflexivity]|].
    eapply done1_intro; [exact Hbu|exact HW|exact Hi| |exact O3| |exact O| ].
    3: { intros _ HC. cbn [cap data] in *. assert (length xs <= cap v)%nat by (destruct O3 as (_ & _ & Z & _); cbn [cap] in Z; lia).
      destruct C3 as [_ ->]; [lia|reflexivity]. }
    { eapply FR_trans; [exact F1|]. eapply FR_trans; [exact F2|exact F3]. }
    cbn [cap]. destruct (Nat.le_gt_cases (length xs) (cap v)); [destruct C3 as [_ ->]; [lia|cbn [cap]; lia]|rewrite C4; lia].
  - (* new default *) inv_on H l c Hi. injection H as <- <- <-. destruct (WFc_own _ _ _ _ _ HW Hi) as (v & O & <-).
    eapply recreate_sat; [exact O|exact HNM|]. intros s' O' F B. apply sat_ret. fin.
  - (* new n *) inv_on H l c Hi. inv_check H. apply Nat.leb_le in Hck. destruct (WFc_own _ _ _ _ _ HW Hi) as (v & O & <-).
    cut (ok (bindc (bindc (dtor i) (fun _ => bindc (ctor_default N i) (fun _ => fill_value mv nothrow_move copyable i n (Val d)))) (fun _ => ret 0%nat))
            s (done1 false i s (put w i (repeat d n, Nat.max N n)) 0)).
    { unfold sat, bindc. destruct (dtor i s); try (intros Z; exact Z). erewrite (ctor_n_is d mv nothrow_move copyable N) by exact I.
      intros Z; exact Z. }
    apply ok_ret. eapply recreate_sat; [exact O|exact HNM|]. intros s1 O1 F1 B1.
    eapply fill_value_sat; try exact d; [exact O1|exact Hck|congruence|].
    intros s' v' O' F C K. fin. eapply FR_trans; eassumption.
  - (* new filled *) inv_on H l c Hi. inv_check H. apply Nat.leb_le in Hck. destruct (WFc_own _ _ _ _ _ HW Hi) as (v & O & <-).
    apply ok_assoc, ok_ret. unfold ctor_value. eapply recreate_sat; [exact O|exact HNM|]. intros s1 O1 F1 B1.
    eapply fill_value_sat; try exact d; [exact O1|exact Hck|congruence|].
    intros s' v' O' F C K. fin. eapply FR_trans; eassumption.
  - (* new range *) inv_on H l c Hi. inv_check H. apply Nat.leb_le in Hck. destruct (WFc_own _ _ _ _ _ HW Hi) as (v & O & <-).
    apply ok_assoc, ok_ret. unfold ctor_range. eapply recreate_sat; [exact O|exact HNM|]. intros s1 O1 F1 B1.
    eapply fill_range_sat; try exact d; [exact O1|exact Hck| |intros ? ? (Z & _); congruence].
    intros s' v' O' F C K. fin. eapply FR_trans; eassumption.
  - (* new copy *)
    destruct (nth_error w j) as [[xs cj]|] eqn:Hj; [|discriminate H].
    destruct (Nat.eqb_spec i j) as [<-|Hij]; [discriminate H|].
    inv_on H l c Hi. injection H as <- <- <-. destruct (WFc_own _ _ _ _ _ HW Hi) as (v & O & <-).
    destruct (WFc_own _ _ _ _ _ HW Hj) as (vj & Oj & <-).
    assert (Hdd : data v <> data vj) by (eapply WF_data_neq; [exact (proj1 HW)|exact Hij|apply O|apply Oj]).
    apply ok_assoc, ok_ret. unfold ctor_copy. eapply recreate_sat; [exact O|exact HNM|]. intros s1 O1 F1 B1.
    assert (Oj1 : Own s1 j vj xs) by (eapply Own_frame; [exact O|exact Oj|exact F1|exact Hij|exact Hdd]).
    assert (Hlm : (length xs <= M)%nat) by (destruct Oj as (_ & _ & Z1 & Z2 & _); lia).
    apply sat_bind. destruct Oj1 as (Hoj & Hsz & _ & _ & _ & Hbj & _).
    unfold contents. eapply sat_getv; [exact Hoj|]. rewrite Hsz.
    eapply sat_eq; [eapply read_all_eq with (pre := []); [reflexivity|exact Hbj]|].
    eapply fill_range_sat; try exact d; [exact O1|exact Hlm| |intros ? ? (Z & _); congruence].
    intros s' v' O' F C K. fin. eapply FR_trans; eassumption.
Qed.
End Vec.
