(** Proofs about variant. *)
From Coq Require Import PeanoNat.
From Verif Require Import Base VtModel VtSpec.

(** Lists *)
Section Lists.
Context {Y : Type}.
Implicit Types (l : list Y).
Lemma set_nth_length l i x : length (set_nth l i x) = length l.
Proof. revert i. induction l; intros [|i]; simpl; auto. Qed.
Lemma nth_set_same l i x : i < length l -> nth_error (set_nth l i x) i = Some x.
Proof. revert i. induction l; intros [|i] H; simpl in *; try lia; auto. apply IHl. lia. Qed.
Lemma nth_set_other l i j x : i <> j -> nth_error (set_nth l i x) j = nth_error l j.
Proof. revert i j. induction l; intros [|i] [|j] H; simpl in *; try lia; auto. Qed.
Lemma set_set l i x y : set_nth (set_nth l i x) i y = set_nth l i y.
Proof. revert i. induction l; intros [|i]; simpl; auto. now rewrite IHl. Qed.
Lemma set_comm l i j x y : i <> j ->
  set_nth (set_nth l i x) j y = set_nth (set_nth l j y) i x.
Proof. revert i j. induction l; intros [|i] [|j] H; simpl in *; try lia; auto. f_equal. apply IHl. lia. Qed.
Lemma set_same l i x : nth_error l i = Some x -> set_nth l i x = l.
Proof.
  revert i. induction l; intros [|i] H; simpl in *; try discriminate.
  - now injection H as ->.
  - now rewrite IHl.
Qed.
End Lists.

(** Traits *)
Lemma common_ge l : forall r, (trait_int r <= trait_int (fold_left (fun r t => if trait_int r <? trait_int t then t else r) l r))%Z
  /\ forall t, In t l -> (trait_int t <= trait_int (fold_left (fun r t => if trait_int r <? trait_int t then t else r) l r))%Z.
Proof.
  induction l as [|a l IH]; intros r; cbn [fold_left]; [split; [lia|contradiction]|].
  destruct (IH (if (trait_int r <? trait_int a)%Z then a else r)) as [H1 H2].
  destruct (Z.ltb_spec (trait_int r) (trait_int a)); (split; [lia|]); intros t [<-|H']; try lia; auto.
Qed.
Lemma common_in l : forall r, let c := fold_left (fun r t => if (trait_int r <? trait_int t)%Z then t else r) l r in c = r \/ In c l.
Proof.
  induction l as [|a l IH]; intros r; cbn [fold_left]; [now left|].
  destruct (IH (if (trait_int r <? trait_int a)%Z then a else r)) as [H|H].
  - destruct (trait_int r <? trait_int a)%Z; cbn; rewrite H; auto.
  - right. now right.
Qed.
Lemma common_trivial l t : common_trait l = Trivially -> In t l -> t = Trivially.
Proof.
  intros H I. pose proof (proj2 (common_ge l Trivially) t I) as G. unfold common_trait in H. rewrite H in G.
  destruct t; [reflexivity|cbn in G; lia..].
Qed.
Lemma common_avail l : (forall t, In t l -> t <> Unavailable) -> common_trait l <> Unavailable.
Proof.
  intros H. unfold common_trait. destruct (common_in l Trivially) as [E|E].
  - cbv zeta in E. rewrite E. discriminate.
  - cbv zeta in E. now apply H.
Qed.

(** The switch *)
Lemma cases_hit c : forall B k, (B <= k < B + c)%nat -> cases c B (Z.of_nat k) = Some k.
Proof.
  induction c as [|c IH]; intros B k H; [lia|]. cbn [cases].
  destruct (Z.eqb_spec (Z.of_nat k) (Z.of_nat B)); [f_equal; lia|]. apply IH. lia.
Qed.
Lemma cases_miss c : forall B k, (B + c <= k)%nat -> cases c B (Z.of_nat k) = None.
Proof.
  induction c as [|c IH]; intros B k H; [reflexivity|]. cbn [cases].
  destruct (Z.eqb_spec (Z.of_nat k) (Z.of_nat B)); [lia|]. apply IH. lia.
Qed.
Lemma dispatch_from {R} (u : R) f fuel : forall n B k, (B <= k < n)%nat -> (k <= B + 31 + fuel)%nat ->
  dispatch u fuel n B (Z.of_nat k) f = f k.
Proof.
  induction fuel as [|fuel IH]; intros n B k H F; cbn [dispatch].
  - rewrite cases_hit by lia. now rewrite (proj2 (Nat.ltb_lt k n)) by lia.
  - destruct (Nat.lt_ge_cases k (B + 32)) as [G|G].
    + rewrite cases_hit by lia. now rewrite (proj2 (Nat.ltb_lt k n)) by lia.
    + rewrite cases_miss by lia. rewrite (proj2 (Nat.ltb_lt (B + 32) n)) by lia. apply IH; lia.
Qed.
Lemma dispatch_at {R} (u : R) n k f : (k < n)%nat -> dispatch u n n 0 (Z.of_nat k) f = f k.
Proof. intros H. apply dispatch_from; lia. Qed.
Global Opaque dispatch.

Section P.
Context {A : Type} (mv : nat -> A -> A) (dflt : A) (ts : list alt_ty) (Co : coherent mv ts).
Implicit Types (w : @world A) (s : @state A).

(** The stored index *)
Lemma bits_enough : (Z.of_nat (n ts) < 2 ^ index_bits ts - 1)%Z.
Proof.
  destruct Co as [[_ C] _]. unfold index_bits. fold (n ts) in C.
  destruct (Z.ltb_spec (Z.of_nat (n ts)) 255); [lia|].
  destruct (Z.ltb_spec (Z.of_nat (n ts)) 65535); lia.
Qed.
Lemma store_nat k : (k < n ts)%nat -> store ts (Z.of_nat k) = Z.of_nat k.
Proof. intros H. pose proof bits_enough. unfold store. rewrite Z.mod_small; lia. Qed.
Lemma minus1_eq : minus1 ts = (2 ^ index_bits ts - 1)%Z.
Proof.
  pose proof bits_enough. unfold minus1, store. symmetry.
  apply (Z.mod_unique _ _ (-1)); [left; lia|lia].
Qed.
Lemma valueless_alt k (c : @cell A) : (k < n ts)%nat -> valueless ts (V (store ts (Z.of_nat k)) c) = false.
Proof.
  intros H. pose proof bits_enough. unfold valueless. cbn [idx]. rewrite store_nat, minus1_eq by assumption.
  apply Z.eqb_neq. lia.
Qed.
Lemma valueless_none (c : @cell A) : valueless ts (V (minus1 ts) c) = true.
Proof. apply Z.eqb_refl. Qed.
Lemma index_alt k (c : @cell A) : (k < n ts)%nat -> index ts (V (store ts (Z.of_nat k)) c) = Z.of_nat k.
Proof. intros H. unfold index. rewrite valueless_alt by assumption. now apply store_nat. Qed.
Lemma index_none (c : @cell A) : index ts (V (minus1 ts) c) = npos.
Proof. unfold index. now rewrite valueless_none. Qed.
Lemma nat_eqb k k' : (Z.of_nat k =? Z.of_nat k')%Z = Nat.eqb k k'.
Proof. destruct (Nat.eqb_spec k k') as [->|N]; [apply Z.eqb_refl|]. apply Z.eqb_neq. lia. Qed.
Lemma lt_npos k : (k < n ts)%nat -> (Z.of_nat k < npos)%Z.
Proof. intros H. destruct Co as [[_ C] _]. unfold n in H. unfold npos. lia. Qed.
Lemma npos_eqb k : (k < n ts)%nat -> (npos =? Z.of_nat k)%Z = false.
Proof. intros H. apply lt_npos in H. apply Z.eqb_neq. lia. Qed.
Lemma eqb_npos k : (k < n ts)%nat -> (Z.of_nat k =? npos)%Z = false.
Proof. intros H. apply lt_npos in H. apply Z.eqb_neq. lia. Qed.

(** Traits of the alternatives *)
Lemma ty_in k : (k < n ts)%nat -> In (ty ts k) ts.
Proof. intros H. now apply nth_In. Qed.
Lemma ty_co k : (k < n ts)%nat -> coherent_alt (mv k) (ty ts k).
Proof. intros H. apply (proj2 Co). unfold ty. now apply nth_error_nth'. Qed.
Lemma trivial_alt f k : common_trait (map f ts) = Trivially -> (k < n ts)%nat -> f (ty ts k) = Trivially.
Proof. intros H K. eapply common_trivial; [exact H|]. apply in_map. now apply ty_in. Qed.
Lemma triv_destr k : destructible_trait ts = Trivially -> (k < n ts)%nat -> destr (ty ts k) = Trivially.
Proof. apply trivial_alt. Qed.
Lemma triv_copy_c k : copy_constructible_trait ts = Trivially -> (k < n ts)%nat -> copy_c (ty ts k) = Trivially.
Proof. apply trivial_alt. Qed.
Lemma triv_move_c k : move_constructible_trait ts = Trivially -> (k < n ts)%nat -> move_c (ty ts k) = Trivially.
Proof. apply trivial_alt. Qed.
Lemma triv_assign f g k : common_trait (common_trait (map f ts) :: map g ts) = Trivially -> (k < n ts)%nat ->
  f (ty ts k) = Trivially /\ g (ty ts k) = Trivially.
Proof.
  intros H K. split.
  - eapply common_trivial; [eapply (common_trivial _ _ H); now left|]. apply in_map. now apply ty_in.
  - eapply (common_trivial _ _ H). right. apply in_map. now apply ty_in.
Qed.
Lemma triv_copy_a k : copy_assignable_trait ts = Trivially -> (k < n ts)%nat ->
  copy_a (ty ts k) = Trivially /\ destr (ty ts k) = Trivially.
Proof.
  intros H K. destruct (triv_assign _ _ _ H K) as [H1 H2]. split; [exact H2|]. now apply (proj1 (ty_co k K)).
Qed.
Lemma triv_move_a k : move_assignable_trait ts = Trivially -> (k < n ts)%nat ->
  move_a (ty ts k) = Trivially /\ destr (ty ts k) = Trivially /\ forall x, mv k x = x.
Proof.
  intros H K. destruct (triv_assign _ _ _ H K) as [H1 H2]. split; [exact H2|].
  now apply (proj1 (proj2 (ty_co k K))).
Qed.
Lemma triv_mv k x : move_constructible_trait ts = Trivially -> (k < n ts)%nat -> mv k x = x.
Proof. intros H K. apply (triv_move_c k) in H; [|exact K]. now apply (proj1 (proj2 (ty_co k K))). Qed.
Lemma destructible_available : destructible_trait ts <> Unavailable.
Proof.
  apply common_avail. intros t I. apply in_map_iff in I. destruct I as (a & <- & I).
  apply In_nth_error in I. destruct I as (k & I). apply (proj2 Co k a I).
Qed.
Lemma has_op_avail f : has_op ts f = true -> common_trait (map f ts) <> Unavailable.
Proof.
  intros H. apply common_avail. intros t I. apply in_map_iff in I. destruct I as (a & <- & I).
  unfold has_op in H. rewrite forallb_forall in H. specialize (H a I). now destruct (f a).
Qed.
Lemma has_op_avail2 f g : has_op ts f && has_op ts g = true ->
  common_trait (common_trait (map f ts) :: map g ts) <> Unavailable.
Proof.
  intros H. apply Bool.andb_true_iff in H. destruct H as [H1 H2]. apply common_avail.
  intros t [<-|I]; [now apply has_op_avail|]. apply in_map_iff in I. destruct I as (a & <- & I).
  unfold has_op in H2. rewrite forallb_forall in H2. specialize (H2 a I). now destruct (g a).
Qed.
Lemma all_alts_at p k : all_alts ts p = true -> (k < n ts)%nat -> p (ty ts k) = true.
Proof. unfold all_alts. rewrite forallb_forall. intros H K. apply H. now apply ty_in. Qed.

(** Worlds and states *)
Definition obj (v : @content A) : vobj :=
  match v with Some (k, x) => V (store ts (Z.of_nat k)) (Alt k x) | None => V (minus1 ts) Raw end.
Definition conc w : list (option vobj) := map (option_map obj) w.
Definition st w m g b : @state A := State (conc w) None m g b.
Definition wf w : Prop := forall i k x, see w i = Some (Some (k, x)) -> (k < n ts)%nat.

Lemma observe_obj v : (forall k x, v = Some (k, x) -> (k < n ts)%nat) -> observe ts (obj v) = Some v.
Proof.
  destruct v as [[k x]|]; intros H; unfold observe, obj.
  - specialize (H k x eq_refl). rewrite index_alt, eqb_npos by assumption. rewrite Nat2Z.id.
    unfold get_, holds_alternative. rewrite index_alt, Z.eqb_refl by assumption.
    unfold alt_value. cbn [data]. now rewrite Nat.eqb_refl.
  - now rewrite index_none.
Qed.
Lemma view_st w m g b : wf w -> view ts (st w m g b) = w.
Proof.
  intros F. unfold view, st, conc. cbn [vars]. rewrite map_map. rewrite <- (map_id w) at 2.
  apply map_ext_in. intros [v|] I; [|reflexivity]. cbn [option_map]. apply observe_obj.
  intros k x ->. apply In_nth_error in I. destruct I as (i & I). apply (F i k x).
  unfold see. now rewrite I.
Qed.
Lemma conc_set w i v : conc (set_nth w i v) = set_nth (conc w) i (option_map obj v).
Proof. unfold conc. revert i. induction w; intros [|i]; simpl; auto. now rewrite IHw. Qed.
Lemma nth_conc w i : nth_error (conc w) i = option_map (option_map obj) (nth_error w i).
Proof. unfold conc. apply nth_error_map. Qed.
Lemma upd_set w i v : i < length w -> upd w i v = set_nth w i v.
Proof.
  unfold upd. revert i. induction w as [|a w IH]; intros [|i] H; simpl in *; try lia; auto.
  f_equal. apply IH. lia.
Qed.
Lemma conc_length w : length (conc w) = length w.
Proof. apply map_length. Qed.
Lemma see_nth w i v : see w i = Some v <-> nth_error w i = Some (Some v).
Proof. unfold see. destruct (nth_error w i) as [[u|]|]; split; congruence. Qed.
Lemma see_lt w i v : see w i = Some v -> i < length w.
Proof. intros H. apply see_nth in H. apply nth_error_Some. congruence. Qed.
Lemma free_nth w i : free w i = true <-> nth_error w i = Some None.
Proof. unfold free. destruct (nth_error w i) as [[u|]|]; split; congruence. Qed.
Lemma free_lt w i : free w i = true -> i < length w.
Proof. intros H. apply free_nth in H. apply nth_error_Some. congruence. Qed.
Lemma free_see w i j v : free w i = true -> see w j = Some v -> i <> j.
Proof. intros F S ->. apply free_nth in F. apply see_nth in S. congruence. Qed.
Lemma see_conc w i v : see w i = Some v -> nth_error (conc w) i = Some (Some (obj v)).
Proof. intros H. apply see_nth in H. now rewrite nth_conc, H. Qed.
Lemma free_conc w i : free w i = true -> nth_error (conc w) i = Some None.
Proof. intros H. apply free_nth in H. now rewrite nth_conc, H. Qed.

Lemma see_set_same w i v : i < length w -> see (set_nth w i v) i = v.
Proof. intros H. unfold see. now rewrite nth_set_same. Qed.
Lemma see_set_other w i j v : i <> j -> see (set_nth w i v) j = see w j.
Proof. intros H. unfold see. now rewrite nth_set_other. Qed.
Lemma see_set w i j v : see (set_nth w i v) j = v \/ see (set_nth w i v) j = see w j.
Proof.
  destruct (Nat.eq_dec i j) as [->|D]; [|right; now apply see_set_other].
  destruct (Nat.lt_ge_cases j (length w)); [left; now apply see_set_same|].
  right. unfold see. now rewrite !(proj2 (nth_error_None _ _)) by (rewrite ?set_nth_length; assumption).
Qed.
Lemma wf_set w i v : wf w -> (forall k x, v = Some (Some (k, x)) -> (k < n ts)%nat) -> wf (set_nth w i v).
Proof.
  intros F H j k x E. destruct (see_set w i j v) as [G|G]; rewrite G in E; [eauto|].
  now apply (F j k x).
Qed.

(** Counting *)
Lemma alive_set w i v u : nth_error w i = Some u ->
  alive (set_nth w i v) + holds u = alive w + holds v.
Proof.
  unfold alive. revert i. induction w as [|a w IH]; intros [|i] H; try discriminate.
  - injection H as ->. cbn [set_nth map]. unfold list_sum. cbn [fold_right]. lia.
  - specialize (IH i H). cbn [set_nth map]. unfold list_sum in *. cbn [fold_right]. lia.
Qed.
Lemma alive_upd w i v u : see w i = Some u -> alive (set_nth w i v) + holds (Some u) = alive w + holds v.
Proof. intros H. apply see_nth in H. now apply alive_set. Qed.
Lemma alive_new w i v : free w i = true -> alive (set_nth w i v) = alive w + holds v.
Proof. intros H. apply free_nth in H. pose proof (alive_set w i v _ H). cbn [holds] in *. lia. Qed.
Lemma alive_upd2 w i j v u v' u' : i <> j -> see w i = Some v -> see w j = Some u ->
  alive (set_nth (set_nth w i v') j u') + holds (Some v) + holds (Some u) = alive w + holds v' + holds u'.
Proof.
  intros D H G. pose proof (alive_upd w i v' v H) as E.
  rewrite <- (see_set_other w i j v' D) in G. pose proof (alive_upd _ j u' u G). lia.
Qed.
Lemma alive_new_upd w i j v u' v' : free w i = true -> see w j = Some v ->
  alive (set_nth (set_nth w j v') i u') + holds (Some v) = alive w + holds v' + holds u'.
Proof.
  intros F S. pose proof (free_see _ _ _ _ F S) as D. pose proof (alive_upd w j v' v S).
  rewrite alive_new; [lia|]. apply free_nth. rewrite nth_set_other by auto. now apply free_nth.
Qed.

(** Result of a call *)
Definition good (op : vop A) (w : world) (m g : nat) (b : option nat) (w1 : world) (r : res unit) : Prop :=
  (exists m' g' b', r = Done (st w1 m' g' b') tt /\ (b = None -> b' = None) /\
     m' + g + alive w = m + g' + alive w1) \/
  (exists w' m' g', r = Thrown (st w' m' g' None) /\ b <> None /\
     after_throw mv ts w op w' /\ (all_noexcept ts = true -> quiet ts op = true -> False) /\
     m' + g + alive w = m + g' + alive w').
Lemma noexcept_at k : all_noexcept ts = true -> (k < n ts)%nat ->
  nt_copy (ty ts k) = true /\ nt_move (ty ts k) = true /\
  nt_copy_assign (ty ts k) = true /\ nt_move_assign (ty ts k) = true.
Proof.
  unfold all_noexcept. rewrite forallb_forall. intros H K. specialize (H _ (ty_in k K)).
  rewrite !Bool.andb_true_iff in H. tauto.
Qed.
End P.

Lemma obind_some {X Y} (o : option X) (f : X -> option Y) y :
  obind o f = Some y -> exists x, o = Some x /\ f x = Some y.
Proof. destruct o; [eauto|discriminate]. Qed.

Ltac lens := rewrite ?set_nth_length, ?conc_length in *; assumption.
(** One step of symbolic execution *)
Ltac nth_ :=
  match goal with
  | |- context [nth_error (set_nth ?l ?i ?x) ?i] => rewrite (nth_set_same l i x) by lens
  | D : ?i <> ?j |- context [nth_error (set_nth ?l ?i ?x) ?j] => rewrite (nth_set_other l i j x D)
  | D : ?j <> ?i |- context [nth_error (set_nth ?l ?i ?x) ?j] => rewrite (nth_set_other l i j x) by (intros ?; apply D; congruence)
  | H : nth_error ?l ?i = Some _ |- context [nth_error ?l ?i] => rewrite H
  end.
Ltac red_ :=
  cbv beta iota zeta delta
    [bindc ret undef noexcept_ try_ get put count_made count_gone tick set_index set_data rd poke
     ntc nta read construct_alt abandon dtor_alt destroy dtor generic_construct bytes unused
     ctor_valueless ctor_move ctor_copy ctor_in_place ctor_default emplace assign_alt generic_assign
     bytes_over assign_move assign_copy assign swap_values swap_tmp swap write
     vars tmp made gone bud idx data negb andb orb option_map obj].
Ltac scrut t := lazymatch t with
  | match ?x with _ => _ end => scrut x
  | match ?x with _ => _ end _ => scrut x
  | _ => t
  end.
Ltac norm_ :=
  repeat match goal with
  | |- context [set_nth (set_nth ?l ?i ?x) ?i ?y] => rewrite (set_set l i x y)
  | D : ?i <> ?j |- context [set_nth (set_nth (set_nth ?l ?i ?x) ?j ?y) ?i ?z] => rewrite (set_comm (set_nth l i x) j i y z) by congruence
  | D : ?j <> ?i |- context [set_nth (set_nth (set_nth ?l ?i ?x) ?j ?y) ?i ?z] => rewrite (set_comm (set_nth l i x) j i y z) by congruence
  end.
Ltac keep_ :=
  repeat match goal with H : nth_error ?l ?i = Some ?x |- context [set_nth ?l ?i ?x] => rewrite (set_same l i x H) end.
Ltac same_ :=
  unfold st; rewrite ?conc_set; cbn [option_map obj moved]; norm_; keep_;
  first [ reflexivity
        | match goal with D : ?i <> ?j |- context [set_nth (set_nth (conc ?t ?w) ?a ?x) ?b ?y] =>
            rewrite (set_comm (conc t w) a b x y) by congruence; norm_; keep_; reflexivity end ].

Definition becomes {X} (r : X) (P : X -> Prop) : Prop := P r.
Section Q.
Context {A : Type} (mv : nat -> A -> A) (dflt : A) (ts : list alt_ty) (Co : coherent mv ts).
Implicit Types (w : @world A) (s : @state A).

Lemma nothrow_alt k (c : @cell A) : (k < n ts)%nat ->
  move_nothrow ts (V (store ts (Z.of_nat k)) c) = nt_move (ty ts k).
Proof.
  intros H. unfold move_nothrow. rewrite (valueless_alt mv ts Co), (index_alt mv ts Co) by assumption.
  now rewrite Nat2Z.id.
Qed.
Lemma nothrow_none (c : @cell A) : move_nothrow ts (V (minus1 ts) c) = true.
Proof. unfold move_nothrow. now rewrite valueless_none. Qed.

Ltac simp_ x :=
  lazymatch x with
  | valueless _ (V (minus1 _) _) => rewrite valueless_none
  | valueless _ (V (store _ _) _) => rewrite (valueless_alt mv ts Co) by assumption
  | move_nothrow _ (V (minus1 _) _) => rewrite nothrow_none
  | move_nothrow _ (V (store _ _) _) => rewrite nothrow_alt by assumption
  | Z.eqb _ _ =>
      rewrite ?index_none, ?(index_alt mv ts Co) by assumption;
      rewrite ?(npos_eqb mv ts Co), ?(eqb_npos mv ts Co), ?nat_eqb by assumption
  | Nat.eqb ?a ?a => rewrite (Nat.eqb_refl a)
  | Nat.eqb ?a ?b =>
      first [ match goal with D : a <> b |- _ => rewrite (proj2 (Nat.eqb_neq a b) D) end
            | match goal with D : b <> a |- _ => rewrite (proj2 (Nat.eqb_neq a b) (not_eq_sym D)) end ]
  | dispatch _ _ _ _ (index _ _) _ _ =>
      rewrite (index_alt mv ts Co) by assumption; rewrite dispatch_at by assumption
  | dispatch _ _ _ _ (Z.of_nat _) _ _ => rewrite dispatch_at by assumption
  | destr (ty _ ?k) => first [ rewrite (triv_destr ts k) by assumption
      | match goal with H : copy_assignable_trait ts = Trivially, K : (k < _)%nat |- _ => rewrite (proj2 (triv_copy_a mv ts Co k H K)) end
      | match goal with H : move_assignable_trait ts = Trivially, K : (k < _)%nat |- _ => rewrite (proj1 (proj2 (triv_move_a mv ts Co k H K))) end ]
  | copy_c (ty _ ?k) => rewrite (triv_copy_c ts k) by assumption
  | move_c (ty _ ?k) => rewrite (triv_move_c ts k) by assumption
  | copy_a (ty _ ?k) => match goal with H : copy_assignable_trait ts = Trivially, K : (k < _)%nat |- _ => rewrite (proj1 (triv_copy_a mv ts Co k H K)) end
  | move_a (ty _ ?k) => match goal with H : move_assignable_trait ts = Trivially, K : (k < _)%nat |- _ => rewrite (proj1 (triv_move_a mv ts Co k H K)) end
  end.
Ltac exec_at r :=
      let x := scrut r in
      lazymatch x with
      | nth_error _ _ => nth_
      | Done _ _ => fail
      | Thrown _ => fail
      | Terminated => fail
      | Undef => fail
      | _ => first [simp_ x | is_var x; destruct x | match goal with H : x = _ |- _ => rewrite H end | destruct x eqn:?]
      end.
Ltac exec1 :=
  match goal with
  | |- good _ _ _ _ _ _ _ _ ?r => exec_at r
  | |- becomes ?r _ => exec_at r
  end; red_.
Ltac exec := red_; repeat exec1.

Ltac count_ :=
  repeat match goal with
  | D : ?i <> ?j, H : see ?w ?i = Some _, H' : see ?w ?j = Some _ |- context [alive (set_nth (set_nth ?w ?i ?v) ?j ?u)] =>
      let Z := fresh in pose proof (alive_upd2 w i j _ _ v u D H H') as Z; revert Z; generalize (alive (set_nth (set_nth w i v) j u))
  | D : ?j <> ?i, H : see ?w ?i = Some _, H' : see ?w ?j = Some _ |- context [alive (set_nth (set_nth ?w ?i ?v) ?j ?u)] =>
      let Z := fresh in pose proof (alive_upd2 w i j _ _ v u (not_eq_sym D) H H') as Z; revert Z; generalize (alive (set_nth (set_nth w i v) j u))
  | F : free ?w ?i = true, H : see ?w ?j = Some _ |- context [alive (set_nth (set_nth ?w ?j ?v) ?i ?u)] =>
      let Z := fresh in pose proof (alive_new_upd w i j _ u v F H) as Z; revert Z; generalize (alive (set_nth (set_nth w j v) i u))
  | H : see ?w ?i = Some _ |- context [alive (set_nth ?w ?i ?v)] =>
      let Z := fresh in pose proof (alive_upd w i v _ H) as Z; revert Z; generalize (alive (set_nth w i v))
  | F : free ?w ?i = true |- context [alive (set_nth ?w ?i ?v)] => rewrite (alive_new w i v F)
  end; cbn [holds moved option_map]; intros; lia.
Ltac bools :=
  repeat match goal with
  | H : see _ _ = Some _ |- _ => rewrite H; clear H
  end;
  cbn [holds_alt same_alt nothrow_move moved];
  rewrite ?upd_set by (rewrite ?set_nth_length; rewrite ?upd_set, ?set_nth_length by assumption; assumption);
  rewrite ?Nat.eqb_refl;
  repeat match goal with
  | D : ?a <> ?b |- context [Nat.eqb ?a ?b] => rewrite (proj2 (Nat.eqb_neq a b) D)
  | D : ?b <> ?a |- context [Nat.eqb ?a ?b] => rewrite (proj2 (Nat.eqb_neq a b) (not_eq_sym D))
  | H : ?x = true |- _ => rewrite H; clear H
  | H : ?x = false |- _ => rewrite H; clear H
  end; cbn [orb andb negb].
Ltac nothrow_ :=
  let AN := fresh in let QU := fresh in
  intros AN QU; cbn [quiet ntc nta andb] in QU; rewrite ?Bool.andb_false_r in QU;
  first [ congruence
        | match goal with K : (?k < n ts)%nat, H : _ (ty ts ?k) = false |- _ =>
            pose proof (noexcept_at ts k AN K); intuition congruence end ].
Ltac thrown_ w' :=
  right; exists w'; do 2 eexists; split; [same_|]; split; [congruence|];
  split; [cbn [after_throw]; unfold replace_failed; bools; first [reflexivity|tauto]|split; [nothrow_|count_]].
Ltac noexc_ :=
  exfalso;
  match goal with
  | H : all_alts ts ?p = true, K : (?k < n ts)%nat |- _ =>
      let Z := fresh in pose proof (all_alts_at ts p k H K) as Z; cbv beta in Z;
      first [congruence | repeat match goal with H' : _ (ty ts k) = _ |- _ => rewrite H' in Z end;
             repeat match type of Z with context [if ?c then _ else _] => destruct c end; discriminate Z]
  | _ => congruence
  end.
Ltac fin_ :=
  lazymatch goal with
  | |- good _ _ _ _ _ _ _ _ (Done _ _) =>
      left; do 3 eexists; split; [same_|];
      split; [first [discriminate|auto; fail|intros _; reflexivity]|count_]
  | |- good _ _ _ ?w _ _ _ _ (Thrown _) => thrown_ w
  | |- good _ _ _ _ _ _ _ _ Undef => exfalso; congruence
  | |- good _ _ _ _ _ _ _ _ Terminated => noexc_
  end.
Ltac facts P F :=
  let L := fresh "L" in let PN := fresh "PN" in let Q := fresh "Q" in let K := fresh "K" in
  pose proof (see_lt _ _ _ P) as L; pose proof (proj1 (see_nth _ _ _) P) as PN;
  pose proof (see_conc ts _ _ _ P) as Q; cbn [obj] in Q; try pose proof (F _ _ _ P) as K.
Ltac upd_ := rewrite ?upd_set by (rewrite ?upd_set, ?set_nth_length by assumption; assumption).
Ltac destr_ := destruct (destructible_trait ts) eqn:DT; [| |now destruct (destructible_available mv ts Co)].

Lemma assign_copy_good w m g b i j w1 : wf ts w -> meaning mv dflt ts w (AssignCopy i j) = Some w1 ->
  good mv ts (AssignCopy i j) w m g b w1 (assign_copy mv ts (Var i) (Var j) (st ts w m g b)).
Proof.
  intros F. unfold meaning. cbn [viable].
  destruct (has_op ts copy_c && has_op ts copy_a) eqn:HO; [|discriminate]. cbn [negb]. intros H.
  apply has_op_avail2 in HO. change (copy_assignable_trait ts <> Unavailable) in HO.
  apply obind_some in H; destruct H as (v & P & H). apply obind_some in H; destruct H as (u & P' & H).
  injection H as <-.
  destruct (Nat.eq_dec i j) as [<-|D].
  - rewrite P in P'; injection P' as <-.
    destruct v as [[k x]|]; facts P F; upd_; destr_; unfold st; exec; fin_.
  - destruct v as [[k x]|], u as [[k' x']|]; facts P F; facts P' F; upd_; destr_; unfold st;
      try (destruct (Nat.eq_dec k k') as [<-|DK]); exec;
      first [fin_ | thrown_ (set_nth w i (Some None))].
Qed.

Ltac unmv_ :=
  repeat match goal with
  | T : move_assignable_trait ts = Trivially, K : (?k < n ts)%nat |- context [mv ?k ?x] =>
      rewrite (proj2 (proj2 (triv_move_a mv ts Co k T K)) x)
  | T : move_constructible_trait ts = Trivially, K : (?k < n ts)%nat |- context [mv ?k ?x] =>
      rewrite (triv_mv mv ts Co k x T K)
  end.

Lemma assign_move_good w m g b i j w1 : wf ts w -> meaning mv dflt ts w (AssignMove i j) = Some w1 ->
  good mv ts (AssignMove i j) w m g b w1 (assign_move mv ts (Var i) (Var j) (st ts w m g b)).
Proof.
  intros F. unfold meaning. cbn [viable].
  destruct (has_op ts move_c && has_op ts move_a) eqn:HO; [|discriminate]. cbn [negb]. intros H.
  apply has_op_avail2 in HO. change (move_assignable_trait ts <> Unavailable) in HO.
  apply obind_some in H; destruct H as (v & P & H). apply obind_some in H; destruct H as (u & P' & H).
  injection H as <-.
  destruct (move_assignable_trait ts) eqn:MT; [| |congruence].
  all: destruct (Nat.eq_dec i j) as [<-|D].
  all: try (rewrite P in P'; injection P' as <-).
  - destruct v as [[k x]|]; facts P F; cbn [moved]; upd_; rewrite ?set_set; destr_; unfold st; exec; fin_.
  - destruct v as [[k x]|], u as [[k' x']|]; facts P F; facts P' F; cbn [moved]; upd_;
      unmv_; keep_; destr_; unfold st; exec; fin_.
  - destruct v as [[k x]|]; facts P F; cbn [moved]; upd_; rewrite ?set_set; destr_; unfold st; exec; fin_.
  - destruct v as [[k x]|], u as [[k' x']|]; facts P F; facts P' F; cbn [moved]; upd_; destr_; unfold st;
      try (destruct (Nat.eq_dec k k') as [<-|DK]); exec;
      first [fin_ | thrown_ (set_nth w i (Some (@None (nat * A))))].
Qed.

Ltac facts_new G :=
  let L := fresh "L" in let PN := fresh "PN" in let Q := fresh "Q" in
  pose proof (free_lt _ _ G) as L; pose proof (proj1 (free_nth _ _) G) as PN;
  pose proof (free_conc ts _ _ G) as Q.

Lemma ctor_copy_good w m g b i j w1 : wf ts w -> meaning mv dflt ts w (NewCopy i j) = Some w1 ->
  good mv ts (NewCopy i j) w m g b w1 (ctor_copy mv ts (Var i) (Var j) (st ts w m g b)).
Proof.
  intros F. unfold meaning. cbn [viable].
  destruct (has_op ts copy_c) eqn:HO; [|discriminate]. cbn [negb]. intros H.
  apply has_op_avail in HO. change (copy_constructible_trait ts <> Unavailable) in HO.
  destruct (free w i) eqn:G; [|discriminate].
  apply obind_some in H; destruct H as (u & P & H). injection H as <-.
  pose proof (free_see _ _ _ _ G P) as D. facts_new G.
  destruct u as [[k x]|]; facts P F; upd_; destr_; unfold st; exec; fin_.
Qed.

Lemma ctor_move_good w m g b i j w1 : wf ts w -> meaning mv dflt ts w (NewMove i j) = Some w1 ->
  good mv ts (NewMove i j) w m g b w1 (ctor_move mv ts (Var i) (Var j) (st ts w m g b)).
Proof.
  intros F. unfold meaning. cbn [viable].
  destruct (has_op ts move_c) eqn:HO; [|discriminate]. cbn [negb]. intros H.
  apply has_op_avail in HO. change (move_constructible_trait ts <> Unavailable) in HO.
  destruct (free w i) eqn:G; [|discriminate].
  apply obind_some in H; destruct H as (u & P & H). injection H as <-.
  pose proof (free_see _ _ _ _ G P) as D. facts_new G.
  destruct (move_constructible_trait ts) eqn:MT; [| |congruence];
  (destruct u as [[k x]|]; facts P F; cbn [moved]; upd_; unmv_; keep_; destr_; unfold st; exec; fin_).
Qed.

Lemma dtor_good w m g b i w1 : wf ts w -> meaning mv dflt ts w (Delete i) = Some w1 ->
  good mv ts (Delete i) w m g b w1 (dtor ts (Var i) (st ts w m g b)).
Proof.
  intros F. unfold meaning. cbn [viable negb]. intros H.
  apply obind_some in H; destruct H as (u & P & H). injection H as <-.
  destruct u as [[k x]|]; facts P F; upd_; destr_; unfold st; exec; fin_.
Qed.

(** The argument of a call *)
Definition eval_facts w k (a : @arg A) x w' : Prop :=
  match a with
  | Val _ _ y => x = y /\ w' = w
  | Copy (Var j) => see w j = Some (Some (k, x)) /\ w' = w
  | Move (Var j) => see w j = Some (Some (k, x)) /\ w' = set_nth w j (Some (Some (k, mv k x)))
  | Ref _ _ j => (exists k', see w j = Some (Some (k', x))) /\ w' = w
  | _ => False
  end.
Lemma eval_inv w k a x w' : eval mv w k a = Some (x, w') -> eval_facts w k a x w'.
Proof.
  destruct a as [c t y|[j|]|[j|]|c t j]; cbn [eval eval_facts]; try discriminate.
  - intros H. injection H as <- <-. auto.
  - destruct (see w j) as [[[k' y]|]|]; try discriminate.
    destruct (Nat.eqb_spec k k') as [<-|]; try discriminate. intros H. injection H as <- <-. auto.
  - destruct (see w j) as [[[k' y]|]|] eqn:E; try discriminate.
    destruct (Nat.eqb_spec k k') as [<-|]; try discriminate. intros H. injection H as <- <-.
    split; [reflexivity|]. apply upd_set. now apply see_lt in E.
  - destruct (see w j) as [[[k' y]|]|]; try discriminate. intros H. injection H as <- <-. eauto.
Qed.
Ltac arg_ a F E :=
  apply eval_inv in E; destruct a as [c t y|[j|]|[j|]|c t j]; cbn [eval_facts] in E;
  [ destruct E as [-> ->]
  | let R := fresh "R" in destruct E as [R ->]; facts R F
  | contradiction
  | let R := fresh "R" in destruct E as [R ->]; facts R F
  | contradiction
  | let R := fresh "R" in let k' := fresh "kr" in destruct E as [[k' R] ->]; facts R F ].

Lemma ctor_in_place_good w m g b i k a w1 : wf ts w -> meaning mv dflt ts w (New i k a) = Some w1 ->
  good mv ts (New i k a) w m g b w1 (ctor_in_place mv ts i k a (st ts w m g b)).
Proof.
  intros F. unfold meaning. cbn [viable negb].
  destruct (free w i) eqn:G; [|discriminate]. destruct (Nat.ltb_spec k (length ts)) as [K|]; [|discriminate].
  cbn [andb]. intros H. apply obind_some in H; destruct H as ([x w'] & E & H). cbn [fst snd] in H.
  injection H as <-. facts_new G. change (k < n ts)%nat in K.
  arg_ a F E; try pose proof (free_see _ _ _ _ G R) as D; upd_; unfold st; exec; fin_.
Qed.
Lemma ctor_default_good w m g b i nt w1 : wf ts w -> meaning mv dflt ts w (NewDefault i nt) = Some w1 ->
  good mv ts (NewDefault i nt) w m g b w1 (ctor_default mv dflt ts i nt (st ts w m g b)).
Proof.
  intros F. unfold meaning. cbn [viable negb].
  destruct (free w i) eqn:G; [|discriminate]. intros H. injection H as <-. facts_new G. upd_.
  assert (K : (0 < n ts)%nat). { destruct Co as [[C _] _]. unfold n. lia. }
  unfold st, ctor_default. exec; fin_.
Qed.

Ltac self_ i F :=
  match goal with
  | R : see ?w ?j = Some _, P : see ?w i = Some _ |- _ =>
      first [ constr_eq i j; fail 1
            | destruct (Nat.eq_dec i j) as [<-|D];
              [rewrite P in R; injection R; intros; subst; facts P F | facts R F; facts P F] ]
  | P : see ?w i = Some _ |- _ => facts P F
  end.
Ltac arg2_ a F E :=
  apply eval_inv in E; destruct a as [c t y|[j|]|[j|]|c t j]; cbn [eval_facts] in E;
  [ destruct E as [-> ->]
  | let R := fresh "R" in destruct E as [R ->]
  | contradiction
  | let R := fresh "R" in destruct E as [R ->]
  | contradiction
  | let R := fresh "R" in let k' := fresh "kr" in destruct E as [[k' R] ->] ].

Lemma emplace_good w m g b i k a w1 : wf ts w -> meaning mv dflt ts w (Emplace i k a) = Some w1 ->
  good mv ts (Emplace i k a) w m g b w1 (emplace mv ts (Var i) k a (st ts w m g b)).
Proof.
  intros F. unfold meaning. cbn [viable negb]. intros H.
  apply obind_some in H; destruct H as (v & P & H).
  destruct (Nat.ltb_spec k (length ts)) as [K|]; [|discriminate]. change (k < n ts)%nat in K. cbn [andb] in H.
  destruct (refers a i) eqn:RF; [discriminate|]. cbn [negb] in H.
  apply obind_some in H; destruct H as ([x w'] & E & H). cbn [fst snd] in H. injection H as <-.
  destruct v as [[k0 x0]|]; arg2_ a F E; cbn [refers] in RF; try apply Nat.eqb_neq in RF;
    facts P F; try facts R F; upd_; destr_; unfold st; exec;
    first [fin_ | thrown_ (set_nth w i (Some (@None (nat * A))))].
Qed.

Lemma write_good w m g b i k a w1 : wf ts w -> meaning mv dflt ts w (Write i k a) = Some w1 ->
  good mv ts (Write i k a) w m g b w1 (write mv ts i k a (st ts w m g b)).
Proof.
  intros F. unfold meaning. cbn [viable negb]. intros H.
  apply obind_some in H; destruct H as (v & P & H).
  destruct (holds_alt v k) eqn:HA; [|discriminate].
  apply obind_some in H; destruct H as ([x w'] & E & H). cbn [fst snd] in H. injection H as <-.
  destruct v as [[k0 x0]|]; [|discriminate]. cbn [holds_alt] in HA. apply Nat.eqb_eq in HA. subst k0.
  arg2_ a F E; self_ i F; upd_; rewrite ?set_set; unfold st; exec; fin_.
Qed.

Lemma assign_good w m g b i k a w1 : wf ts w -> meaning mv dflt ts w (Assign i k a) = Some w1 ->
  good mv ts (Assign i k a) w m g b w1 (assign mv ts i k a (st ts w m g b)).
Proof.
  intros F. unfold meaning. cbn [viable negb]. intros H.
  apply obind_some in H; destruct H as (v & P & H).
  destruct (Nat.ltb_spec k (length ts)) as [K|]; [|discriminate]. change (k < n ts)%nat in K. cbn [andb] in H.
  destruct (holds_alt v k || negb (refers a i)) eqn:HR; [|discriminate].
  apply obind_some in H; destruct H as ([x w'] & E & H). cbn [fst snd] in H. injection H as <-.
  assert (C : (exists y, v = Some (k, y)) \/ ((forall y, v <> Some (k, y)) /\ refers a i = false)).
  { destruct v as [[k0 x0]|]; cbn [holds_alt] in HR.
    - destruct (Nat.eqb_spec k k0) as [<-|]; [left; eauto|]. right. split; [congruence|].
      now destruct (refers a i).
    - right. split; [congruence|]. now destruct (refers a i). }
  clear HR. destruct C as [[y0 ->]|[NV RF]].
  - arg2_ a F E; self_ i F; upd_; rewrite ?set_set; unfold st; exec; fin_.
  - destruct v as [[k0 x0]|]; try assert (DK : k <> k0) by congruence; clear NV;
    arg2_ a F E; cbn [refers] in RF; try apply Nat.eqb_neq in RF;
    facts P F; try facts R F; upd_; destr_; unfold st; exec;
    first [fin_ | thrown_ (set_nth w i (Some (@None (nat * A))))].
Qed.

(** Parts of swap() for different alternatives *)
Definition moves_to (nt : bool) (ok failed : option nat -> @state A) (b : option nat) (r : res unit) : Prop :=
  (exists b', r = Done (ok b') tt /\ (b = None -> b' = None)) \/
  (r = Thrown (failed None) /\ b <> None /\ nt = false).
Ltac arrange_ :=
  norm_; keep_;
  first [ reflexivity
        | match goal with D : ?i <> ?j |- context [set_nth (set_nth ?l ?j ?x) ?i ?y] =>
            rewrite (set_comm l j i x y) by congruence; norm_; keep_; reflexivity end ].
Ltac moves_ :=
  unfold becomes, moves_to;
  first [ left; eexists; split; [arrange_|first [discriminate|tauto]]
        | right; split; [arrange_|split; [congruence|first [assumption|reflexivity]]] ].
Notation hold v := (holds (Some v)).
Lemma to_tmp V m g b j u : j < length V -> nth_error V j = Some (Some (obj ts u)) ->
  (forall k x, u = Some (k, x) -> (k < n ts)%nat) -> move_constructible_trait ts <> Unavailable ->
  becomes (ctor_move mv ts Tmp (Var j) (State V None m g b))
    (moves_to (nothrow_move ts u)
       (State (set_nth V j (Some (obj ts (moved mv u)))) (Some (obj ts u)) (m + hold u) g)
       (State V None m g) b).
Proof.
  intros L Q K MT. destruct (move_constructible_trait ts) eqn:MT'; [| |congruence];
  (destruct u as [[k x]|]; [specialize (K k x eq_refl)|]; cbn [moved holds nothrow_move obj] in *; unmv_;
   replace (m + 1) with (S m) by lia; rewrite ?Nat.add_0_r; destr_; exec; first [moves_|noexc_]).
Qed.

Lemma to_var V t m g b j u i v : i <> j -> i < length V -> j < length V ->
  nth_error V i = Some (Some (obj ts v)) -> nth_error V j = Some (Some (obj ts u)) ->
  (forall k x, u = Some (k, x) -> (k < n ts)%nat) -> (forall k x, v = Some (k, x) -> (k < n ts)%nat) ->
  becomes (generic_construct mv ts (Var j) (Var i) Move (State V t m g b))
    (moves_to (nothrow_move ts v)
       (State (set_nth (set_nth V i (Some (obj ts (moved mv v)))) j (Some (obj ts v))) t (m + hold v) (g + hold u))
       (State (set_nth V j (Some (obj ts None))) t m (g + hold u)) b).
Proof.
  intros D L L' Q Q' K K'.
  destruct v as [[k x]|]; [specialize (K' k x eq_refl)|]; (destruct u as [[k' x']|]; [specialize (K k' x' eq_refl)|]);
  cbn [moved holds nothrow_move obj] in *;
   replace (m + 1) with (S m) by lia; replace (g + 1) with (S g) by lia; rewrite ?Nat.add_0_r; destr_; exec; first [moves_|noexc_].
Qed.

Lemma from_tmp V m g b j u v : j < length V -> nth_error V j = Some (Some (obj ts u)) ->
  (forall k x, u = Some (k, x) -> (k < n ts)%nat) -> (forall k x, v = Some (k, x) -> (k < n ts)%nat) ->
  becomes (generic_construct mv ts (Var j) Tmp Move (State V (Some (obj ts v)) m g b))
    (moves_to (nothrow_move ts v)
       (State (set_nth V j (Some (obj ts v))) (Some (obj ts (moved mv v))) (m + hold v) (g + hold u))
       (State (set_nth V j (Some (obj ts None))) (Some (obj ts v)) m (g + hold u)) b).
Proof.
  intros L Q K K'.
  destruct v as [[k x]|]; [specialize (K' k x eq_refl)|]; (destruct u as [[k' x']|]; [specialize (K k' x' eq_refl)|]);
  cbn [moved holds nothrow_move obj] in *;
   replace (m + 1) with (S m) by lia; replace (g + 1) with (S g) by lia; rewrite ?Nat.add_0_r; destr_; exec; first [moves_|noexc_].
Qed.
Lemma del_tmp V m g b (v : @content A) : (forall k x, v = Some (k, x) -> (k < n ts)%nat) ->
  dtor ts Tmp (State V (Some (obj ts v)) m g b) = Done (State V None m (g + hold v) b) tt.
Proof.
  intros K. change (becomes (dtor ts Tmp (State V (Some (obj ts v)) m g b)) (fun r : res unit => r = Done (State V None m (g + hold v) b) tt)).
  destruct v as [[k x]|]; [specialize (K k x eq_refl)|]; cbn [holds];
   replace (g + 1) with (S g) by lia; rewrite ?Nat.add_0_r; destr_; exec; reflexivity.
Qed.

Lemma nothrow_obj (v : @content A) : (forall k x, v = Some (k, x) -> (k < n ts)%nat) ->
  move_nothrow ts (obj ts v) = nothrow_move ts v.
Proof.
  intros K. destruct v as [[k x]|]; cbn [obj nothrow_move]; [apply nothrow_alt; eauto|apply nothrow_none].
Qed.
Lemma holds_moved v : hold (moved mv v) = hold v.
Proof. now destruct v as [[k x]|]. Qed.
Lemma moved_lt v : (forall k x, v = Some (k, x) -> (k < n ts)%nat) -> forall k x, moved mv v = Some (k, x) -> (k < n ts)%nat.
Proof. intros K k x. destruct v as [[k' y]|]; cbn [moved]; [intros H; injection H as <- _; eauto|discriminate]. Qed.
Lemma none_lt k (x : A) : None = Some (k, x) -> (k < n ts)%nat.
Proof. discriminate. Qed.

Ltac count2_ := repeat match goal with v : content |- _ => destruct v as [[? ?]|] end; cbn [holds moved] in *; lia.
Lemma swap_tmp_ok w m g b i j v u : wf ts w -> i <> j -> see w i = Some v -> see w j = Some u ->
  move_constructible_trait ts <> Unavailable -> (nothrow_move ts v = true -> nothrow_move ts u = true) ->
  (exists m' g' b', swap_tmp mv ts (Var i) (Var j) (st ts w m g b) =
      Done (st ts (set_nth (set_nth w i (Some u)) j (Some v)) m' g' b') tt /\ (b = None -> b' = None) /\ m' + g = m + g') \/
  (exists w' m' g', swap_tmp mv ts (Var i) (Var j) (st ts w m g b) = Thrown (st ts w' m' g' None) /\ b <> None /\
      (nothrow_move ts v = false \/ nothrow_move ts u = false) /\
      (w' = w \/ (nothrow_move ts v = false /\ nothrow_move ts u = false /\
         (w' = set_nth w j (Some None) \/ w' = set_nth (set_nth w i (Some None)) j (Some v)))) /\
      m' + g + alive w = m + g' + alive w').
Proof.
  intros F D P P' MT NT.
  assert (Kv : forall k x, v = Some (k, x) -> (k < n ts)%nat) by (intros k x ->; exact (F _ _ _ P)).
  assert (Ku : forall k x, u = Some (k, x) -> (k < n ts)%nat) by (intros k x ->; exact (F _ _ _ P')).
  pose proof (see_lt _ _ _ P) as L. pose proof (see_lt _ _ _ P') as L'. rewrite <- (conc_length ts w) in L, L'.
  pose proof (see_conc ts _ _ _ P) as Q. pose proof (see_conc ts _ _ _ P') as Q'.
  change (st ts w m g b) with (State (conc ts w) None m g b). remember (conc ts w) as V eqn:EV.
  pattern (swap_tmp mv ts (Var i) (Var j) (State V None m g b)).
  match goal with |- ?f _ => set (Pr := f) end.
  unfold swap_tmp, bindc at 1.
  destruct (to_tmp V m g b j u L' Q' Ku MT) as [(b1 & E1 & B1)|(E1 & B1 & N1)]; rewrite E1.
  2:{ subst Pr; cbv beta. right. exists w, m, g. split; [subst V; reflexivity|]. auto. }
  unfold try_, bindc at 1.
  set (V1 := set_nth V j (Some (obj ts (moved mv u)))).
  assert (L1 : i < length V1) by (unfold V1; rewrite set_nth_length; exact L).
  assert (L1' : j < length V1) by (unfold V1; rewrite set_nth_length; exact L').
  assert (Q1 : nth_error V1 i = Some (Some (obj ts v))) by (unfold V1; rewrite nth_set_other by congruence; exact Q).
  assert (Q1' : nth_error V1 j = Some (Some (obj ts (moved mv u)))) by (unfold V1; now rewrite nth_set_same).
  destruct (to_var V1 (Some (obj ts u)) (m + hold u) g b1 j (moved mv u) i v D L1 L1' Q1 Q1' (moved_lt u Ku) Kv)
    as [(b2 & E2 & B2)|(E2 & B2 & N2)]; rewrite E2.
  - set (V2 := set_nth (set_nth V1 i (Some (obj ts (moved mv v)))) j (Some (obj ts v))).
    assert (L2 : i < length V2) by (unfold V2; rewrite !set_nth_length; exact L1).
    assert (Q2 : nth_error V2 i = Some (Some (obj ts (moved mv v))))
      by (unfold V2; rewrite nth_set_other by congruence; now rewrite nth_set_same).
    destruct (from_tmp V2 (m + hold u + hold v) (g + hold (moved mv u)) b2 i (moved mv v) u L2 Q2 (moved_lt v Kv) Ku)
      as [(b3 & E3 & B3)|(E3 & B3 & N3)]; rewrite E3; unfold V2, V1.
    + rewrite del_tmp by (apply moved_lt; exact Ku). subst Pr; cbv beta. left. do 3 eexists. split; [unfold st; rewrite !conc_set, <- EV|].
      * cbn [option_map]. norm_. rewrite (set_comm V j i) by congruence. reflexivity.
      * split; [auto|]. count2_.
    + rewrite del_tmp by auto. subst Pr; cbv beta. right. exists (set_nth (set_nth w i (Some None)) j (Some v)). do 2 eexists.
      split; [unfold st; rewrite !conc_set, <- EV; cbn [option_map]; norm_; rewrite (set_comm V j i) by congruence; reflexivity|].
      assert (N4 : nothrow_move ts v = false) by (destruct (nothrow_move ts v); [specialize (NT eq_refl); congruence|reflexivity]).
      split; [tauto|]. split; [auto|]. split; [auto 10|].
      pose proof (alive_upd2 w i j v u (Some None) (Some v) D P P') as C. count2_.
  - unfold bindc, get. cbn [tmp]. rewrite nothrow_obj by exact Ku. destruct (nothrow_move ts u) eqn:N3.
    + set (V2 := set_nth V1 j (Some (obj ts None))).
      assert (L2 : j < length V2) by (unfold V2; rewrite set_nth_length; exact L1').
      assert (Q2 : nth_error V2 j = Some (Some (obj ts None))) by (unfold V2; now rewrite nth_set_same).
      destruct (from_tmp V2 (m + hold u) (g + hold (moved mv u)) None j None u L2 Q2 none_lt Ku)
        as [(b3 & E3 & B3)|(E3 & B3 & _)]; [|congruence].
      rewrite E3, del_tmp by (apply moved_lt; exact Ku). unfold V2, V1. subst Pr; cbv beta. right. exists w. do 2 eexists.
      split; [unfold st; rewrite <- EV; norm_; keep_; rewrite (B3 eq_refl); reflexivity|].
      split; [tauto|]. split; [auto|]. split; [auto|]. count2_.
    + unfold ret. rewrite del_tmp by exact Ku. unfold V1. subst Pr; cbv beta. right. exists (set_nth w j (Some None)). do 2 eexists.
      split; [unfold st; rewrite conc_set, <- EV; norm_; reflexivity|].
      split; [tauto|]. split; [auto|]. split; [auto 10|].
      pose proof (alive_upd w j (Some None) u P') as C. count2_.
Qed.

Lemma swap_good w m g b i j w1 : wf ts w -> meaning mv dflt ts w (Swap i j) = Some w1 ->
  good mv ts (Swap i j) w m g b w1 (swap mv ts i j (st ts w m g b)).
Proof.
  intros F. unfold meaning. cbn [viable].
  destruct (has_op ts move_c) eqn:HO; [|discriminate]. cbn [negb]. intros H.
  apply has_op_avail in HO. change (move_constructible_trait ts <> Unavailable) in HO.
  apply obind_some in H; destruct H as (v & P & H). apply obind_some in H; destruct H as (u & P' & H).
  injection H as <-.
  assert (Kv : forall k x, v = Some (k, x) -> (k < n ts)%nat) by (intros k x ->; exact (F _ _ _ P)).
  assert (Ku : forall k x, u = Some (k, x) -> (k < n ts)%nat) by (intros k x ->; exact (F _ _ _ P')).
  destruct (same_alt v u) eqn:SA.
  - destruct (Nat.eq_dec i j) as [<-|D].
    + rewrite P in P'; injection P' as <-.
      destruct v as [[k x]|]; facts P F; upd_; rewrite ?set_set; destr_; unfold st; exec;
      first [fin_ | thrown_ (set_nth w i (Some (Some (k, mv k x))))].
    + destruct v as [[k x]|], u as [[k' x']|]; cbn [same_alt] in SA; try discriminate SA;
      try (apply Nat.eqb_eq in SA; subst k'); facts P F; facts P' F; upd_; unfold st; exec;
      first [ fin_
            | thrown_ (set_nth w i (Some (Some (k, mv k x))))
            | thrown_ (set_nth (set_nth w i (Some (Some (k, x')))) j (Some (Some (k, mv k x')))) ].
  - assert (D : i <> j).
    { intros <-. rewrite P in P'. injection P' as <-. destruct v as [[k x]|]; cbn [same_alt] in SA; [|discriminate].
      now rewrite Nat.eqb_refl in SA. }
    pose proof (see_lt _ _ _ P) as L. pose proof (see_lt _ _ _ P') as L'.
    pose proof (see_conc ts _ _ _ P) as Q. pose proof (see_conc ts _ _ _ P') as Q'.
    rewrite (upd_set w i) by exact L. rewrite upd_set by (rewrite set_nth_length; exact L').
    cbv beta iota zeta delta [swap noexcept_ bindc get st vars]. rewrite Q. cbv beta iota. rewrite Q'. cbv beta iota.
    change (State (conc ts w) None m g b) with (st ts w m g b).
    assert (VV : valueless ts (obj ts v) && valueless ts (obj ts u) = false).
    { destruct v as [[k x]|], u as [[k' x']|]; cbn [same_alt] in SA; try discriminate; cbn [obj];
        rewrite ?valueless_none, ?(valueless_alt mv ts Co) by eauto; reflexivity. }
    assert (II : (index ts (obj ts v) =? index ts (obj ts u))%Z = false).
    { destruct v as [[k x]|], u as [[k' x']|]; cbn [same_alt] in SA; try discriminate; cbn [obj];
        rewrite ?index_none, ?(index_alt mv ts Co) by eauto;
        rewrite ?(npos_eqb mv ts Co), ?(eqb_npos mv ts Co), ?nat_eqb by eauto; auto. }
    rewrite VV, II, !nothrow_obj by assumption.
    assert (NX : all_alts ts (fun t => nt_move t && (nt_move t && nt_move_assign t)) = true ->
                 nothrow_move ts v = true /\ nothrow_move ts u = true).
    { intros AA. split.
      - destruct v as [[k x]|]; [|reflexivity]. pose proof (all_alts_at ts _ k AA (Kv k x eq_refl)) as Z. cbv beta in Z.
        apply Bool.andb_true_iff in Z. apply Z.
      - destruct u as [[k x]|]; [|reflexivity]. pose proof (all_alts_at ts _ k AA (Ku k x eq_refl)) as Z. cbv beta in Z.
        apply Bool.andb_true_iff in Z. apply Z. }
    assert (NQ : nothrow_move ts v = false \/ nothrow_move ts u = false -> all_noexcept ts = true -> quiet ts (@Swap A i j) = true -> False).
    { intros NM AN _. destruct NM as [NM|NM].
      - destruct v as [[k x]|]; [|discriminate]. cbn [nothrow_move] in NM. pose proof (noexcept_at ts k AN (Kv k x eq_refl)). intuition congruence.
      - destruct u as [[k x]|]; [|discriminate]. cbn [nothrow_move] in NM. pose proof (noexcept_at ts k AN (Ku k x eq_refl)). intuition congruence. }
    assert (CC : forall m' g', m' + g = m + g' -> m' + g + alive w = m + g' + alive (set_nth (set_nth w i (Some u)) j (Some v))).
    { intros m' g' E. pose proof (alive_upd2 w i j v u (Some u) (Some v) D P P'). lia. }
    destruct (nothrow_move ts v && negb (nothrow_move ts u)) eqn:DIR.
    + apply Bool.andb_true_iff in DIR. destruct DIR as [Nv Nu]. apply Bool.negb_true_iff in Nu.
      destruct (swap_tmp_ok w m g b j i u v F (not_eq_sym D) P' P HO) as [(m' & g' & b' & E & B & C)|(w' & m' & g' & E & B & NM & W & C)];
        [congruence| |]; rewrite E.
      * left. do 3 eexists. rewrite (set_comm w j i) by congruence. split; [reflexivity|]. auto.
      * destruct (all_alts ts _) eqn:AA; [destruct (NX eq_refl); congruence|].
        right. exists w', m', g'. split; [reflexivity|]. split; [exact B|].
        split; [|split; [tauto|exact C]]. cbn [after_throw]. rewrite P, P'. left. destruct W as [W|W]; [exact W|]. intuition congruence.
    + assert (NT : nothrow_move ts v = true -> nothrow_move ts u = true).
      { intros Nv. rewrite Nv in DIR. now destruct (nothrow_move ts u). }
      destruct (swap_tmp_ok w m g b i j v u F D P P' HO NT) as [(m' & g' & b' & E & B & C)|(w' & m' & g' & E & B & NM & W & C)];
        rewrite E.
      * left. do 3 eexists. split; [reflexivity|]. auto.
      * destruct (all_alts ts _) eqn:AA; [destruct (NX eq_refl), NM; congruence|].
        right. exists w', m', g'. split; [reflexivity|]. split; [exact B|].
        split; [|split; [tauto|exact C]]. cbn [after_throw]. rewrite P, P', SA.
        rewrite !upd_set by (rewrite ?upd_set, ?set_nth_length by assumption; assumption). exact W.
Qed.
End Q.
