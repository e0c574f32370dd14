(** Proofs about programs with variants, about the observers and the comparison. *)
From Coq Require Import PeanoNat.
From Verif Require Import Base VtModel VtSpec VtProofs.

Section R.
Context {A : Type} (mv : nat -> A -> A) (dflt : A) (ts : list alt_ty) (Co : coherent mv ts).
Implicit Types (w : @world A) (s : @state A).

Lemma call_good w m g b op w1 : wf ts w -> meaning mv dflt ts w op = Some w1 ->
  good mv ts op w m g b w1 (call mv dflt ts op (st ts w m g b)).
Proof.
  destruct op; cbn [call]; intros F H.
  - now apply ctor_default_good.
  - now apply ctor_in_place_good with dflt.
  - now apply ctor_copy_good with dflt.
  - now apply ctor_move_good with dflt.
  - now apply dtor_good with dflt.
  - now apply assign_copy_good with dflt.
  - now apply assign_move_good with dflt.
  - now apply assign_good with dflt.
  - now apply emplace_good with dflt.
  - now apply write_good with dflt.
  - now apply swap_good with dflt.
Qed.

Lemma upd_past w i v : length w <= i -> upd w i v = w ++ [v].
Proof. intros H. unfold upd. rewrite firstn_all2, skipn_all2 by lia. reflexivity. Qed.
Lemma wf_upd w i v : wf ts w -> (forall k x, v = Some (Some (k, x)) -> (k < n ts)%nat) ->
  i < length w -> wf ts (upd w i v).
Proof. intros F H L. rewrite upd_set by exact L. now apply wf_set. Qed.
Lemma upd_length w i v : i < length w -> length (upd w i v) = length w.
Proof. intros H. rewrite upd_set by exact H. apply set_nth_length. Qed.
Lemma wf_moved w j u : wf ts w -> see w j = Some u -> forall k x, Some (moved mv u) = Some (Some (k, x)) -> (k < n ts)%nat.
Proof.
  intros F P k x. destruct u as [[k' y]|]; cbn [moved]; [|discriminate].
  intros H. injection H as <- _. exact (F _ _ _ P).
Qed.
Lemma wf_same w j u : wf ts w -> see w j = Some u -> forall k x, Some u = Some (Some (k, x)) -> (k < n ts)%nat.
Proof. intros F P k x H. injection H as ->. exact (F _ _ _ P). Qed.
Lemma wf_eval w k a x w' : wf ts w -> (k < n ts)%nat -> eval mv w k a = Some (x, w') -> wf ts w' /\ length w' = length w.
Proof.
  intros F K E. apply eval_inv in E. destruct a as [c t y|[j|]|[j|]|c t j]; cbn [eval_facts] in E; try contradiction.
  - destruct E as [_ ->]; auto.
  - destruct E as [_ ->]; auto.
  - destruct E as [_ ->]. split; [apply wf_set; [exact F|congruence]|apply set_nth_length].
  - destruct E as [_ ->]; auto.
Qed.

Lemma meaning_wf w op w1 : wf ts w -> meaning mv dflt ts w op = Some w1 -> wf ts w1 /\ length w1 = length w.
Proof.
  intros F H. unfold meaning in H. destruct (viable ts op); [|discriminate]. cbn [negb] in H.
  assert (K0 : (0 < n ts)%nat). { destruct Co as [[C _] _]. unfold n. lia. }
  destruct op.
  - destruct (free w i) eqn:G; [|discriminate]. injection H as <-. apply free_lt in G.
    split; [apply wf_upd; auto; congruence|now apply upd_length].
  - destruct (free w i) eqn:G; [|discriminate]. destruct (Nat.ltb_spec k (length ts)); [|discriminate].
    apply obind_some in H; destruct H as ([x w'] & E & H). injection H as <-. apply free_lt in G.
    change (k < n ts)%nat in H0. destruct (wf_eval _ _ _ _ _ F H0 E) as [F' E']. cbn [fst snd].
    split; [apply wf_upd; [auto|congruence|congruence]|rewrite upd_length; congruence].
  - destruct (free w i) eqn:G; [|discriminate]. apply free_lt in G.
    apply obind_some in H; destruct H as (u & P & H). injection H as <-.
    split; [apply wf_upd; auto; eapply wf_same; eauto|now apply upd_length].
  - destruct (free w i) eqn:G; [|discriminate]. apply free_lt in G.
    apply obind_some in H; destruct H as (u & P & H). injection H as <-. pose proof (see_lt _ _ _ P).
    split; [|now rewrite !upd_length by (rewrite ?upd_length; assumption)].
    apply wf_upd; [apply wf_upd; auto; eapply wf_moved; eauto|eapply wf_same; eauto|now rewrite upd_length].
  - apply obind_some in H; destruct H as (u & P & H). injection H as <-. pose proof (see_lt _ _ _ P).
    split; [apply wf_upd; auto; discriminate|now apply upd_length].
  - apply obind_some in H; destruct H as (u & P & H). apply obind_some in H; destruct H as (v & P' & H).
    injection H as <-. pose proof (see_lt _ _ _ P).
    split; [apply wf_upd; auto; eapply wf_same; eauto|now apply upd_length].
  - apply obind_some in H; destruct H as (u & P & H). apply obind_some in H; destruct H as (v & P' & H).
    injection H as <-. pose proof (see_lt _ _ _ P). pose proof (see_lt _ _ _ P').
    split; [|now rewrite !upd_length by (rewrite ?upd_length; assumption)].
    apply wf_upd; [apply wf_upd; auto; eapply wf_moved; eauto|eapply wf_same; eauto|now rewrite upd_length].
  - apply obind_some in H; destruct H as (u & P & H).
    destruct (Nat.ltb_spec k (length ts)); [|discriminate]. cbn [andb] in H.
    destruct (holds_alt u k || negb (refers a i)); [|discriminate].
    apply obind_some in H; destruct H as ([x w'] & E & H). injection H as <-. pose proof (see_lt _ _ _ P).
    change (k < n ts)%nat in H0. destruct (wf_eval _ _ _ _ _ F H0 E) as [F' E']. cbn [fst snd].
    split; [apply wf_upd; [auto|congruence|congruence]|rewrite upd_length; congruence].
  - apply obind_some in H; destruct H as (u & P & H).
    destruct (Nat.ltb_spec k (length ts)); [|discriminate]. cbn [andb] in H.
    destruct (negb (refers a i)); [|discriminate].
    apply obind_some in H; destruct H as ([x w'] & E & H). injection H as <-. pose proof (see_lt _ _ _ P).
    change (k < n ts)%nat in H0. destruct (wf_eval _ _ _ _ _ F H0 E) as [F' E']. cbn [fst snd].
    split; [apply wf_upd; [auto|congruence|congruence]|rewrite upd_length; congruence].
  - apply obind_some in H; destruct H as (u & P & H). destruct u as [[k' y]|]; cbn [holds_alt] in H; [|discriminate].
    destruct (Nat.eqb_spec k k') as [<-|]; [|discriminate]. pose proof (F _ _ _ P) as K.
    apply obind_some in H; destruct H as ([x w'] & E & H). injection H as <-. pose proof (see_lt _ _ _ P).
    destruct (wf_eval _ _ _ _ _ F K E) as [F' E']. cbn [fst snd].
    split; [apply wf_upd; [auto|congruence|congruence]|rewrite upd_length; congruence].
  - apply obind_some in H; destruct H as (u & P & H). apply obind_some in H; destruct H as (v & P' & H).
    injection H as <-. pose proof (see_lt _ _ _ P). pose proof (see_lt _ _ _ P').
    split; [|now rewrite !upd_length by (rewrite ?upd_length; assumption)].
    apply wf_upd; [apply wf_upd; auto; eapply wf_same; eauto|eapply wf_same; eauto|now rewrite upd_length].
Qed.

Lemma none_no (k : nat) (x : A) : Some (@None (nat * A)) = Some (Some (k, x)) -> (k < n ts)%nat.
Proof. discriminate. Qed.
Lemma replace_failed_wf w i k : wf ts w -> wf ts (replace_failed ts w i k) /\ length (replace_failed ts w i k) = length w.
Proof.
  intros F. unfold replace_failed. destruct (see w i) as [v|] eqn:P; [|auto].
  destruct (holds_alt v k || nt_move (ty ts k)); [auto|]. pose proof (see_lt _ _ _ P).
  split; [apply wf_upd; auto; exact none_no|now apply upd_length].
Qed.
Lemma throw_wf w op w1 w' : wf ts w -> meaning mv dflt ts w op = Some w1 -> after_throw mv ts w op w' ->
  wf ts w' /\ length w' = length w.
Proof.
  intros F H. destruct op; cbn [after_throw]; try (intros ->; now auto).
  - destruct (see w j) as [[[k x]|]|]; try contradiction. intros ->. now apply replace_failed_wf.
  - destruct (see w j) as [[[k x]|]|]; try contradiction. intros ->. now apply replace_failed_wf.
  - intros ->. now apply replace_failed_wf.
  - intros ->. unfold meaning in H. cbn [viable negb] in H.
    apply obind_some in H; destruct H as (u & P & _). pose proof (see_lt _ _ _ P).
    split; [apply wf_upd; auto; exact none_no|now apply upd_length].
  - destruct (see w i) as [v|] eqn:P; [|contradiction]. destruct (see w j) as [u|] eqn:P'; [|contradiction].
    pose proof (see_lt _ _ _ P). pose proof (see_lt _ _ _ P').
    intros [->|G]; [auto|]. destruct (same_alt v u).
    + destruct G as [-> | ->].
      * split; [apply wf_upd; auto; eapply wf_moved; eauto|now apply upd_length].
      * split; [|now rewrite !upd_length by (rewrite ?upd_length; assumption)].
        apply wf_upd; [apply wf_upd; auto; eapply wf_same; eauto|eapply wf_moved; eauto|now rewrite upd_length].
    + destruct G as (_ & _ & [-> | ->]).
      * split; [apply wf_upd; auto; exact none_no|now apply upd_length].
      * split; [|now rewrite !upd_length by (rewrite ?upd_length; assumption)].
        apply wf_upd; [apply wf_upd; auto; exact none_no|eapply wf_same; eauto|now rewrite upd_length].
Qed.

(** Reachable states *)
Definition canon m s : Prop :=
  exists w b, wf ts w /\ s = st ts w (made s) (gone s) b /\ made s = gone s + alive w /\ length w = m.
Lemma canon_view m s : canon m s ->
  wf ts (view ts s) /\ s = st ts (view ts s) (made s) (gone s) (bud s) /\ made s = gone s + alive (view ts s)
  /\ length (view ts s) = m.
Proof.
  intros (w & b & F & E & C & L). assert (V : view ts s = w) by (rewrite E; now apply (view_st mv)).
  rewrite V. split; [exact F|]. split; [|now auto]. rewrite E at 1. rewrite E. reflexivity.
Qed.
Lemma start_canon m g : canon m (start m g).
Proof.
  exists (none m), g. split; [|split; [|split]].
  - intros i k x. unfold see, none. destruct (nth_error (repeat None m) i) as [v|] eqn:E; [|discriminate].
    apply nth_error_In, repeat_spec in E. congruence.
  - unfold start, st, conc, none. cbn [made gone]. f_equal. now induction m; [|cbn; f_equal].
  - unfold start, none, alive. cbn [made gone]. now induction m.
  - apply repeat_length.
Qed.
Lemma view_start m g : view ts (@start A m g) = none m.
Proof. unfold view, start, none. cbn [vars]. now induction m; [|cbn; f_equal]. Qed.
Lemma budget_st w m g b b' : with_budget b' (st ts w m g b) = st ts w m g b'.
Proof. reflexivity. Qed.
(** One call from a reachable state *)
Lemma call_canon m s g op w : canon m s -> meaning mv dflt ts (view ts s) op = Some w ->
  (exists s', call mv dflt ts op (with_budget g s) = Done s' tt /\ canon m s' /\ view ts s' = w /\ (g = None -> bud s' = None)) \/
  (exists s', call mv dflt ts op (with_budget g s) = Thrown s' /\ canon m s' /\ g <> None /\
     after_throw mv ts (view ts s) op (view ts s') /\ (all_noexcept ts = true -> quiet ts op = true -> False)).
Proof.
  intros C H. apply canon_view in C. destruct C as (F & E & C & L).
  pose proof (call_good (view ts s) (made s) (gone s) g op w F H) as G.
  rewrite E, budget_st. destruct G as [(m' & g' & b' & R & B & K)|(w' & m' & g' & R & B & AT & Q & K)]; rewrite R.
  - left. eexists; split; [reflexivity|]. destruct (meaning_wf _ _ _ F H) as [F1 L1].
    split; [|split; [now apply (view_st mv)|exact B]].
    exists w, b'. cbn [st made gone]. split; [exact F1|]. split; [reflexivity|]. split; [lia|congruence].
  - right. eexists; split; [reflexivity|]. destruct (throw_wf _ _ _ _ F H AT) as [F1 L1].
    split; [|split; [exact B|]].
    + exists w', None. cbn [st made gone]. split; [exact F1|]. split; [reflexivity|]. split; [lia|congruence].
    + rewrite !(view_st mv ts Co) by assumption. auto.
Qed.
Lemma reach_canon m s : reach mv dflt ts m s -> canon m s.
Proof.
  induction 1 as [g|s g op s' R IH M H]; [apply start_canon|].
  destruct (meaning mv dflt ts (view ts s) op) as [w|] eqn:E; [|congruence].
  destruct (call_canon m s g op w IH E) as [(s1 & D & C & _)|(s1 & D & C & _)]; rewrite D in H; destruct H as [H|H];
    try discriminate; injection H as <-; exact C.
Qed.
Lemma calls_canon m ops : forall s w, canon m s -> bud s = None -> meanings mv dflt ts (view ts s) ops = Some w ->
  exists s', calls mv dflt ts ops s = Done s' tt /\ canon m s' /\ view ts s' = w.
Proof.
  induction ops as [|op ops IH]; intros s w C B H; cbn [meanings calls] in *.
  - injection H as <-. eauto.
  - apply obind_some in H; destruct H as (w1 & H1 & H2).
    replace s with (with_budget None s) by (destruct s; cbn in *; now rewrite B).
    destruct (call_canon m s None op w1 C H1) as [(s1 & D & C1 & V1 & B1)|(s1 & _ & _ & N & _)]; [|congruence].
    rewrite D. subst w1. apply IH; auto.
Qed.

(** Objects *)
Lemma variant_some (o : @vobj A) k x : is_variant ts o (Some (k, x)) ->
  (k < n ts)%nat /\ o = V (store ts (Z.of_nat k)) (Alt k x).
Proof.
  intros (R & O_ & K). split; [exact K|]. unfold observe in O_.
  destruct (Z.eqb_spec (index ts o) npos) as [|NP]; [discriminate|].
  destruct (get_ ts o (Z.to_nat (index ts o))) as [y| | |] eqn:G; try discriminate.
  injection O_ as E <-. rewrite E in G. unfold get_, holds_alternative in G.
  destruct (Z.eqb_spec (index ts o) (Z.of_nat k)) as [I|]; [|discriminate].
  unfold index in I, NP. destruct (valueless ts o); [congruence|].
  unfold alt_value in G. destruct o as [z [|k' x']]; cbn [data idx] in *; [discriminate|].
  destruct (Nat.eqb_spec k k') as [<-|]; [|discriminate]. injection G as ->.
  rewrite (store_nat mv ts Co) by exact K. now subst.
Qed.
Lemma bits_small : (index_bits ts <= 32)%Z.
Proof. unfold index_bits. destruct (_ <? _)%Z; [lia|]. destruct (_ <? _)%Z; lia. Qed.
Lemma variant_none (o : @vobj A) : is_variant ts o None -> exists c, o = V (minus1 ts) c.
Proof.
  intros (R & O_ & _). unfold observe in O_. destruct (Z.eqb_spec (index ts o) npos) as [NP|]; [|now destruct (get_ _ _ _)].
  unfold index in NP. destruct (valueless ts o) eqn:V.
  - exists (data o). unfold valueless in V. apply Z.eqb_eq in V. rewrite <- V. now destruct o.
  - exfalso. pose proof bits_small. pose proof (Z.pow_le_mono_r 2 _ _ eq_refl H). unfold npos in NP. lia.
Qed.
Lemma obj_variant (v : @content A) : (forall k x, v = Some (k, x) -> (k < n ts)%nat) -> is_variant ts (obj ts v) v.
Proof.
  intros H. split; [|split; [now apply (observe_obj mv)|destruct v as [[k x]|]; [now apply (H k x)|exact Logic.I]]].
  destruct v as [[k x]|]; cbn [obj idx]; unfold minus1, store; apply Z.mod_pos_bound; unfold index_bits;
    (destruct (_ <? _)%Z; [lia|]; destruct (_ <? _)%Z; lia).
Qed.
Lemma reach_object m s i v : reach mv dflt ts m s -> see (view ts s) i = Some v ->
  exists o, nth_error (vars s) i = Some (Some o) /\ is_variant ts o v.
Proof.
  intros R P. apply reach_canon, canon_view in R. destruct R as (F & E & _). exists (obj ts v). split.
  - rewrite E. cbn [st vars]. now apply see_conc.
  - apply obj_variant. intros k x ->. exact (F _ _ _ P).
Qed.
End R.

(** Observers *)
Lemma lxor_inj a b c : Z.lxor a b = Z.lxor a c -> b = c.
Proof.
  intros H. rewrite <- (Z.lxor_0_l b), <- (Z.lxor_0_l c), <- (Z.lxor_nilpotent a), !Z.lxor_assoc. now rewrite H.
Qed.
Lemma mod_inj a b c m : (0 < m)%Z -> (0 <= a < m)%Z -> (0 <= b < m)%Z -> ((a + c) mod m = (b + c) mod m)%Z -> a = b.
Proof.
  intros M A B H. pose proof (Z.div_mod (a + c) m ltac:(lia)). pose proof (Z.div_mod (b + c) m ltac:(lia)).
  assert ((a + c) / m = (b + c) / m \/ (a + c) / m <= (b + c) / m - 1 \/ (b + c) / m + 1 <= (a + c) / m)%Z as [E|[E|E]] by lia; nia.
Qed.
Lemma find_loop_spec m : forall i r,
  match find_loop m i r with
  | NotFound => r = NotFound /\ (forall j, nth_error m j <> Some true)
  | Index k => (r = Index k /\ (forall j, nth_error m j <> Some true)) \/
               (r = NotFound /\ exists j, k = i + j /\ unique_at m j)
  | Ambiguous => r = Ambiguous \/ (exists k j, r = Index k /\ nth_error m j = Some true) \/
               (exists j j', j <> j' /\ nth_error m j = Some true /\ nth_error m j' = Some true)
  end.
Proof.
  induction m as [|b m IH]; intros i r; cbn [find_loop].
  - destruct r; auto.
    + split; [reflexivity|]. intros [|j]; discriminate.
    + left. split; [reflexivity|]. intros [|j]; discriminate.
  - destruct b.
    + destruct r as [| |k].
      * specialize (IH (S i) (Index i)). destruct (find_loop m (S i) (Index i)) as [| |k'].
        -- destruct IH; discriminate.
        -- destruct IH as [IH|[(k & j & E & Hj)|(j & j' & D & Hj & Hj')]]; [discriminate| |].
           ++ right. right. exists 0, (S j). cbn. auto.
           ++ right. right. exists (S j), (S j'). cbn. split; [congruence|auto].
        -- destruct IH as [(E & N)|(E & _)]; [|discriminate]. injection E as ->. right. split; [reflexivity|].
           exists 0. split; [lia|]. split; [reflexivity|]. intros [|j] H; [reflexivity|]. now apply N in H.
      * auto.
      * right. left. exists k, 0. auto.
    + specialize (IH (S i) r). destruct (find_loop m (S i) r) as [| |k'].
      * destruct IH as [-> N]. split; [reflexivity|]. intros [|j]; [discriminate|apply N].
      * destruct IH as [IH|[(k & j & E & Hj)|(j & j' & D & Hj & Hj')]]; [auto| |].
        -- right. left. exists k, (S j). auto.
        -- right. right. exists (S j), (S j'). cbn. split; [congruence|auto].
      * destruct IH as [(E & N)|(E & j & -> & U1 & U2)].
        -- left. split; [exact E|]. intros [|j]; [discriminate|apply N].
        -- right. split; [exact E|]. exists (S j). split; [lia|]. split; [exact U1|].
           intros [|j'] H; [discriminate|]. f_equal. now apply U2.
Qed.

Section O.
Context {A : Type}.
Implicit Types (o : @vobj A).
Lemma collect_app v1 : forall v2, collect (v1 ++ v2) =
  (match collect v1 with Ok l1 => match @collect A v2 with Ok l2 => Ok (l1 ++ l2) | r => r end | r => r end)%outcome.
Proof.
  induction v1 as [|[k o] v1 IH]; intros v2; cbn [app collect].
  - now destruct (collect v2).
  - destruct (alt_value o k); cbn [bind]; try reflexivity. rewrite IH.
    destruct (collect v1); cbn [bind]; try reflexivity. now destruct (collect v2).
Qed.
Lemma visit_alt_spec {S R} (f : list (nat * A) -> S -> outcome (S * R)) s vs : forall l visited l0,
  variants vs (map Some l) -> collect visited = Ok l0 -> visit_alt f visited vs s = f (l0 ++ l) s.
Proof.
  induction vs as [|[ts o] vs IH]; intros l visited l0 V C.
  - destruct l; inversion V. cbn [visit_alt]. rewrite C. cbn [bind]. now rewrite app_nil_r.
  - destruct l as [|[k x] l]; inversion V as [|? ? ? ? ((mv & Co) & H) V']; subst. cbn [fst snd] in *.
    destruct (variant_some mv ts Co o k x H) as [K ->]. cbn [visit_alt]. rewrite (index_alt mv ts Co) by exact K.
    change (length ts) with (n ts). rewrite dispatch_at by exact K.
    rewrite (IH l _ (l0 ++ [(k, x)])); [now rewrite <- app_assoc|exact V'|].
    rewrite collect_app, C. cbn [collect]. unfold alt_value. cbn [data]. now rewrite Nat.eqb_refl.
Qed.
Lemma all_some_map {X} (l : list (option X)) l' : all_some l = Some l' -> l = map Some l'.
Proof.
  revert l'. induction l as [|[x|] l IH]; intros l' H; cbn [all_some] in H; try discriminate.
  - injection H as <-. reflexivity.
  - apply obind_some in H; destruct H as (r & H & E). injection E as <-. cbn. f_equal. auto.
Qed.
Lemma valueless_exists vs cs : @variants A vs cs ->
  existsb (fun v => valueless (fst v) (snd v)) vs = match all_some cs with Some _ => false | None => true end.
Proof.
  induction 1 as [|[ts o] v vs cs ((mv & Co) & H) V IH]; [reflexivity|]. cbn [existsb fst snd all_some] in *.
  destruct v as [[k x]|].
  - destruct (variant_some mv ts Co o k x H) as [K ->]. rewrite (valueless_alt mv ts Co) by exact K. rewrite IH.
    cbn [orb]. now destruct (all_some cs).
  - destruct (variant_none ts o H) as (c & ->). now rewrite valueless_none.
Qed.
End O.
