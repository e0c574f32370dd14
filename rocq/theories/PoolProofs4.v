(** Thread pool: capacity, calls and their effects, handles, the clock. *)
From Coq Require Import ZArith List Bool Lia PeanoNat Permutation.
From Verif Require Import Base PoolModel PoolSpec PoolProofs PoolProofs2 PoolProofs3.
Import ListNotations.

(** * Capacity *)
Definition roomy (f : frame) : bool := match f with CShare _ _ | CUnshare _ _ | CPush _ _ => true | _ => false end.
Definition cap_ok (s : st) : Prop := length (pending s) <= cap s /\ (forall t f, In f (stk s t) -> roomy f = true -> length (pending s) < cap s).
Lemma remove_nth_length {A} i (l : list A) : length (remove_nth i l) <= length l.
Proof. unfold remove_nth. rewrite app_length, firstn_length, skipn_length. lia. Qed.
Lemma cnt_pos p f l : In f l -> p f = true -> 0 < cnt p l.
Proof. induction l as [|a l IH]; [intros []|]. cbn [cnt]. intros [->|H] Hp; [rewrite Hp; cbn; lia|specialize (IH H Hp); lia]. Qed.
Lemma nh_le s t : mutex_ok s -> cnt fholds (stk s t) <= 1.
Proof. intros HM. specialize (HM t). unfold nh, own in HM. destruct (mtx s) as [m|]; [destruct (Nat.eqb t m)|]; cbn in HM; lia. Qed.
Lemma nh_two s t t' : mutex_ok s -> 0 < cnt fholds (stk s t) -> 0 < cnt fholds (stk s t') -> t = t'.
Proof.
  intros HM H1 H2. pose proof (HM t) as M1. pose proof (HM t') as M2. unfold nh, own in *. destruct (mtx s) as [m|]; [|lia].
  destruct (Nat.eqb_spec t m); [|cbn in M1; lia]. destruct (Nat.eqb_spec t' m); [|cbn in M2; lia]. congruence.
Qed.
Lemma cap_frame s s' : cap_ok s -> cap s' = cap s -> length (pending s') <= length (pending s) -> (forall t f, roomy f = true -> In f (stk s' t) -> exists t' f', In f' (stk s t') /\ roomy f' = true) -> cap_ok s'.
Proof. intros [H1 H2] E1 E2 Hs. unfold cap_ok. rewrite E1. split; [lia|]. intros t f Hf Hr. destruct (Hs t f Hr Hf) as (t' & f' & H3 & H4). specialize (H2 t' f' H3 H4). lia. Qed.
Lemma cap_step s l s' : step s l s' -> inv s -> cap_ok s -> cap_ok s'.
Proof.
  intros Hs HV HC. destruct Hs; try body_facts.
  all: try (apply (cap_frame s); [exact HC|unfold release, disown; projs; first [reflexivity|assumption]|unfold release, disown; projs; cbn [length]; first [apply Nat.le_refl|apply Nat.le_0_l|apply remove_nth_length]|];
    unfold release, disown; projs; intros v g Hg; unfold upd; repeat match goal with |- context [Nat.eqb ?a ?b] => destruct (Nat.eqb_spec a b); [subst|] end; use_eqs; cbn [In]; try (rewrite in_app_iff; cbn [In]); 
    intros Hi; repeat match goal with H : _ \/ _ |- _ => destruct H end; subst; try discriminate; try contradiction;
    first [match goal with H : In ?x (stk ?ss ?t) |- context [stk ?ss _] => exists t, x; split; assumption end
          |match goal with E : stk ?ss ?t = _ |- context [stk ?ss _] => exists t; rewrite E end; first [solve [eexists; split; [right; eassumption|assumption]]|eexists; split; [left; reflexivity|reflexivity]]]; fail).
  - (* room *) destruct HC as [H1 H2]. split; projs; [exact H1|]. intros; assumption.
  - (* push *) destruct HC as [H1 H2]. assert (Hlt : length (pending s) < cap s) by (apply (H2 t (CPush start name)); [rewrite H; left; reflexivity|reflexivity]).
    split; projs; [rewrite app_length; cbn [length]; lia|]. intros v f Hf Hr. exfalso. unfold upd in Hf. destruct (Nat.eqb_spec v t); [subst v|].
    + destruct Hf as [<-|Hf]; [discriminate Hr|]. pose proof (nh_le s t (v_mtx _ HV)) as Hn. rewrite H in Hn. cbn [cnt fholds b2n] in Hn. pose proof (cnt_pos fholds f rest Hf). destruct f; try discriminate Hr; cbn in *; lia.
    + apply n. eapply nh_two; [apply (v_mtx _ HV)|eapply cnt_pos; [exact Hf|destruct f; try discriminate Hr; reflexivity]|rewrite H; cbn; lia].
  - (* body *) apply (cap_frame s); [exact HC|projs; exact B2|projs|projs].
    + destruct o; cbn [body] in H1; try (destruct (index_of _ _) as [i|]); injection H1 as <- <- <-; projs; try apply Nat.le_refl; [apply remove_nth_length|cbn; lia].
    + intros v g Hg. rewrite B10. unfold upd. destruct (Nat.eqb_spec v t); [subst|intros; exists v, g; tauto]. intros [<-|Hi]; [discriminate Hg|]. exists t, g. rewrite H. cbn. tauto.
  - (* rel *) apply (cap_frame s); [exact HC|reflexivity|apply Nat.le_refl|projs].
    intros v g Hg. unfold upd. destruct (Nat.eqb_spec v t); [subst|intros; exists v, g; tauto]. intros [<-|Hi]; [destruct r; discriminate Hg|]. exists t, g. rewrite H. cbn. tauto.
  - apply (cap_frame s); [exact HC|reflexivity|apply Nat.le_refl|projs].
    intros v g Hg. unfold upd. destruct (Nat.eqb_spec v t); [subst|intros; exists v, g; tauto]. intros Hi. exists t, g. rewrite H. split; [|exact Hg].
    destruct x; try (right; exact Hi). apply in_app_or in Hi. destruct Hi as [Hi|[<-|[]]]; [right; exact Hi|discriminate Hg].
Qed.

(** * Calls and their effects *)
Definition opf (f : frame) : bool :=
  match f with CLock _ | CBody _ | CShare _ _ | CUnshare _ _ | CPush _ _ | CRel _ _ | CNote _ _ | CRet _ _ | HWeak _ | HReady _ => true | _ => false end.
Definition fr_ok (t : nat) (tr : list label) (f : frame) : Prop :=
  match f with
  | CLock o | CBody o | HWeak o => last_call t tr = Some o /\ effects t tr = []
  | CShare a n | CUnshare a n | CPush a n => last_call t tr = Some (OAdd a n) /\ effects t tr = []
  | CRel o r | CNote o r | CRet o r => last_call t tr = Some o /\ effects t tr = [effect_of t o r] /\ (forall id, o = OState id -> r = RState TPending \/ r = RState TRunning \/ r = RState TUnknown)
  | HReady id => last_call t tr = Some (OState id) /\ effects t tr = [LQuery t (OState id) (RState TUnknown)]
  | HDrop id => last_call t tr = Some (OCancel id)
  | _ => True
  end.
Definition call_ok (tr : list label) (s : st) : Prop := forall t, cnt opf (stk s t) <= 1 /\ forall f, In f (stk s t) -> fr_ok t tr f.
(** events that do not concern thread t *)
Definition silent (t : nat) (l : label) : bool := negb (effect_by t l) && match l with LCall t' _ => negb (Nat.eqb t' t) | _ => true end.
Lemma silent_same t l tr : silent t l = true -> last_call t (l :: tr) = last_call t tr /\ effects t (l :: tr) = effects t tr.
Proof.
  unfold silent. intros H. apply andb_true_iff in H. destruct H as [H1 H2]. apply negb_true_iff in H1. destruct l; cbn [last_call effects]; try rewrite H1; try (split; reflexivity).
  apply negb_true_iff in H2. rewrite H2. split; reflexivity.
Qed.
Lemma fr_silent t l tr f : silent t l = true -> fr_ok t tr f -> fr_ok t (l :: tr) f.
Proof. intros H. destruct (silent_same t l tr H) as [E1 E2]. unfold fr_ok. rewrite E1, E2. tauto. Qed.
(** thread t' moves from its stack to st'; the event is silent for all the other threads *)
Lemma call_move tr s l s' t' : call_ok tr s -> (forall t, t <> t' -> stk s' t = stk s t /\ silent t l = true) ->
  (cnt opf (stk s' t') <= 1 /\ forall f, In f (stk s' t') -> fr_ok t' (l :: tr) f) -> call_ok (l :: tr) s'.
Proof.
  intros HC Ho Ht t. destruct (Nat.eq_dec t t') as [->|Hn]; [exact Ht|]. destruct (Ho t Hn) as [E Es]. rewrite E. destruct (HC t) as [H1 H2]. split; [exact H1|]. intros f Hf. apply fr_silent; [exact Es|apply H2; exact Hf].
Qed.
Lemma call_same tr s l s' : call_ok tr s -> (forall t, stk s' t = stk s t) -> (forall t, silent t l = true) -> call_ok (l :: tr) s'.
Proof. intros HC E Es t. rewrite E. destruct (HC t) as [H1 H2]. split; [exact H1|]. intros f Hf. apply fr_silent; [apply Es|apply H2; exact Hf]. Qed.
Lemma body_label t o s s' r l : body t o s = (s', r, l) -> (forall a n, o <> OAdd a n) -> l = effect_of t o r /\ (forall id, o = OState id -> r = RState TPending \/ r = RState TRunning \/ r = RState TUnknown).
Proof.
  intros H Ho. destruct o; [exfalso; eapply Ho; reflexivity|..]; cbn [body] in H; try (destruct (index_of _ _)); injection H as <- <- <-; (split; [reflexivity|]); try discriminate.
  intros i _. destruct (existsb _ _); [tauto|]. destruct (existsb _ _); tauto.
Qed.
Lemma silent_other t t' o r : t <> t' -> silent t (effect_of t' o r) = true.
Proof. intros H. apply Nat.eqb_neq in H. rewrite Nat.eqb_sym in H. unfold silent, effect_of. destruct o, r; cbn [effect_by]; rewrite H; reflexivity. Qed.
Lemma cnt_zero p l f : cnt p l = 0 -> In f l -> p f = false.
Proof. intros H Hf. destruct (p f) eqn:E; [|reflexivity]. pose proof (cnt_pos p f l Hf E). lia. Qed.
(** the head frame is replaced; the event is silent *)
Lemma top_silent tr s t l f f' rest : call_ok tr s -> stk s t = f :: rest -> silent t l = true -> b2n (opf f') <= b2n (opf f) -> (fr_ok t tr f -> fr_ok t tr f') ->
  cnt opf (f' :: rest) <= 1 /\ forall g, In g (f' :: rest) -> fr_ok t (l :: tr) g.
Proof.
  intros HC E Hl Hb Hf. destruct (HC t) as [H1 H2]. rewrite E in *. cbn [cnt] in *. split; [lia|]. intros g [<-|Hg]; apply fr_silent; try exact Hl; [apply Hf; apply H2; left; reflexivity|apply H2; right; exact Hg].
Qed.
Lemma pop_silent tr s t l f rest : call_ok tr s -> stk s t = f :: rest -> silent t l = true -> cnt opf rest <= 1 /\ forall g, In g rest -> fr_ok t (l :: tr) g.
Proof.
  intros HC E Hl. destruct (HC t) as [H1 H2]. rewrite E in *. cbn [cnt] in *. split; [lia|]. intros g Hg. apply fr_silent; [exact Hl|apply H2; right; exact Hg].
Qed.
Lemma same_silent tr s t l : call_ok tr s -> silent t l = true -> cnt opf (stk s t) <= 1 /\ forall g, In g (stk s t) -> fr_ok t (l :: tr) g.
Proof. intros HC Hl. destruct (HC t) as [H1 H2]. split; [exact H1|]. intros g Hg. apply fr_silent; [exact Hl|apply H2; exact Hg]. Qed.
Lemma dlock_silent t tr l : (cnt opf l <= 1 /\ forall g, In g l -> fr_ok t tr g) -> forall b : bool, cnt opf (if b then DLock :: l else l) <= 1 /\ forall g, In g (if b then DLock :: l else l) -> fr_ok t tr g.
Proof. intros [H1 H2] b. destruct b; [|tauto]. split; [exact H1|]. intros g [<-|Hg]; [exact I|apply H2; exact Hg]. Qed.
(** the operation takes effect *)
Lemma top_effect tr s t o r l f rest : call_ok tr s -> stk s t = f :: rest -> opf f = true -> (fr_ok t tr f -> last_call t tr = Some o /\ effects t tr = []) -> l = effect_of t o r -> (forall id, o = OState id -> r = RState TPending \/ r = RState TRunning \/ r = RState TUnknown) ->
  cnt opf (CRel o r :: rest) <= 1 /\ forall g, In g (CRel o r :: rest) -> fr_ok t (l :: tr) g.
Proof.
  intros HC E Ho Hf -> Hr. destruct (HC t) as [H1 H2]. rewrite E in *. cbn [cnt] in *. rewrite Ho in H1. cbn [opf b2n] in *. split; [lia|].
  destruct (Hf (H2 f (or_introl eq_refl))) as [F1 F2].
  assert (G : last_call t (effect_of t o r :: tr) = last_call t tr /\ effects t (effect_of t o r :: tr) = [effect_of t o r]).
  { destruct o, r; cbn [effect_of last_call effects effect_by]; rewrite Nat.eqb_refl, F2; split; reflexivity. }
  destruct G as [G1 G2]. intros g [<-|Hg].
  - unfold fr_ok. rewrite G1, G2. tauto.
  - pose proof (cnt_zero opf rest g ltac:(lia) Hg) as Hz. specialize (H2 g (or_intror Hg)). destruct g; try discriminate Hz; try exact I. cbn [fr_ok] in *. rewrite G1. exact H2.
Qed.
Lemma call_step tr s l s' : step s l s' -> call_ok tr s -> call_ok (l :: tr) s'.
Proof.
  intros Hs HC. destruct Hs; try body_facts.
  all: try (apply (call_same tr s); [exact HC|reflexivity|reflexivity]).
  all: match goal with |- call_ok _ (with_stk ?t _ _) => apply (call_move tr s _ _ t); [exact HC| |] | |- call_ok _ (release ?t _ _) => apply (call_move tr s _ _ t); [exact HC| |] | |- call_ok _ (disown ?t _) => apply (call_move tr s _ _ t); [exact HC| |] end.
  all: unfold release, disown; projs; unfold upd; try rewrite Nat.eqb_refl.
  all: try (intros v Hv; match goal with |- context [Nat.eqb ?a ?b] => destruct (Nat.eqb_spec a b) as [Hz|Hz] end; [contradiction|]; apply Nat.eqb_neq in Hz; rewrite Nat.eqb_sym in Hz; split; [try rewrite B10; reflexivity|unfold silent; cbn [effect_by negb andb]; rewrite ?Hz; reflexivity]).
  all: try apply dlock_silent.
  all: try (eapply top_silent; [exact HC|eassumption|reflexivity|cbn; lia|cbn [fr_ok]; tauto]).
  all: try (eapply pop_silent; [exact HC|eassumption|reflexivity]).
  all: try (eapply same_silent; [exact HC|reflexivity]).
  all: try (eapply top_effect; [exact HC|eassumption|reflexivity|cbn [fr_ok]; tauto|reflexivity|discriminate]).
  - split; [cbn; lia|]. intros f [<-|[<-|[]]]; cbn; rewrite ?Nat.eqb_refl; split; reflexivity.
  - split; [cbn; lia|]. intros f [<-|[]]; cbn; rewrite ?Nat.eqb_refl; split; reflexivity.
  - eapply top_effect; [exact HC|eassumption|reflexivity|cbn [fr_ok]; tauto|subst k; reflexivity|discriminate].
  - intros v Hv. destruct (Nat.eqb_spec v t) as [Hz|Hz]; [contradiction|]. rewrite B10. split; [reflexivity|]. destruct (body_label _ _ _ _ _ _ H1 H0) as [-> _]. apply silent_other. exact Hz.
  - destruct (body_label _ _ _ _ _ _ H1 H0) as [El Er]. eapply top_effect; [exact HC|eassumption|reflexivity|cbn [fr_ok]; tauto|exact El|exact Er].
  - destruct r; (eapply top_silent; [exact HC|eassumption|reflexivity|cbn; lia|cbn [fr_ok]; tauto]).
  - intros v Hv. destruct (Nat.eqb_spec v t) as [Hz|Hz]; [contradiction|]. split; [reflexivity|]. destruct x; reflexivity.
  - destruct x; try (eapply pop_silent; [exact HC|eassumption|reflexivity]). destruct (HC t) as [C1 C2]. rewrite H in *. cbn [cnt opf b2n] in C1. rewrite cnt_app. cbn [cnt opf b2n]. split; [lia|].
    intros f Hf. apply fr_silent; [reflexivity|]. apply in_app_or in Hf. destruct Hf as [Hf|[<-|[]]]; [apply C2; right; exact Hf|]. specialize (C2 _ (or_introl eq_refl)). cbn in *. tauto.
  - split; [cbn; lia|]. intros f [<-|[<-|[]]]; cbn; rewrite ?Nat.eqb_refl; [reflexivity|split; reflexivity].
  - split; [cbn; lia|]. intros f [<-|[]]; cbn; rewrite ?Nat.eqb_refl; split; reflexivity.
  - destruct (HC t) as [C1 C2]. rewrite H in *. cbn [cnt opf b2n] in *. split; [lia|]. intros f [<-|[<-|Hf]]; [|exact I|].
    + apply fr_silent; [reflexivity|]. exact (C2 _ (or_introl eq_refl)).
    + apply fr_silent; [reflexivity|]. exact (C2 _ (or_intror Hf)).
Qed.
Lemma call_exec n c s0 tr s : construct n c = Ok s0 -> exec s0 tr s -> call_ok tr s.
Proof.
  intros H E. induction E as [|tr s l s' E IH Hs]; [|eapply call_step; eassumption]. destruct (construct_ok _ _ _ H) as (_ & _ & ->). intros t. cbn. split; [lia|intros f []].
Qed.
Lemma cap_exec n c s0 tr s : construct n c = Ok s0 -> exec s0 tr s -> cap_ok s.
Proof.
  intros H E. induction E as [|tr s l s' E IH Hs]; [|eapply cap_step; [exact Hs|eapply inv_exec; eassumption|exact IH]]. destruct (construct_ok _ _ _ H) as (_ & _ & ->). split; cbn; [lia|intros t f []].
Qed.

(** * Handles *)
Record hand_ok (tr : list label) (s : st) : Prop := {
  h_val : forall id, In id (ids (added tr)) -> valid s id = false -> exists t, In (LCall t (OCancel id)) tr \/ exists r, In (LResult t id (Some r)) tr;
  h_res : forall t id r, In (LResult t id (Some r)) tr -> valid s id = false /\ (0 <= id < next s)%Z }.
Lemma last_call_in t tr o : last_call t tr = Some o -> In (LCall t o) tr.
Proof.
  induction tr as [|l tr IH]; [discriminate|]. destruct l; cbn [last_call]; intros H; try (right; apply IH; exact H).
  destruct (Nat.eqb_spec t0 t); [|right; apply IH; exact H]. left. congruence.
Qed.
Lemma added_cons l tr : (forall t k, l <> LAdd t k) -> added (l :: tr) = added tr.
Proof. intros H. destruct l; try reflexivity. exfalso. eapply H. reflexivity. Qed.
Lemma hand_frame tr l s s' : hand_ok tr s -> (forall t k, l <> LAdd t k) -> (forall t id r, l <> LResult t id (Some r)) -> valid s' = valid s -> next s' = next s -> hand_ok (l :: tr) s'.
Proof.
  intros [H1 H2] Hl Hr Ev En. constructor; rewrite ?added_cons by exact Hl; rewrite ?Ev, ?En.
  - intros id Hi Hv. destruct (H1 id Hi Hv) as (t & [H|(r & H)]); exists t; [left; right; exact H|right; exists r; right; exact H].
  - intros t id r [H|H]; [exfalso; eapply Hr; exact H|eapply H2; exact H].
Qed.
Lemma hand_step tr s l s' : step s l s' -> tinv tr s -> call_ok tr s -> (Z.of_nat (length (added (l :: tr))) < id_mod)%Z -> hand_ok tr s -> hand_ok (l :: tr) s'.
Proof.
  intros Hs HT HC Hb HH. destruct Hs; try body_facts.
  all: try (apply (hand_frame tr _ s); [exact HH|discriminate|discriminate|unfold release, disown; projs; reflexivity|unfold release, disown; projs; reflexivity]).
  - (* push *) destruct HH as [H1 H2]. cbn [added] in Hb. rewrite app_length in Hb. cbn [length] in Hb. pose proof (i_next _ _ HT) as Hn. constructor; projs.
    + intros id Hi Hv. unfold updz in Hv. destruct (Z.eqb_spec id (next s)) as [->|E]; [discriminate|]. unfold ids in *. cbn [added] in Hi. rewrite map_app in Hi. apply in_app_or in Hi. destruct Hi as [Hi|[Hi|[]]]; [|subst k; cbn in Hi; congruence].
      destruct (H1 id Hi Hv) as (t' & [H'|(r & H')]); exists t'; [left; right; exact H'|right; exists r; right; exact H'].
    + intros t' id r [H'|H']; [discriminate|]. destruct (H2 t' id r H') as [E1 E2]. unfold updz. destruct (Z.eqb_spec id (next s)); [lia|]. split; [exact E1|]. rewrite Z.mod_small by lia. lia.
  - (* body *) destruct (body_label _ _ _ _ _ _ H1 H0) as [El _]. apply (hand_frame tr _ s); [exact HH| | |projs; exact B13|projs; exact B5]; subst l; destruct o, r; try discriminate; exfalso; eapply H0; reflexivity.
  - destruct x; (apply (hand_frame tr _ s); [exact HH|discriminate|discriminate|reflexivity|reflexivity]).
  - (* h_drop *) destruct HH as [H1 H2]. destruct (HC t) as [_ C2]. specialize (C2 (HDrop id)). rewrite H in C2. specialize (C2 (or_introl eq_refl)). cbn in C2. apply last_call_in in C2. constructor; projs.
    + intros i Hi Hv. unfold updz in Hv. destruct (Z.eqb_spec i id) as [->|E]; [exists t; left; right; exact C2|]. destruct (H1 i Hi Hv) as (t' & [H'|(r & H')]); exists t'; [left; right; exact H'|right; exists r; right; exact H'].
    + intros t' i r [H'|H']; [discriminate|]. destruct (H2 t' i r H') as [E1 E2]. unfold updz. destruct (Z.eqb i id); tauto.
  - (* h_result *) destruct HH as [H4 H5]. constructor; projs.
    + intros i Hi Hv. unfold updz in Hv. destruct (Z.eqb_spec i id) as [->|E]; [exists t; right; eexists; left; reflexivity|]. destruct (H4 i Hi Hv) as (t' & [H'|(r & H')]); exists t'; [left; right; exact H'|right; exists r; right; exact H'].
    + intros t' i r [H'|H']; [injection H' as <- <- <-|destruct (H5 t' i r H') as [E1 E2]]; unfold updz; [rewrite Z.eqb_refl; tauto|]. destruct (Z.eqb i id); tauto.
Qed.
Lemma hand_exec n c s0 tr s : construct n c = Ok s0 -> exec s0 tr s -> (Z.of_nat (length (added tr)) < id_mod)%Z -> hand_ok tr s.
Proof.
  intros H E. induction E as [|tr s l s' E IH Hs]; intros Hb; [constructor; cbn; [intros id []|intros ? ? ? []]|].
  pose proof (added_mono l tr). eapply hand_step; [exact Hs|eapply tinv_exec; [exact H|exact E|lia]|eapply call_exec; eassumption|exact Hb|apply IH; lia].
Qed.

(** * The clock *)
Definition clk_ok (tr : list label) (s : st) : Prop := clock s = clock_of tr /\ forall w i now, w < nw s -> wk s w = WTake i now -> exists tr1 tr2, tr = tr1 ++ tr2 /\ clock_of tr2 = now.
Lemma clk_frame tr l s s' : clk_ok tr s -> clock s' = clock_of (l :: tr) -> nw s' = nw s -> (forall w i now, wk s' w = WTake i now -> wk s w = WTake i now \/ now = clock s) -> clk_ok (l :: tr) s'.
Proof.
  intros [H1 H2] Hc Hn Hw. split; [exact Hc|]. intros w i now Hlt Hk. rewrite Hn in Hlt. destruct (Hw w i now Hk) as [H|H].
  - destruct (H2 w i now Hlt H) as (tr1 & tr2 & -> & E). exists (l :: tr1), tr2. split; [reflexivity|exact E].
  - exists [l], tr. split; [reflexivity|congruence].
Qed.
Lemma clk_step tr s l s' : step s l s' -> clk_ok tr s -> clk_ok (l :: tr) s'.
Proof.
  intros Hs HC. assert (E0 := proj1 HC). destruct Hs; try body_facts.
  all: try (apply (clk_frame tr _ s); [exact HC|unfold release, disown; projs; first [exact E0|reflexivity]|unfold release, disown; projs; reflexivity|unfold release, disown; projs; intros v j z Hz; unfold upd in Hz;
    repeat match type of Hz with context [Nat.eqb ?a ?b] => destruct (Nat.eqb_spec a b); [subst|] end; try discriminate Hz; tauto]; fail).
  - apply (clk_frame tr _ s); [exact HC|exact E0|reflexivity|projs]. intros v j z Hz. unfold upd in Hz. destruct (Nat.eqb v w); [destruct (shut s); discriminate|tauto].
  - apply (clk_frame tr _ s); [exact HC|exact E0|reflexivity|projs]. intros v j z Hz. unfold upd in Hz. destruct (Nat.eqb v w); [|tauto]. destruct (find_ready _ _); [|discriminate]. injection Hz as _ <-. tauto.
  - apply (clk_frame tr _ s); [exact HC| |projs; exact B1|projs; rewrite B9; tauto]. projs. rewrite B8, E0. destruct (body_label _ _ _ _ _ _ H1 H0) as [-> _]. destruct o, r; reflexivity.
  - destruct x; (apply (clk_frame tr _ s); [exact HC|exact E0|reflexivity|projs; tauto]).
  - apply (clk_frame tr _ s); [exact HC|exact E0|reflexivity|projs]. intros v j z Hz. unfold wake_all in Hz. destruct (wk s v); try discriminate Hz; tauto.
Qed.
Lemma clk_exec n c s0 tr s : construct n c = Ok s0 -> exec s0 tr s -> clk_ok tr s.
Proof.
  intros H E. induction E as [|tr s l s' E IH Hs]; [|eapply clk_step; eassumption]. destruct (construct_ok _ _ _ H) as (_ & _ & ->). split; [reflexivity|]. intros w i now _ Hw. discriminate Hw.
Qed.
