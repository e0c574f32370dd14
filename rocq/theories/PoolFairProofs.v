(** ThreadPool: in fair executions every thread makes progress. *)
From Coq Require Import ZArith List Bool Lia PeanoNat Ascii.
From Verif Require Import Base PoolModel PoolSpec PoolProofs PoolProofs2 PoolProofs3 PoolProofs4 PoolProofs5 PoolProofs6 PoolProofs7 PoolProofs8 PoolFairSpec.
Import ListNotations.
Local Open Scope nat_scope.

(** * Decidable equality of the local state of a thread *)
Lemma task_dec (x y : task) : {x = y} + {x <> y}.
Proof. decide equality; [apply (list_eq_dec ascii_dec)|apply Z.eq_dec|apply Z.eq_dec]. Qed.
Lemma wpc_dec (x y : wpc) : {x = y} + {x <> y}.
Proof. decide equality; try apply Z.eq_dec; try apply Nat.eq_dec; try apply task_dec. decide equality. apply Z.eq_dec. Qed.
Lemma op_dec (x y : op) : {x = y} + {x <> y}.
Proof. decide equality; try apply Z.eq_dec; try apply (list_eq_dec ascii_dec). Qed.
Lemma result_dec (x y : result) : {x = y} + {x <> y}.
Proof. decide equality; try apply Z.eq_dec; try apply Nat.eq_dec; try apply bool_dec; try apply (list_eq_dec (list_eq_dec ascii_dec)). decide equality. Qed.
Lemma frame_dec (x y : frame) : {x = y} + {x <> y}.
Proof. decide equality; try apply Z.eq_dec; try apply Nat.eq_dec; try apply (list_eq_dec ascii_dec); try apply op_dec; try apply result_dec. Qed.

(** * The first change *)
Lemma first_change {A} (dec : forall x y : A, {x = y} + {x <> y}) (f : nat -> A) i j : i <= j ->
  (forall x, i <= x <= j -> f x = f i) \/ exists m, i <= m < j /\ (forall x, i <= x <= m -> f x = f i) /\ f (S m) <> f i.
Proof.
  intros H. replace j with (i + (j - i)) by lia. induction (j - i) as [|d IH].
  - left. intros x Hx. replace x with i by lia. reflexivity.
  - destruct IH as [IH|(m & H1 & H2 & H3)]; [|right; exists m; split; [lia|tauto]].
    destruct (dec (f (S (i + d))) (f i)) as [E|E].
    + left. intros x Hx. destruct (Nat.eq_dec x (S (i + d))) as [->|]; [exact E|apply IH; lia].
    + right. exists (i + d). split; [lia|]. tauto.
Qed.

(** * The destructor is on top of the stack of its thread *)
Definition dhead (s : st) : Prop := forall t f l, stk s t = f :: l -> cnt is_dtor l = 0.
Lemma dhead_step s l s' : step s l s' -> inv s -> dhead s -> dhead s'.
Proof.
  intros Hs HV HI th f q.
  assert (Hal : 0 < strong s -> forall t, cnt is_dtor (stk s t) = 0) by (intros H; apply (dt_alive s (v_dt _ HV) H)).
  assert (Hpo : forall t g rest, stk s t = g :: rest -> 0 < strong s -> cnt is_dtor rest = 0) by (intros t g rest H _; exact (HI t g rest H)).
  assert (Hrel : forall t g rest, stk s t = g :: rest -> holds_ref g = true -> 0 < strong s).
  { intros t g rest Ht Hg. pose proof (v_refs _ HV t) as R. rewrite Ht in R. cbn [cnt] in R. rewrite Hg in R. cbn [b2n] in R. unfold strong. destruct (refs s); [cbn in R; lia|cbn; lia]. }
  destruct Hs; try body_facts; unfold release, disown; projs; unfold upd; try rewrite B10; try exact (HI th f q).
  all: repeat match goal with |- context [Nat.eqb ?a ?b] => destruct (Nat.eqb_spec a b); [subst|] end; try exact (HI th f q).
  all: try (match goal with E : stk _ ?t = _ :: _ |- _ => pose proof (HI t _ _ E) as HX end).
  all: try (intros [= <- <-]; cbn [cnt is_dtor b2n]; exact HX).
  all: try (intros Hq; rewrite Hq in HX; cbn [cnt] in HX; lia).
  all: try (intros [= <- <-]; cbn; reflexivity).
  all: try discriminate.
  all: try (intros [= <- <-]; apply Hal; unfold strong; lia).
  all: try (intros [= <- <-]; cbn [cnt is_dtor b2n]; exact HX).
  all: try exact (HI _ f q).
  destruct x; intros Hq; try (rewrite Hq in HX; cbn [cnt] in HX; lia).
  destruct rest as [|g rest]; cbn [app] in Hq; injection Hq as <- <-; [reflexivity|]. rewrite cnt_app. cbn [cnt is_dtor b2n] in *. lia.
Qed.

(** * What a worker does next *)
Definition next_ok (s : st) (l : label) (s' : st) (w : nat) : Prop :=
  match wk s w with
  | WInit | WWake => wk s' w = WTest
  | WTest => wk s' w = if shut s then WQuit else WCheck
  | WCheck => pending s = [] /\ wk s' w = WWait None \/ pending s <> [] /\ wk s' w = WLook
  | WLook => wk s' w = match find_ready (clock s) (pending s) with Some i => WTake i (clock s) | None => WTimed (min_start (pending s)) end
  | WTimed d => wk s' w = WWait (Some d)
  | WTake i now => exists k, nth_error (pending s) i = Some k /\ l = LTake w (t_id k) now /\ wk s' w = WReg k
  | WReg k => wk s' w = WRel (t_id k)
  | WRel id => wk s' w = WCall id
  | WCall id => wk s' w = WRun id /\ l = LStart w id
  | WRun id => wk s' w = WDone id /\ l = LFinish w id /\ stk s w = []
  | WDone id => wk s' w = WDereg id
  | WDereg _ => wk s' w = WDrop
  | WDrop => wk s' w = WTest
  | WWait _ => wk s' w = WWake
  | WQuit => wk s' w = WExit
  | WExit => False
  end.
Lemma worker_next s l s' w : step s l s' -> wk s' w <> wk s w -> next_ok s l s' w /\ (wholds (wk s w) = true -> wholds (wk s' w) = false -> mtx s' = None).
Proof.
  intros Hs Hne. unfold next_ok. destruct Hs; try body_facts; unfold release, disown in *; projs.
  all: try (exfalso; congruence).
  all: unfold upd in *.
  all: try (match goal with H : (if Nat.eqb ?a ?b then _ else _) <> _ |- _ => destruct (Nat.eqb_spec a b) as [->|]; [|exfalso; apply H; reflexivity]; rewrite ?Nat.eqb_refl end).
  all: use_eqs.
  all: try (split; [reflexivity|intros; discriminate]).
  all: try (split; [reflexivity|intros; reflexivity]).
  all: try (split; [tauto|intros; first [discriminate|reflexivity]]).
  - destruct H0 as [-> | ->]; (split; [reflexivity|intros; discriminate]).
  - split; [reflexivity|]. destruct (shut s); intros; discriminate.

  - split; [reflexivity|]. destruct (find_ready _ _); intros; discriminate.
  - split; [|intros; discriminate]. exists k. tauto.
  - destruct (wk s w0); try discriminate H1. split; [reflexivity|intros; discriminate].
  - unfold wake_all in *. destruct (wk s w); try (exfalso; apply Hne; reflexivity). split; [reflexivity|intros; discriminate].
Qed.
(** a thread that executes code under the lock goes on with code under the lock, or releases it, or begins with the destructor *)
Definition frank (f : frame) : nat :=
  match f with CBody _ => 6 | CShare _ _ => 5 | CUnshare _ _ => 4 | CPush _ _ => 3 | CRel _ _ => 2 | DSet => 2 | DRel => 1 | _ => 0 end.
Lemma frame_next s l s' t f rest : step s l s' -> stk s t = f :: rest -> fholds f = true -> stk s' t <> stk s t ->
  mtx s' = None \/ (exists q, stk s' t = DLock :: q /\ 0 < cnt fholds q) \/ (exists f', stk s' t = f' :: rest /\ fholds f' = true /\ frank f' < frank f).
Proof.
  intros Hs Ht Hf Hne. destruct Hs; try body_facts; unfold release, disown in *; projs; try (exfalso; congruence).
  all: unfold upd in *.
  all: try (match goal with H : (if Nat.eqb ?a ?b then _ else _) <> _ |- _ => destruct (Nat.eqb_spec a b) as [->|]; [|exfalso; apply H; reflexivity]; rewrite ?Nat.eqb_refl end).
  all: try congruence.
  all: try (match goal with H1 : stk ?s ?t = _ :: _, H2 : stk ?s ?t = _ :: _ |- _ => rewrite H1 in H2; injection H2; intros; subst; clear H2; try discriminate Hf end).
  all: try (right; right; eexists; split; [reflexivity|]; split; [reflexivity|cbn; lia]).
  - destruct (strong _ =? 0); [right; left; eexists; split; [reflexivity|cbn; lia]|right; right; eexists; split; [reflexivity|]; split; [reflexivity|cbn; lia]].
  - destruct (Nat.eqb_spec t t0) as [->|]; [|exfalso; apply Hne; rewrite B10; reflexivity]. rewrite H in Ht. injection Ht as <- <-. right; right; eexists; split; [reflexivity|]; split; [reflexivity|cbn; lia].
  - left. reflexivity.
  - destruct (strong _ =? 0); [right; left; eexists; split; [reflexivity|rewrite H; cbn; lia]|congruence].
  - left. reflexivity.
Qed.
(** the destructor *)
Lemma dtor_next s l s' t f rest : step s l s' -> stk s t = f :: rest -> is_dtor f = true -> stk s' t <> stk s t ->
  match f with
  | DLock => stk s' t = DSet :: rest
  | DSet => stk s' t = DRel :: rest
  | DRel => stk s' t = DNote :: rest
  | DNote => stk s' t = DJoin 0 :: rest
  | DJoin k => if Nat.ltb k (nw s) then k = t \/ stk s' t = DJoin (S k) :: rest else stk s' t = DFree :: rest
  | DFree => l = LFree t
  | _ => False
  end.
Proof.
  intros Hs Ht Hf Hne. destruct Hs; try body_facts; unfold release, disown in *; projs; try (exfalso; congruence).
  all: unfold upd in *.
  all: try (match goal with H : (if Nat.eqb ?a ?b then _ else _) <> _ |- _ => destruct (Nat.eqb_spec a b) as [->|]; [|exfalso; apply H; try rewrite B10; reflexivity]; rewrite ?Nat.eqb_refl end).
  all: try congruence.
  all: try (match goal with H1 : stk ?s ?t = _ :: _, H2 : stk ?s ?t = _ :: _ |- _ => rewrite H1 in H2; injection H2; intros; subst; clear H2; try discriminate Hf end).
  all: try reflexivity.
  - apply Nat.ltb_lt in H0. rewrite H0. right. reflexivity.
  - apply Nat.ltb_lt in H0. rewrite H0. left. reflexivity.
  - apply Nat.ltb_ge in H0. rewrite H0. reflexivity.
Qed.
(** once the last shared_ptr is gone it stays so, and no further thread begins with the destructor *)
Lemma dtor_stays s l s' : step s l s' -> refs_ok s -> strong s = 0 -> strong s' = 0 /\ forall t, cnt is_dtor (stk s' t) <= cnt is_dtor (stk s t).
Proof.
  intros Hs HR H0. assert (Ho : owners s = 0 /\ refs s = []) by (unfold strong in H0; destruct (refs s); [split; [lia|reflexivity]|cbn in H0; lia]). destruct Ho as [Ho Hr].
  destruct Hs; try body_facts; try lia; unfold release, disown, strong in *; projs.
  all: try (split; [assumption|intros th; unfold upd; try rewrite B10; try destruct (Nat.eqb_spec th t) as [->|]; try lia; use_eqs; cbn [cnt is_dtor b2n]; lia]).
  - exfalso. specialize (HR t). rewrite H, Hr in HR. cbn in HR. discriminate HR.
  - rewrite B11, B12. split; [assumption|]. intros th. unfold upd. rewrite B10. destruct (Nat.eqb_spec th t) as [->|]; [|lia]. rewrite H. cbn [cnt is_dtor b2n]. lia.
  - split; [assumption|]. intros th. unfold upd. destruct (Nat.eqb_spec th t) as [->|]; [|lia]. rewrite H. destruct r; cbn [cnt is_dtor b2n]; lia.
  - split; [assumption|]. intros th. unfold upd. destruct (Nat.eqb_spec th t) as [->|]; [|lia]. rewrite H. destruct x; rewrite ?cnt_app; cbn [cnt is_dtor b2n]; lia.
  - exfalso. specialize (HR t). rewrite H, Hr in HR. cbn in HR. discriminate HR.
Qed.
Lemma shut_stays s l s' : step s l s' -> shut s = true -> shut s' = true.
Proof. intros Hs H. destruct Hs; try body_facts; unfold release, disown in *; projs; congruence. Qed.
Lemma outsider_step s l s' t : step s l s' -> nw s <= t -> wk s t = WInit -> wk s' t = WInit.
Proof.
  intros Hs Ht H. destruct Hs; try body_facts; unfold release, disown in *; projs; try congruence.
  all: try (unfold upd; match goal with |- context [Nat.eqb ?a ?b] => destruct (Nat.eqb_spec a b); [lia|exact H] end).
  unfold wake_all. rewrite H. reflexivity.
Qed.

Section Runs.
Variables (n c : nat) (r : nat -> st) (ev : nat -> label).
Hypothesis Hrun : runs n c r ev.
Hypothesis Hfair : fair r.
Hypothesis Hret : tasks_return n r.

Lemma reach i : exists tr, exec (r 0) tr (r i).
Proof. induction i as [|i (tr & E)]; [exists []; constructor|]. exists (ev i :: tr). econstructor; [exact E|apply (proj2 Hrun)]. Qed.
Lemma facts i : good (r i) /\ drop_ok (r i) /\ tops_ok (r i) /\ nw (r i) = n.
Proof.
  destruct (reach i) as (tr & E). destruct Hrun as [H _]. split; [eapply good_exec; eassumption|]. split; [eapply drop_exec; eassumption|]. split; [eapply tops_exec; eassumption|]. apply (const_exec _ _ _ _ _ H E).
Qed.
Lemma good_at i : good (r i). Proof. apply facts. Qed.
Lemma inv_at i : inv (r i). Proof. apply g_inv, good_at. Qed.
Lemma nw_at i : nw (r i) = n. Proof. apply facts. Qed.
Lemma step_at i : step (r i) (ev i) (r (S i)). Proof. apply (proj2 Hrun). Qed.
Lemma dhead_at i : dhead (r i).
Proof.
  induction i as [|i IH]; [|eapply dhead_step; [apply step_at|apply inv_at|exact IH]].
  destruct Hrun as [H _]. destruct (construct_ok _ _ _ H) as (_ & _ & E). rewrite E. intros t f l Hf. discriminate Hf.
Qed.
Lemma outsider i t : n <= t -> wk (r i) t = WInit.
Proof.
  intros Ht. induction i as [|i IH]; [|eapply outsider_step; [apply step_at|rewrite nw_at; exact Ht|exact IH]].
  destruct Hrun as [H _]. destruct (construct_ok _ _ _ H) as (_ & _ & E). rewrite E. reflexivity.
Qed.
Definition local (t i : nat) : wpc * list frame := (wk (r i) t, stk (r i) t).
Lemma local_dec (x y : wpc * list frame) : {x = y} + {x <> y}.
Proof. decide equality; [apply (list_eq_dec frame_dec)|apply wpc_dec]. Qed.
(** a thread that is able again and again, as long as it does not go on, goes on *)
Lemma moves_on t i : (forall j, i <= j -> exists k, j <= k /\ (local t k = local t i -> able (r k) t)) ->
  exists m, i <= m /\ (forall x, i <= x <= m -> local t x = local t i) /\ local t (S m) <> local t i.
Proof.
  intros HP. destruct (Hfair t i) as (j & Hj & [Ha|Hn]).
  - destruct (first_change local_dec (local t) i (S j) ltac:(lia)) as [H|(m & H1 & H2 & H3)]; [|exists m; split; [lia|tauto]].
    exfalso. pose proof (H j ltac:(lia)) as E1. pose proof (H (S j) ltac:(lia)) as E2. unfold local in *. unfold advances in Ha. destruct Ha as [Ha|Ha]; congruence.
  - destruct (HP j Hj) as (k & Hk & Hab). destruct (first_change local_dec (local t) i k ltac:(lia)) as [H|(m & H1 & H2 & H3)]; [|exists m; split; [lia|tauto]].
    exfalso. apply (Hn k Hk). apply Hab. apply H. lia.
Qed.

Section Outside.
Variable i0 : nat.
Hypothesis Hout : forall j t f, i0 <= j -> In f (stk (r j) t) -> is_dtor f = true -> n <= t.

Definition running (p : wpc) : bool := match p with WRun _ => true | _ => false end.
Lemma stack_empty i w : i0 <= i -> w < n -> running (wk (r i) w) = false -> stk (r i) w = [].
Proof.
  intros Hi Hw Hp. destruct (stk (r i) w) as [|f l] eqn:E; [reflexivity|]. exfalso.
  assert (Hin : in_task (wk (r i) w) = true) by (apply (v_wst _ (inv_at i)); [rewrite nw_at; exact Hw|rewrite E; discriminate]).
  destruct (wk (r i) w) eqn:Ep; try discriminate Hin; try discriminate Hp.
  destruct (facts i) as (_ & HD & _). assert (Hf : In f (stk (r i) w)) by (rewrite E; left; reflexivity).
  assert (is_dtor f = true) by (apply (HD w); [rewrite nw_at; exact Hw|exact Ep|exact Hf]). pose proof (Hout i w f Hi Hf H). lia.
Qed.
Lemma worker_act w i : i0 <= i -> w < n -> running (wk (r i) w) = false ->
  (forall j, i <= j -> exists k, j <= k /\ (wk (r k) w = wk (r i) w -> stk (r k) w = [] -> able (r k) w)) ->
  exists m, i <= m /\ (forall x, i <= x <= m -> wk (r x) w = wk (r i) w) /\ wk (r (S m)) w <> wk (r i) w.
Proof.
  intros Hi Hw Hr HP. pose proof (stack_empty i w Hi Hw Hr) as Hs. destruct (moves_on w i) as (m & H1 & H2 & H3).
  - intros j Hj. destruct (HP j Hj) as (k & Hk & Hab). exists k. split; [exact Hk|]. intros E. unfold local in E. injection E as E1 E2. apply Hab; congruence.
  - exists m. split; [exact H1|]. split; [intros x Hx; specialize (H2 x Hx); unfold local in H2; congruence|]. intros E. apply H3. unfold local. rewrite E, Hs.
    rewrite (stack_empty (S m) w); [reflexivity|lia|exact Hw|rewrite E; exact Hr].
Qed.

(** * The mutex becomes free again and again *)
Definition hrank (p : wpc) : nat :=
  match p with WDereg _ => 8 | WDrop => 7 | WTest => 6 | WCheck => 5 | WLook => 4 | WTake _ _ | WTimed _ => 3 | WReg _ => 2 | WRel _ | WQuit => 1 | _ => 0 end.
Lemma free_worker w h : w < n -> forall i, i0 <= i -> wholds (wk (r i) w) = true -> hrank (wk (r i) w) <= h -> exists j, i <= j /\ mtx (r j) = None.
Proof.
  intros Hw. induction h as [|h IH]; intros i Hi Hh Hk; [destruct (wk (r i) w); cbn in *; try discriminate; lia|].
  destruct (worker_act w i Hi Hw) as (m & H1 & H2 & H3).
  - destruct (wk (r i) w); try reflexivity; discriminate Hh.
  - intros j Hj. exists j. split; [lia|]. intros E1 E2. unfold able. rewrite E2, E1, nw_at. split; [exact Hw|]. destruct (wk (r i) w); try discriminate Hh; exact I.
  - pose proof (H2 m ltac:(lia)) as Em. rewrite <- Em in H3, Hh, Hk. destruct (worker_next _ _ _ w (step_at m) H3) as [N1 N2].
    destruct (wholds (wk (r (S m)) w)) eqn:Eh; [|exists (S m); split; [lia|exact (N2 Hh eq_refl)]].
    destruct (IH (S m) ltac:(lia) Eh) as (j & Hj & Hm); [|exists j; split; [lia|exact Hm]].
    unfold next_ok in N1. destruct (wk (r m) w) eqn:Ep; try discriminate Hh; cbn [hrank] in Hk.
    + rewrite N1. destruct (shut _); cbn; lia.
    + destruct N1 as [[_ N1]|[_ N1]]; rewrite N1; cbn; lia.
    + rewrite N1. destruct (find_ready _ _); cbn; lia.
    + rewrite N1. cbn; lia.
    + destruct N1 as (k & _ & _ & N1). rewrite N1. cbn; lia.
    + rewrite N1. cbn; lia.
    + rewrite N1. cbn; lia.
    + rewrite N1. cbn; lia.
    + rewrite N1. cbn; lia.
    + rewrite N1. cbn; lia.
Qed.
Lemma frame_running i t : i0 <= i -> t < n -> stk (r i) t <> [] -> exists id, wk (r i) t = WRun id.
Proof.
  intros Hi Ht Hs. destruct (running (wk (r i) t)) eqn:E; [|rewrite (stack_empty i t Hi Ht E) in Hs; congruence]. destruct (wk (r i) t); try discriminate E. eexists. reflexivity.
Qed.
(** while a call is in progress in a thread, only its stack changes *)
Lemma frame_act t i f rest : i0 <= i -> stk (r i) t = f :: rest ->
  (forall j, i <= j -> exists k, j <= k /\ (stk (r k) t = f :: rest -> able (r k) t)) ->
  exists m, i <= m /\ (forall x, i <= x <= m -> stk (r x) t = f :: rest) /\ stk (r (S m)) t <> stk (r m) t.
Proof.
  intros Hi Hs HP. destruct (moves_on t i) as (m & H1 & H2 & H3).
  - intros j Hj. destruct (HP j Hj) as (k & Hk & Hab). exists k. split; [exact Hk|]. intros E. unfold local in E. injection E as E1 E2. apply Hab; congruence.
  - exists m. split; [exact H1|]. assert (Hx : forall x, i <= x <= m -> stk (r x) t = f :: rest) by (intros x Hx; specialize (H2 x Hx); unfold local in H2; congruence). split; [exact Hx|].
    intros E. pose proof (H2 m ltac:(lia)) as Em. assert (Hw : wk (r (S m)) t <> wk (r m) t) by (intros E'; apply H3; rewrite <- Em; unfold local; congruence).
    pose proof (Hx m ltac:(lia)) as Es. destruct (worker_next _ _ _ t (step_at m) Hw) as [N1 _].
    destruct (Nat.lt_ge_cases t n) as [Ht|Ht].
    + destruct (frame_running m t ltac:(lia) Ht ltac:(rewrite Es; discriminate)) as (id & Er). unfold next_ok in N1. rewrite Er in N1. destruct N1 as (_ & _ & N1). congruence.
    + apply Hw. rewrite !outsider by exact Ht. reflexivity.
Qed.
Lemma free_frame t h : forall i f rest, i0 <= i -> mtx (r i) = Some t -> stk (r i) t = f :: rest -> fholds f = true -> frank f <= h -> exists j, i <= j /\ mtx (r j) = None.
Proof.
  induction h as [|h IH]; intros i f rest Hi Hm Hs Hf Hk; [destruct f; cbn in *; try discriminate; lia|].
  destruct (frame_act t i f rest Hi Hs) as (m & H1 & H2 & H3).
  - intros j Hj. exists j. split; [lia|]. intros E. unfold able. rewrite E. destruct f; try discriminate Hf; exact I.
  - pose proof (H2 m ltac:(lia)) as Es. destruct (frame_next _ _ _ t f rest (step_at m) Es Hf H3) as [N|[(q & N1 & N2)|(f' & N1 & N2 & N3)]].
    + exists (S m). split; [lia|exact N].
    + exfalso. assert (Ht : n <= t) by (apply (Hout (S m) t DLock); [lia|rewrite N1; left; reflexivity|reflexivity]).
      apply (client_dtor (r (S m)) t q (inv_at _)); [rewrite nw_at; exact Ht|exact N1|]. pose proof (v_mtx _ (inv_at (S m)) t) as HM. unfold nh in HM. rewrite N1 in HM. cbn [cnt fholds b2n] in HM. unfold own in HM.
      destruct (mtx (r (S m))) as [x|]; [|lia]. destruct (Nat.eqb_spec t x); [congruence|cbn in HM; lia].
    + destruct (IH (S m) f' rest) as (j & Hj & Hn); try assumption; try lia; [|exists j; split; [lia|exact Hn]].
      pose proof (v_mtx _ (inv_at (S m)) t) as HM. unfold nh in HM. rewrite N1 in HM. cbn [cnt] in HM. rewrite N2 in HM. cbn [b2n] in HM. unfold own in HM.
      destruct (mtx (r (S m))) as [x|]; [|lia]. destruct (Nat.eqb_spec t x); [congruence|cbn in HM; lia].
Qed.
Lemma mutex_free i : i0 <= i -> exists j, i <= j /\ mtx (r j) = None.
Proof.
  intros Hi. destruct (mtx (r i)) as [t|] eqn:Em; [|exists i; split; [lia|exact Em]].
  pose proof (inv_at i) as HV. pose proof (v_mtx _ HV t) as HM. unfold nh, own in HM. rewrite Em, Nat.eqb_refl in HM. cbn [b2n] in HM.
  destruct (Nat.ltb t (nw (r i)) && wholds (wk (r i) t)) eqn:Ew; cbn [b2n] in HM.
  - apply andb_true_iff in Ew. destruct Ew as [E1 E2]. apply Nat.ltb_lt in E1. rewrite nw_at in E1. eapply free_worker; [exact E1|exact Hi|exact E2|apply le_n].
  - destruct (stk (r i) t) as [|f rest] eqn:Es; [discriminate HM|].
    assert (Hf : fholds f = true); [|eapply free_frame; [exact Hi|exact Em|exact Es|exact Hf|apply le_n]].
    destruct (fholds f) eqn:E; [reflexivity|]. exfalso. cbn [cnt] in HM. rewrite E in HM. cbn [b2n Nat.add] in HM.
    assert (Hg : exists g, In g rest /\ fholds g = true). { assert (Hc : 0 < cnt fholds rest) by lia. clear - Hc. induction rest as [|a l IH]; cbn [cnt] in Hc; [lia|]. destruct (fholds a) eqn:E; [exists a; split; [left; reflexivity|exact E]|]. destruct IH as (g & H1 & H2); [cbn in Hc; lia|]. exists g. split; [right; exact H1|exact H2]. }
    destruct Hg as (g & Hg & Hh). pose proof (dhead_at i t f rest Es) as Hd. pose proof (cnt_zero is_dtor rest g Hd Hg) as Hgd.
    assert (Ha : accesses g = true) by (destruct g; try discriminate Hh; try discriminate Hgd; reflexivity).
    destruct (is_dtor f) eqn:Ef.
    + assert (Ht : n <= t) by (apply (Hout i t f); [exact Hi|rewrite Es; left; reflexivity|exact Ef]).
      pose proof (covered_cdrop g _ (v_cov _ HV t ltac:(rewrite nw_at; exact Ht)) ltac:(rewrite Es; right; exact Hg) Ha) as Hc. pose proof (v_refs _ HV t) as Hr. pose proof (cnt_pos holds_ref _ _ Hc eq_refl) as Hp.
      assert (Hst : 0 < strong (r i)) by (unfold strong; destruct (refs (r i)); [cbn in Hr; lia|cbn; lia]). destruct (dt_alive _ (v_dt _ HV) Hst) as [HA _]. specialize (HA t). rewrite Es in HA. cbn [cnt] in HA. rewrite Ef in HA. cbn in HA. lia.
    + destruct (facts i) as (_ & _ & HT & _). specialize (HT t). rewrite Es in HT. destruct HT as [HT _]. specialize (HT Ef). pose proof (cnt_zero accret rest g HT Hg) as Hx. unfold accret in Hx. rewrite Ha in Hx. discriminate Hx.
Qed.

(** * Every worker goes on *)
Lemma go w i : i0 <= i -> w < n -> is_blocked (wk (r i) w) = false -> wk (r i) w <> WExit ->
  exists m, i <= m /\ wk (r m) w = wk (r i) w /\ next_ok (r m) (ev m) (r (S m)) w.
Proof.
  intros Hi Hw Hb Hx. assert (G : (exists m, i <= m /\ (forall x, i <= x <= m -> wk (r x) w = wk (r i) w) /\ wk (r (S m)) w <> wk (r i) w) -> exists m, i <= m /\ wk (r m) w = wk (r i) w /\ next_ok (r m) (ev m) (r (S m)) w).
  { intros (m & H1 & H2 & H3). pose proof (H2 m ltac:(lia)) as Em. exists m. split; [exact H1|]. split; [exact Em|]. rewrite <- Em in H3. apply (worker_next _ _ _ w (step_at m) H3). }
  destruct (running (wk (r i) w)) eqn:Er.
  - apply G. destruct (wk (r i) w) eqn:Ep; try discriminate Er. destruct (Hret w id i Hw Ep) as (j & Hj & Hne).
    destruct (first_change wpc_dec (fun x => wk (r x) w) i j Hj) as [H|(m & H1 & H2 & H3)]; [exfalso; apply Hne; rewrite (H j) by lia; exact Ep|]. exists m. rewrite Ep in *. split; [lia|]. tauto.
  - apply G. apply worker_act; try assumption.
    assert (D : (forall s, wk s w = wk (r i) w -> stk s w = [] -> nw s = n -> mtx s = None -> able s w)).
    { intros s E1 E2 E3 E4. unfold able. rewrite E2, E1, E3. split; [exact Hw|]. destruct (wk (r i) w); try discriminate Er; try discriminate Hb; try exact I; try exact E4. congruence. }
    intros j Hj. destruct (mutex_free j ltac:(lia)) as (k & Hk & Hm). exists k. split; [exact Hk|]. intros E1 E2. apply D; try assumption. apply nw_at.
Qed.
Lemma go_timeout w i d : i0 <= i -> w < n -> wk (r i) w = WWait (Some d) -> (forall j, i <= j -> (d <= clock (r j))%Z) -> exists m, i <= m /\ wk (r m) w = WWake.
Proof.
  intros Hi Hw Hp Hc. destruct (worker_act w i Hi Hw) as (m & H1 & H2 & H3); [rewrite Hp; reflexivity| |].
  - intros j Hj. exists j. split; [lia|]. intros E1 E2. unfold able. rewrite E2, E1, Hp, nw_at. split; [exact Hw|apply Hc; exact Hj].
  - pose proof (H2 m ltac:(lia)) as Em. rewrite <- Em in H3. destruct (worker_next _ _ _ w (step_at m) H3) as [N1 _]. unfold next_ok in N1. rewrite Em, Hp in N1. exists (S m). split; [lia|exact N1].
Qed.
Lemma go_frame t i f rest : i0 <= i -> stk (r i) t = f :: rest -> (forall k, f <> DJoin k) -> f <> DTerm -> exists m, i <= m /\ (forall x, i <= x <= m -> stk (r x) t = f :: rest) /\ stk (r (S m)) t <> stk (r m) t.
Proof.
  intros Hi Hs H1 H2. apply frame_act; try assumption. intros j Hj. destruct (mutex_free j ltac:(lia)) as (k & Hk & Hm). exists k. split; [exact Hk|]. intros E. unfold able. rewrite E.
  destruct f; try exact I; try exact Hm; [exfalso; eapply H1; reflexivity|congruence].
Qed.
End Outside.
End Runs.
