(** C85: creating a thread pool. *)
From Coq Require Import ZArith List Bool Lia.
From Verif Require Import Base PoolModel PoolCtorModel PoolCtorSpec.
Import ListNotations.
Local Open Scope Z_scope.

Lemma construct_legal n c : legal n c <-> exists s, construct n c = Ok s.
Proof.
  unfold legal, construct. destruct (Nat.eqb_spec n 0), (Z.ltb_spec 10000 (Z.of_nat n)), (Nat.eqb_spec c 0), (Z.ltb_spec 10000000 (Z.of_nat c)); cbn [orb];
    split; intros; try (destruct H as (? & E); discriminate E); try (exists (St n c [] [] [] 0 false None 0 (fun _ => WInit) (fun _ => []) 1 [] (fun _ => FNone) (fun _ => false) false); reflexivity); try lia.
  all: destruct H1 as (? & E); discriminate E.
Qed.
Lemma construct_cases n c : (exists s, construct n c = Ok s /\ new_pool n c s) \/ construct n c = Throw InvalidArgument.
Proof.
  unfold construct. destruct ((n =? 0)%nat || (10000 <? Z.of_nat n)); [right; reflexivity|]. destruct ((c =? 0)%nat || (10000000 <? Z.of_nat c)); [right; reflexivity|].
  left. eexists. split; [reflexivity|]. repeat split.
Qed.
Lemma start_all g : forall todo k done, (forall j, (k <= j < k + todo)%nat -> g j = true) -> start_threads g k todo done = done.
Proof.
  induction todo as [|todo IH]; intros k done H; cbn [start_threads]; [reflexivity|]. rewrite H by lia. apply IH. intros j Hj. apply H. lia.
Qed.
Lemma start_stop g f : g f = false -> forall todo k done, (k <= f < k + todo)%nat -> (forall j, (k <= j < f)%nat -> g j = true) ->
  start_threads g k todo done = unwind f.
Proof.
  intros Hf. induction todo as [|todo IH]; intros k done H1 H2; [lia|]. cbn [start_threads].
  destruct (Nat.eq_dec k f) as [->|Hk]; [rewrite Hf; reflexivity|]. rewrite H2 by lia. apply IH; [lia|]. intros j Hj. apply H2. lia.
Qed.
Lemma first_refused (g : nat -> bool) n : (forall j, (j < n)%nat -> g j = true) \/ exists f, (f < n)%nat /\ g f = false /\ forall j, (j < f)%nat -> g j = true.
Proof.
  induction n as [|n [IH|(f & H1 & H2 & H3)]].
  - left. intros j Hj. lia.
  - destruct (g n) eqn:E; [left; intros j Hj; destruct (Nat.eq_dec j n) as [->|]; [exact E|apply IH; lia]|right; exists n; auto].
  - right. exists f. split; [lia|auto].
Qed.
(** With illegal arguments std::invalid_argument is thrown before any thread is started ... *)
Theorem C85_illegal : forall granted n c, ~ legal n c <-> make_shared granted n c = Refused InvalidArgument.
Proof.
  intros g n c. rewrite construct_legal. unfold make_shared. destruct (construct_cases n c) as [(s & -> & _)| ->].
  - split; [intros H; destruct H; eauto|]. intros E. exfalso. revert E.
    destruct (first_refused g n) as [H|(f & H1 & H2 & H3)].
    + rewrite start_all by (intros; apply H; lia). discriminate.
    + rewrite (start_stop g f H2) by (lia || (intros; apply H3; lia)). destruct f; discriminate.
  - split; [reflexivity|]. intros _ (s & E). discriminate E.
Qed.
(** ... with legal ones a new pool with the given number of threads is made, if and only if the
    system starts all of them ... *)
Theorem C85_made : forall granted n c, legal n c ->
  ((forall k, (k < n)%nat -> granted k = true) <-> exists s, make_shared granted n c = Made s) /\
  forall s, make_shared granted n c = Made s -> new_pool n c s.
Proof.
  intros g n c HL. apply construct_legal in HL. destruct HL as (s0 & E0). destruct (construct_cases n c) as [(s & E & P)|E]; [|congruence].
  unfold make_shared. rewrite E. split.
  - split; [intros H; rewrite start_all by (intros; apply H; lia); eauto|]. intros (s1 & E1).
    destruct (first_refused g n) as [H|(f & H1 & H2 & H3)]; [exact H|]. exfalso. revert E1.
    rewrite (start_stop g f H2) by (lia || (intros; apply H3; lia)). destruct f; discriminate.
  - intros s1 E1. destruct (first_refused g n) as [H|(f & H1 & H2 & H3)].
    + rewrite start_all in E1 by (intros; apply H; lia). injection E1 as <-. exact P.
    + rewrite (start_stop g f H2) in E1 by (lia || (intros; apply H3; lia)). destruct f; discriminate E1.
Qed.
(** ... and if not even the first thread can be started, std::system_error is thrown. *)
Theorem C85_first_partial : forall granted n c, legal n c -> granted 0%nat = false -> make_shared granted n c = NoThread.
Proof.
  intros g n c HL H. pose proof HL as (Hn & _). apply construct_legal in HL. destruct HL as (s0 & E0). unfold make_shared. rewrite E0.
  rewrite (start_stop g 0 H) by lia. reflexivity.
Qed.
(** But if the system refuses to start a later thread, the program is terminated instead of an
    exception being thrown. *)
Theorem C85_later_refuted : forall granted n c k, legal n c -> (0 < k < n)%nat -> granted k = false -> granted 0%nat = true ->
  make_shared granted n c = Terminated.
Proof.
  intros g n c k HL Hk H H0. apply construct_legal in HL. destruct HL as (s0 & E0). unfold make_shared. rewrite E0.
  destruct (first_refused g n) as [Ha|(f & H1 & H2 & H3)]; [rewrite Ha in H by lia; discriminate H|].
  rewrite (start_stop g f H2) by (lia || (intros; apply H3; lia)). destruct f; [congruence|reflexivity].
Qed.
Example C85_example : legal 4 100 /\ (exists s, make_shared (fun _ => true) 4 100 = Made s) /\
  make_shared (fun k => Nat.ltb k 3) 4 100 = Terminated /\ make_shared (fun _ => true) 0 100 = Refused InvalidArgument.
Proof. repeat split; try (cbn; lia). eexists. reflexivity. Qed.
Print Assumptions C85_made.
