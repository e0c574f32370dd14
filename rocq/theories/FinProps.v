(** C55: a FinalAction runs its action exactly once. *)
From Coq Require Import Permutation.
From Verif Require Import Base FinModel FinSpec FinProofs.

(** No program on FinalActions calls a moved-from closure, and the executed actions are
    exactly those owned by the destroyed variables, each at the moment its owner is
    destroyed. *)
Theorem C55_runs_at_owner_destruction : forall ops r,
  exec init ops = Some r -> exists s, r = Ok s /\ log s = due none ops.
Proof. intros ops r E. destruct (exec_init ops r E) as (t & -> & _ & _ & L & _). eauto. Qed.

(** Every registered action is executed, dropped by a move assignment, or still owned by
    a live object: each registration is accounted for exactly once. *)
Theorem C55_accounting : forall ops s,
  exec init ops = Some (Ok s) ->
  exists waiting,
    Permutation (registered ops) (log s ++ dropped none ops ++ waiting) /\
    (forall f, In f waiting -> exists x, owners_after none ops x = Some f) /\
    (objs s = [] -> waiting = []).
Proof.
  intros ops s E. destruct (exec_init ops _ E) as (t & [= <-] & (W & _) & A & _ & P).
  exists (pending (objs s)). split; [exact P|]. split.
  - intros f Hf. unfold pending in Hf. apply in_flat_map in Hf as ([x o] & I & Hf).
    exists x. rewrite (A x).
    assert (Lx : lookup x (objs s) = Some o).
    { clear - W I. induction (objs s) as [|[y p] l IH]; [destruct I|]. inversion W; subst.
      simpl. destruct I as [[= -> ->]|I]; [now rewrite Nat.eqb_refl|].
      destruct (Nat.eqb_spec x y); [|auto]. subst. exfalso. apply H1.
      change y with (fst (y, o)). now apply in_map. }
    rewrite Lx. cbn [snd] in Hf. destruct (pend o); [|destruct Hf]. destruct Hf as [->|[]]. reflexivity.
  - intros ->. reflexivity.
Qed.

(** At most once: an action that was registered n times has run at most n times, at every
    point of every program.  With distinct actions, none runs twice. *)
Theorem C55_at_most_once : forall ops s,
  exec init ops = Some (Ok s) ->
  (forall f, count_occ Nat.eq_dec (log s) f <= count_occ Nat.eq_dec (registered ops) f) /\
  (NoDup (registered ops) -> NoDup (log s)).
Proof.
  intros ops s E. destruct (exec_init ops _ E) as (t & [= <-] & _ & _ & _ & P). split.
  - intros f. rewrite (Permutation_count_occ Nat.eq_dec) in P. rewrite (P f).
    rewrite count_occ_app. lia.
  - intros N. apply (Permutation_NoDup P) in N. revert N.
    generalize (dropped none ops ++ pending (objs s)) as r. clear. intros r.
    induction (log s) as [|a l IH]; simpl; intros N; [constructor|].
    inversion N; subst. constructor; auto. intros F. apply H1. apply in_or_app. auto.
Qed.

(** Exactly once: when every object has been destroyed and no owner was overwritten, the
    executed actions are the registered ones. *)
Theorem C55_exactly_once : forall ops s,
  exec init ops = Some (Ok s) -> objs s = [] -> never_overwritten ops ->
  Permutation (log s) (registered ops).
Proof.
  intros ops s E H0 N. destruct (exec_init ops _ E) as (t & [= <-] & _ & _ & _ & P).
  unfold never_overwritten in N. rewrite N, H0 in P. cbn [pending flat_map app] in P.
  rewrite app_nil_r in P. now symmetry.
Qed.

(** The same for a single action: whatever happens to other owners, an action that is not
    dropped runs exactly as often as it was registered. *)
Theorem C55_exactly_once_each : forall ops s f,
  exec init ops = Some (Ok s) -> objs s = [] -> ~ In f (dropped none ops) ->
  count_occ Nat.eq_dec (log s) f = count_occ Nat.eq_dec (registered ops) f.
Proof.
  intros ops s f E H0 N. destruct (exec_init ops _ E) as (t & [= <-] & _ & _ & _ & P).
  rewrite (Permutation_count_occ Nat.eq_dec) in P. rewrite (P f), !count_occ_app, H0.
  apply (count_occ_not_In Nat.eq_dec) in N. simpl. lia.
Qed.

(** Moving never runs an action: only a destruction extends the log. *)
Theorem C55_moves_run_nothing : forall ops o s s',
  exec init ops = Some (Ok s) -> step s o = Some (Ok s') ->
  (forall x, o <> ODestroy x) -> log s' = log s.
Proof.
  intros ops o s s' E So N. destruct (exec_init ops _ E) as (t & [= <-] & W & A & _ & _).
  destruct (step_ok s o _ _ W A So) as (u & [= <-] & _ & _ & L & _). rewrite L.
  destruct o; try apply app_nil_r. exfalso. eapply N. reflexivity.
Qed.

(** Every operation on live, suitably named objects is defined: a program can only go
    wrong by naming dead objects. *)
Theorem C55_defined : forall ops s o,
  exec init ops = Some (Ok s) ->
  (match o with
   | OCtor x _ => lookup x (objs s) = None
   | OMoveCtor x y => lookup x (objs s) = None /\ lookup y (objs s) <> None
   | OMoveAssign x y => lookup x (objs s) <> None /\ lookup y (objs s) <> None
   | ODestroy x => lookup x (objs s) <> None
   end) ->
  exists s', step s o = Some (Ok s').
Proof.
  intros ops s o E H. destruct (exec_init ops _ E) as (t & [= <-] & W & A & _ & _).
  destruct (step s o) as [r|] eqn:So.
  - destruct (step_ok s o _ _ W A So) as (u & -> & _). eauto.
  - exfalso. destruct o as [x f|x y|x y|x]; cbn [step] in So.
    + now rewrite H in So.
    + destruct H as (H1 & H2). rewrite H1 in So. destruct (lookup y (objs s)); [discriminate|tauto].
    + destruct H as (H1 & H2). destruct (lookup x (objs s)); [|tauto].
      destruct (lookup y (objs s)); [|tauto]. destruct (Nat.eqb x y); discriminate.
    + destruct (lookup x (objs s)); [|tauto]. destruct (fa_dtor f); discriminate.
Qed.

(** Finding: assigning to a FinalAction that still owns an action drops that action
    without running it. *)
Theorem C55_overwritten_finding : forall f g, f <> g -> exists s,
  exec init [OCtor 1 f; OCtor 2 g; OMoveAssign 1 2; ODestroy 2; ODestroy 1] = Some (Ok s) /\
  objs s = [] /\ log s = [g].
Proof. intros f g _. eexists. split; [reflexivity|]. split; reflexivity. Qed.

(** Finding: finally(f) moves from f even when f is an lvalue the caller keeps using, so a
    second finally(f) holds an empty closure and its destructor calls it. *)
Theorem C55_finally_lvalue_finding : forall f,
  let '(a, caller) := finally_ (Some f) in
  let '(b, _) := finally_ caller in
  fa_dtor a = Ok [f] /\ caller = None /\ fa_dtor b = UB.
Proof. intros f. repeat split. Qed.

(** Three actions, moved through two further variables. *)
Example C55_example :
  let ops := [OCtor 1 10; OCtor 2 20; OMoveCtor 3 1; OMoveAssign 1 2; OMoveAssign 3 3;
              OCtor 4 30; ODestroy 2; ODestroy 4; ODestroy 3; ODestroy 1] in
  exists s, exec init ops = Some (Ok s) /\ objs s = [] /\ never_overwritten ops /\
    NoDup (registered ops) /\ log s = [30; 10; 20].
Proof.
  eexists. split; [reflexivity|]. split; [reflexivity|]. split; [reflexivity|].
  split; [|reflexivity]. simpl. repeat constructor; simpl; intuition discriminate.
Qed.

Print Assumptions C55_exactly_once.
