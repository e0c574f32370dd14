(** Proofs about FinalAction. *)
From Coq Require Import Permutation.
From Verif Require Import Base FinModel FinSpec.

(** The action an object would run if destroyed now. *)
Definition pend (o : final_action) : option nat := if invoke o then action o else None.

Definition pending (l : list (nat * final_action)) : list nat :=
  flat_map (fun p => given (pend (snd p))) l.

(** Names are unique, armed objects hold a closure, and ownership agrees. *)
Definition names (l : list (nat * final_action)) : list nat := map fst l.
Definition wf (l : list (nat * final_action)) : Prop :=
  NoDup (names l) /\ (forall x o, In (x, o) l -> invoke o = true -> action o <> None).
Definition agrees (l : list (nat * final_action)) (w : owners) : Prop :=
  forall x, w x = match lookup x l with Some o => pend o | None => None end.

Lemma lookup_none x l : lookup x l = None <-> ~ In x (names l).
Proof.
  induction l as [|[y o] l IH]; simpl; [tauto|].
  destruct (Nat.eqb_spec x y); [subst; split; [discriminate|tauto]|].
  rewrite IH. intuition congruence.
Qed.

Lemma lookup_in x l o : lookup x l = Some o -> In (x, o) l.
Proof.
  induction l as [|[y p] l IH]; simpl; [discriminate|].
  destruct (Nat.eqb_spec x y); [intros [= ->]; subst; auto|auto].
Qed.

Lemma names_update x o l : names (update x o l) = names l.
Proof.
  induction l as [|[y p] l IH]; simpl; [reflexivity|]. destruct (Nat.eqb x y); simpl; congruence.
Qed.

Lemma names_remove_incl x l : incl (names (remove x l)) (names l).
Proof.
  induction l as [|[y p] l IH]; simpl; intros z Hz; [auto|].
  destruct (Nat.eqb x y); simpl in *; [auto|]. destruct Hz; [left|right]; auto.
Qed.

Lemma nodup_remove x l : NoDup (names l) -> NoDup (names (remove x l)).
Proof.
  induction l as [|[y p] l IH]; simpl; intros H; [auto|]. inversion H; subst.
  destruct (Nat.eqb x y); [auto|]. simpl. constructor; [|auto].
  intros F. apply names_remove_incl in F. contradiction.
Qed.

Lemma lookup_update x o l z : lookup x l <> None ->
  lookup z (update x o l) = if Nat.eqb z x then Some o else lookup z l.
Proof.
  induction l as [|[y p] l IH]; simpl; [tauto|]. intros H.
  destruct (Nat.eqb_spec x y).
  - subst. simpl. now destruct (Nat.eqb z y).
  - simpl. rewrite IH by auto. destruct (Nat.eqb_spec z y), (Nat.eqb_spec z x); try reflexivity.
    subst. congruence.
Qed.

Lemma lookup_remove x l z : NoDup (names l) ->
  lookup z (remove x l) = if Nat.eqb z x then None else lookup z l.
Proof.
  induction l as [|[y p] l IH]; simpl; intros H; [now destruct (Nat.eqb z x)|].
  inversion H; subst. destruct (Nat.eqb_spec x y).
  - subst. destruct (Nat.eqb_spec z y); [|reflexivity]. subst. now apply lookup_none.
  - simpl. rewrite IH by auto. destruct (Nat.eqb_spec z y), (Nat.eqb_spec z x); try reflexivity.
    subst. congruence.
Qed.

Lemma in_update x o l z p : In (z, p) (update x o l) -> p = o \/ In (z, p) l.
Proof.
  induction l as [|[y q] l IH]; simpl; [tauto|].
  destruct (Nat.eqb x y); simpl; intros [H|H]; auto.
  - injection H as _ ->. auto.
  - destruct (IH H); auto.
Qed.

Lemma in_remove x l z p : In (z, p) (remove x l) -> In (z, p) l.
Proof.
  induction l as [|[y q] l IH]; simpl; [tauto|].
  destruct (Nat.eqb x y); simpl; auto. intros [H|H]; auto.
Qed.

(** Permutations of what is pending. *)
Lemma pending_update x o l p : lookup x l = Some p ->
  Permutation (given (pend p) ++ pending (update x o l)) (given (pend o) ++ pending l).
Proof.
  induction l as [|[y q] l IH]; simpl; [discriminate|].
  destruct (Nat.eqb x y); simpl; intros H.
  - injection H as ->. rewrite !app_assoc. apply Permutation_app_tail. apply Permutation_app_comm.
  - rewrite !app_assoc. rewrite (Permutation_app_comm (given (pend p))).
    rewrite <- app_assoc. rewrite IH by auto.
    rewrite !app_assoc. apply Permutation_app_tail. apply Permutation_app_comm.
Qed.

Lemma pending_remove x l p : lookup x l = Some p ->
  Permutation (given (pend p) ++ pending (remove x l)) (pending l).
Proof.
  induction l as [|[y q] l IH]; simpl; [discriminate|].
  destruct (Nat.eqb x y); simpl; intros H.
  - now injection H as ->.
  - rewrite app_assoc. rewrite (Permutation_app_comm (given (pend p))).
    rewrite <- app_assoc. now rewrite IH.
Qed.

(** One step: ownership is tracked and nothing is lost except as the specification says. *)
Lemma step_ok s o s' w :
  wf (objs s) -> agrees (objs s) w -> step s o = Some s' ->
  exists t, s' = Ok t /\ wf (objs t) /\ agrees (objs t) (transfer w o) /\
    log t = log s ++ (match o with ODestroy x => given (w x) | _ => [] end) /\
    Permutation (registered [o] ++ pending (objs s))
      ((match o with ODestroy x => given (w x) | _ => [] end) ++
       (match o with OMoveAssign x y => if Nat.eqb x y then [] else given (w x) | _ => [] end) ++
       pending (objs t)).
Proof.
  intros (Hn & Ha) Ag Hs. destruct s as [l lg]. cbn [objs log] in *.
  destruct o as [x f|x y|x y|x]; cbn [step objs log] in Hs.
  - destruct (lookup x l) eqn:Lx; [discriminate|]. injection Hs as <-.
    eexists. split; [reflexivity|]. cbn [objs log registered transfer]. split; [|split; [|split]].
    + split.
      * cbn [names map fst]. constructor; auto. now apply lookup_none.
      * intros z o [E|E] Hi; [injection E as _ <-; discriminate|eauto].
    + intros z. unfold put. cbn [lookup]. destruct (Nat.eqb z x); [reflexivity|apply Ag].
    + now rewrite app_nil_r.
    + reflexivity.
  - destruct (lookup x l) eqn:Lx; [discriminate|]. destruct (lookup y l) as [p|] eqn:Ly; [|discriminate].
    injection Hs as <-. eexists. split; [reflexivity|]. cbn [objs log registered transfer].
    assert (Nx : ~ In x (names l)) by now apply lookup_none.
    split; [|split; [|split]].
    + split.
      * cbn [names map fst]. fold (names (update y (FA None false) l)). rewrite names_update.
        constructor; auto.
      * intros z o [E|E] Hi.
        -- injection E as _ <-. cbn [invoke action] in *. apply (Ha y p); auto. now apply lookup_in.
        -- apply in_update in E as [->|E]; [discriminate|eauto].
    + intros z. unfold put. cbn [lookup]. destruct (Nat.eqb_spec z x).
      * rewrite (Ag y), Ly. now destruct p.
      * rewrite lookup_update by congruence. destruct (Nat.eqb z y); [reflexivity|apply Ag].
    + now rewrite app_nil_r.
    + cbn [app pending flat_map snd]. fold (pending (update y (FA None false) l)).
      destruct p as [a i]. symmetry. apply (pending_update y (FA None false) l (FA a i) Ly).
  - destruct (lookup x l) as [q|] eqn:Lx; [|discriminate].
    destruct (lookup y l) as [p|] eqn:Ly; [|discriminate].
    destruct (Nat.eqb_spec x y) as [E|E].
    + injection Hs as <-. eexists. split; [reflexivity|]. cbn [objs log registered transfer].
      apply Nat.eqb_eq in E. rewrite E. split; [split; auto|]. split; [exact Ag|].
      split; [now rewrite app_nil_r|reflexivity].
    + injection Hs as <-. eexists. split; [reflexivity|]. cbn [objs log registered transfer].
      apply Nat.eqb_neq in E. rewrite E. apply Nat.eqb_neq in E.
      assert (Ly' : lookup y (update x (FA (action p) (invoke p)) l) = Some p).
      { rewrite lookup_update by congruence. destruct (Nat.eqb_spec y x); [congruence|auto]. }
      split; [|split; [|split]].
      * split; [now rewrite !names_update|]. intros z o I Hi.
        apply in_update in I as [->|I]; [discriminate|]. apply in_update in I as [->|I]; [|eauto].
        cbn [invoke action] in *. apply (Ha y p); auto. now apply lookup_in.
      * intros z. unfold put. rewrite lookup_update by congruence.
        rewrite (lookup_update x) by congruence.
        destruct (Nat.eqb_spec z x), (Nat.eqb_spec z y); try congruence; try reflexivity.
        -- rewrite (Ag y), Ly. now destruct p.
        -- apply Ag.
      * now rewrite app_nil_r.
      * cbn [app]. rewrite (Ag x), Lx.
        pose proof (pending_update y (FA None false) _ p Ly') as P1. cbn [pend invoke given app] in P1.
        pose proof (pending_update x (FA (action p) (invoke p)) l q Lx) as P2.
        assert (Ep : pend (FA (action p) (invoke p)) = pend p) by (now destruct p).
        rewrite Ep in P2.
        apply (Permutation_app_inv_l (given (pend p))). rewrite <- P2, <- P1.
        rewrite !app_assoc. apply Permutation_app_tail. apply Permutation_app_comm.
  - destruct (lookup x l) as [q|] eqn:Lx; [|discriminate].
    assert (D : fa_dtor q = Ok (given (w x))).
    { rewrite (Ag x), Lx. unfold fa_dtor, pend. destruct (invoke q) eqn:I; [|reflexivity].
      destruct (action q) eqn:A; [reflexivity|]. exfalso. apply (Ha x q); auto. now apply lookup_in. }
    rewrite D in Hs. injection Hs as <-. eexists. split; [reflexivity|].
    cbn [objs log registered transfer]. split; [|split; [|split]].
    + split; [now apply nodup_remove|]. intros z o I Hi. apply in_remove in I. eauto.
    + intros z. unfold put. rewrite lookup_remove by auto. destruct (Nat.eqb z x); [reflexivity|apply Ag].
    + reflexivity.
    + cbn [app]. rewrite (Ag x), Lx. symmetry. now apply pending_remove.
Qed.

Lemma exec_ok ops : forall s w r,
  wf (objs s) -> agrees (objs s) w -> exec s ops = Some r ->
  exists t, r = Ok t /\ wf (objs t) /\ agrees (objs t) (owners_after w ops) /\
    log t = log s ++ due w ops /\
    Permutation (registered ops ++ pending (objs s))
      (due w ops ++ dropped w ops ++ pending (objs t)).
Proof.
  induction ops as [|o ops IH]; intros s w r W A E; cbn [exec] in E.
  - injection E as <-. exists s. split; [reflexivity|]. split; [exact W|]. split; [exact A|].
    split; [simpl; now rewrite app_nil_r|reflexivity].
  - destruct (step s o) as [so|] eqn:So; [|discriminate].
    destruct (step_ok s o so w W A So) as (s1 & -> & W1 & A1 & L1 & P1).
    destruct (IH s1 _ r W1 A1 E) as (t & -> & Wt & At & Lt & Pt).
    exists t. split; [reflexivity|]. split; [exact Wt|]. split; [exact At|].
    split; [cbn [due]; rewrite Lt, L1; now rewrite <- app_assoc|].
    cbn [due dropped].
    assert (R : registered (o :: ops) = registered [o] ++ registered ops) by (now destruct o).
    rewrite R. rewrite <- app_assoc. rewrite (Permutation_app_comm (registered ops)).
    rewrite app_assoc. rewrite P1.
    set (a := match o with ODestroy x => given (w x) | _ => [] end) in *.
    set (b := match o with OMoveAssign x y => if Nat.eqb x y then [] else given (w x) | _ => [] end) in *.
    rewrite <- !app_assoc. apply Permutation_app_head.
    transitivity (b ++ registered ops ++ pending (objs s1)).
    { apply Permutation_app_head. apply Permutation_app_comm. }
    rewrite Pt. rewrite !app_assoc. do 2 apply Permutation_app_tail. apply Permutation_app_comm.
Qed.

Lemma init_wf : wf (objs init).
Proof. split; [constructor|intros x o []]. Qed.
Lemma init_agrees : agrees (objs init) none.
Proof. intros x. reflexivity. Qed.

Lemma exec_init ops r : exec init ops = Some r ->
  exists t, r = Ok t /\ wf (objs t) /\ agrees (objs t) (owners_after none ops) /\
    log t = due none ops /\
    Permutation (registered ops) (log t ++ dropped none ops ++ pending (objs t)).
Proof.
  intros E. destruct (exec_ok ops init none r init_wf init_agrees E) as (t & -> & W & A & L & P).
  exists t. split; [reflexivity|]. split; [exact W|]. split; [exact A|].
  cbn [init log app] in L. split; [exact L|]. rewrite L.
  cbn [init objs pending flat_map] in P. now rewrite app_nil_r in P.
Qed.
