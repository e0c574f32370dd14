(** Any input: the loop over a plain format has no undefined behaviour. *)
From Verif Require Import Base IntModel DateModel DateSpec DateProofs DateProofs2 FmtModel FmtSpec FmtProofs3 ToNumModel ParModel ParSpec ParProofs6 ParProofs7.
Local Open Scope Z_scope.
Local Open Scope outcome_scope.
Local Open Scope char_scope.

Lemma digit_memb c : is_digit c = memb c digits.
Proof. destruct c as [[] [] [] [] [] [] [] []]; reflexivity. Qed.
Lemma eo_memb c : (Ascii.eqb c "E" || Ascii.eqb c "O") = memb c (!"EO").
Proof. destruct c as [[] [] [] [] [] [] [] []]; reflexivity. Qed.

Section Loop.
Context (w : nat) (W : (w <= 7)%nat).
Definition ends : ist := IS [] true false.
Definition is_mod (c : ascii) : Prop := c = NUL \/ c = "E" \/ c = "O".
Definition failed (v : vals) (z : str) (md : ascii) : pst := P (IS [] true true) v z true md (-1) false.
Lemma clock_end f b v z md : clock w f (P (IS [] true b) v z true md (-1) false) = Ok (failed v z md).
Proof.
  destruct (round_sec_zero w W) as (t & R & T).
  destruct b; unfold clock; cbn [p_is]; match goal with |- context [read ?a ?s] => let y := eval vm_compute in (read a s) in change (read a s) with y end;
  cbn [bind failb]; rewrite R; reflexivity.
Qed.
Lemma kw_end_w b v z md : exists i, keyword weekday_names (P (IS [] true b) v z true md (-1) false) = (i, failed v z md).
Proof. destruct b; eexists; reflexivity. Qed.
Lemma kw_end_m b v z md : exists i, keyword month_names (P (IS [] true b) v z true md (-1) false) = (i, failed v z md).
Proof. destruct b; eexists; reflexivity. Qed.
Lemma kw_end_p b v z md : exists i, keyword ampm_names (P (IS [] true b) v z true md (-1) false) = (i, failed v z md).
Proof. destruct b; eexists; reflexivity. Qed.
(** At the end of the input everything fails, except that E and O are stored *)
Lemma eof_dir c v z md : is_mod md -> memb c in_directives = true ->
  exists p', in_directive w c (P ends v z true md (-1) false) = Ok p' /\ failb (p_is p') = true.
Proof.
  intros M HC. destruct (round_sec_zero w W) as (t & R & T). unfold in_directives in HC. memb_cases HC.
  all: match goal with
    | |- context [in_directive _ "c" _] => idtac
    | |- context [in_directive _ "X" _] => idtac
    | |- context [in_directive _ "T" _] => idtac
    | |- context [in_directive _ "r" _] => idtac
    | |- context [in_directive _ "S" _] => idtac
    | _ => destruct M as [->|[->| ->]]; (eexists; split; [vm_compute; reflexivity|reflexivity])
    end.
  - destruct (Ascii.eqb md "O") eqn:EO.
    + apply Ascii.eqb_eq in EO. subst md. eexists. split; [vm_compute; reflexivity|reflexivity].
    + cbn [in_directive p_md p_is]. rewrite EO. destruct (kw_end_w false v z md) as [i Ei]. unfold ends. rewrite Ei. cbv beta zeta iota.
      change (with_is (checked_set Fwd (i mod 7) (failed v z md)) (ws (p_is (checked_set Fwd (i mod 7) (failed v z md))))) with (failed v z md).
      destruct (kw_end_m true v z md) as [j Ej]. unfold failed at 1. rewrite Ej. cbv beta zeta iota.
      change (with_is (checked_set Fm (j mod 12 + 1) (failed v z md)) (ws (p_is (checked_set Fm (j mod 12 + 1) (failed v z md))))) with (failed v z md).
      change (one Fd (RS 1 2) (failed v z md)) with (Ok (failed v z md)). cbn [bind].
      change (with_is (failed v z md) (ws (p_is (failed v z md)))) with (failed v z md).
      unfold failed at 1. rewrite clock_end. cbn [bind].
      change (with_is (failed v z md) (ws (p_is (failed v z md)))) with (failed v z md).
      change (one FY (RS 1 4) (failed v z md)) with (Ok (failed v z md)). cbn [bind].
      eexists. split; reflexivity.
  - cbn [in_directive p_md]. unfold ends. rewrite clock_end.
    destruct M as [->|[->| ->]]; (eexists; split; [vm_compute; reflexivity|reflexivity]).
  - cbn [in_directive p_md]. unfold ends. rewrite clock_end.
    destruct (Ascii.eqb md NUL) eqn:EO; [cbn [bind]|apply Ascii.eqb_neq in EO; destruct M as [->|[->| ->]]; [congruence| |]; (eexists; split; [vm_compute; reflexivity|reflexivity])].
    change (with_is (failed v z md) (ws (p_is (failed v z md)))) with (failed v z md).
    destruct (kw_end_p true v z md) as [i Ei]. unfold failed at 1. rewrite Ei. eexists. split; reflexivity.
  - cbn [in_directive p_md p_is].
    change (read_long_double 1 _ ends) with (ld_zero, IS [] true true). cbv iota. rewrite R. cbn [bind].
    destruct M as [->|[->| ->]]; (eexists; split; [vm_compute; reflexivity|reflexivity]).
  - cbn [in_directive p_md]. unfold ends. rewrite clock_end.
    destruct M as [->|[->| ->]]; (eexists; split; [vm_compute; reflexivity|reflexivity]).
Qed.
Lemma eo_not_dir c : memb c (!"EO") = true -> memb c in_directives = false /\ c <> "%" /\ c <> "t" /\ (c = "E" \/ c = "O").
Proof. intros H. memb_cases H; repeat split; auto; discriminate. Qed.
Lemma read_verb md c s : sok s -> exists l s', read (RC "%" :: RI (-1) :: (if Ascii.eqb md NUL then [] else [RC md]) ++ [RC c]) s = Ok (l, s') /\ sok s'.
Proof.
  intros S. destruct (Ascii.eqb md NUL); cbn [app].
  - destruct (read_sok [RC "%"; RI (-1); RC c] ltac:(repeat constructor) s S) as (l & s' & R & S' & _). eauto.
  - destruct (read_sok [RC "%"; RI (-1); RC md; RC c] ltac:(repeat constructor) s S) as (l & s' & R & S' & _). eauto.
Qed.
(** One character of the format while a directive is being read *)
Lemma cmd_step c p : pinv p -> p_cmd p = true -> c <> "z" -> (p_md p = NUL -> memb c digits = false) ->
  exists p', step w c p = Ok p' /\ pinv p' /\
    (after c p p' \/ (memb c (!"EO") = true /\ p_md p = NUL /\ p' = P (p_is p) (p_v p) (p_zone p) true c (-1) false)).
Proof.
  intros P C Z D. unfold step. rewrite C, eo_memb, (i_w _ P). destruct (memb c in_directives) eqn:HD.
  { destruct (dir_res w W c p P (conj HD Z)) as (p' & -> & P' & A). exists p'. auto. }
  destruct (memb c (!"EO")) eqn:HE.
  { destruct (Ascii.eqb (p_md p) NUL) eqn:N.
    - apply Ascii.eqb_eq in N. eexists. split; [reflexivity|]. split; [|right; auto]. destruct P as [A B E F]. now constructor.
    - destruct (verb_fine c p P) as (p1 & -> & P1). cbn [bind]. eexists. split; [reflexivity|]. split; [now apply reset_inv|]. left. left. split; reflexivity. }
  destruct (Ascii.eqb c "%") eqn:HP.
  { destruct (Ascii.eqb (p_md p) NUL) eqn:N.
    - eexists. split; [reflexivity|]. split; [apply reset_inv, with_is_inv; [exact P|apply read_c_sok, P]|]. left. left. split; reflexivity.
    - destruct (verb_fine c p P) as (p1 & -> & P1). cbn [bind]. eexists. split; [reflexivity|]. split; [now apply reset_inv|]. left. left. split; reflexivity. }
  assert (X : (-1 =? -1)%Z && Ascii.eqb (p_md p) NUL && is_digit c = false).
  { destruct (Ascii.eqb (p_md p) NUL) eqn:N; [|reflexivity]. apply Ascii.eqb_eq in N. rewrite digit_memb, (D N). reflexivity. }
  rewrite X. destruct (read_verb (p_md p) c (p_is p) (i_s _ P)) as (l & s' & -> & S'). cbn [bind].
  eexists. split; [reflexivity|]. split; [now apply reset_inv, with_is_inv|]. left. left. split; reflexivity.
Qed.
(** ... at the end of the input *)
Lemma end_step c p : pinv p -> p_cmd p = true -> is_mod (p_md p) -> p_is p = ends -> (p_md p = NUL -> memb c digits = false) ->
  exists p', step w c p = Ok p' /\
    (failb (p_is p') = true \/ (memb c (!"EO") = true /\ p_md p = NUL /\ pinv p' /\ p' = P (p_is p) (p_v p) (p_zone p) true c (-1) false)).
Proof.
  intros P C M E D. pose proof (i_w _ P) as HW. pose proof (i_n _ P) as HN.
  destruct p as [s v z b md n iw]. cbn [p_is p_cmd p_md p_w p_inw p_v p_zone] in *. subst s b n iw.
  destruct (memb c in_directives) eqn:HD.
  { unfold step. rewrite HD. cbn [p_cmd]. destruct (eof_dir c v z md M HD) as (p' & -> & F). exists p'. auto. }
  assert (Z : c <> "z") by (intros ->; discriminate HD).
  destruct (memb c (!"EO") && Ascii.eqb md NUL) eqn:HE.
  { apply andb_prop in HE. destruct HE as [HE N]. destruct (cmd_step c _ P eq_refl Z D) as (p' & S & P' & A). exists p'. split; [exact S|]. right.
    destruct (eo_not_dir c HE) as (_ & _ & T & _). apply Ascii.eqb_eq in N. subst md. split; [exact HE|]. split; [reflexivity|]. split; [exact P'|].
    unfold step in S. rewrite HD, eo_memb, HE in S. cbn [p_cmd p_md] in S. injection S as <-. reflexivity. }
  unfold step. rewrite HD, eo_memb. cbn [p_cmd p_md p_w p_is p_v p_zone].
  assert (X : (-1 =? -1)%Z && Ascii.eqb md NUL && is_digit c = false).
  { destruct (Ascii.eqb md NUL) eqn:N; [|reflexivity]. apply Ascii.eqb_eq in N. rewrite digit_memb, (D N). reflexivity. }
  rewrite X.
  destruct (memb c (!"EO")) eqn:HE1; [cbn [andb] in HE; rewrite HE; eexists; split; [reflexivity|left; reflexivity]|].
  destruct (Ascii.eqb c "%") eqn:HP.
  { apply Ascii.eqb_eq in HP. subst c. destruct (Ascii.eqb md NUL); eexists; (split; [reflexivity|left; reflexivity]). }
  eexists; split; [reflexivity|left; reflexivity].
Qed.

Definition at_ (q : place) (p : pst) : Prop :=
  match q with
  | Text => (p_cmd p = false /\ p_md p = NUL) \/ (p_cmd p = true /\ (p_md p = "E" \/ p_md p = "O") /\ p_is p = ends)
  | Percent => p_cmd p = true /\ p_md p = NUL
  | Modifier => p_cmd p = true /\ (p_md p = "E" \/ p_md p = "O")
  | Tab => (p_cmd p = false /\ p_md p = NUL) \/ (p_cmd p = true /\ p_md p = NUL /\ p_is p = ends)
  end.
Definition linv (fmt : str) (p : pst) : Prop :=
  failb (p_is p) = true \/ (pinv p /\ exists q, plain_from q fmt = true /\ at_ q p).
Lemma text_step c fmt p : pinv p -> p_cmd p = false -> p_md p = NUL -> plain_from (if Ascii.eqb c "%" then Percent else Text) fmt = true ->
  exists p', step w c p = Ok p' /\ linv fmt p'.
Proof.
  intros P C N Q. unfold step. rewrite C, N.
  assert (A : Ascii.eqb c "%" = false -> forall s, sok s -> linv fmt (with_is p s)).
  { intros E s S. rewrite E in Q. right. split; [now apply with_is_inv|]. exists Text. split; [exact Q|]. left. auto. }
  destruct (memb c in_directives) eqn:HD.
  { eexists. split; [reflexivity|]. apply A; [|apply read_c_sok, P]. apply Ascii.eqb_neq. intros ->. discriminate HD. }
  rewrite eo_memb. destruct (memb c (!"EO")) eqn:HE.
  { eexists. split; [reflexivity|]. apply A; [|apply read_c_sok, P]. apply Ascii.eqb_neq. intros ->. discriminate HE. }
  destruct (Ascii.eqb c "%") eqn:HP.
  { eexists. split; [reflexivity|]. right. split; [destruct P; now constructor|]. exists Percent. split; [exact Q|]. split; reflexivity. }
  destruct (is_space c); eexists; (split; [reflexivity|]).
  - destruct (good (p_is p)); [apply A; [reflexivity|apply ws_sok, P]|]. right. split; [exact P|]. exists Text. split; [exact Q|]. left. auto.
  - apply A; [reflexivity|apply read_c_sok, P].
Qed.
Lemma step_inv c fmt p : failb (p_is p) = false -> linv (c :: fmt) p -> exists p', step w c p = Ok p' /\ linv fmt p'.
Proof.
  intros F [X|(P & q & Q & A)]; [congruence|]. destruct q; cbn [plain_from at_] in Q, A.
  - destruct A as [[C N]|(C & N & E)]; [now apply text_step|].
    destruct (end_step c p P C ltac:(unfold is_mod; tauto) E) as (p' & S & R).
    { intros K. rewrite K in N. destruct N; discriminate. }
    exists p'. split; [exact S|]. destruct R as [R|(_ & K & _)]; [now left|]. rewrite K in N. destruct N; discriminate.
  - destruct A as [C N]. apply andb_prop in Q. destruct Q as [Q1 Q]. apply andb_prop in Q1. destruct Q1 as [D Z]. apply negb_true_iff in D, Z. apply Ascii.eqb_neq in Z.
    destruct (cmd_step c p P C Z (fun _ => D)) as (p' & S & P' & R). exists p'. split; [exact S|]. destruct R as [[[C' N']|[R|(T & C' & N' & E)]]|(HE & _ & R)].
    + right. split; [exact P'|]. destruct (memb c (!"EO")) eqn:HE.
      * (* E, O: not a directive *)
        exfalso. destruct (eo_not_dir c HE) as (HD & _ & _ & _). unfold step in S. rewrite HD, eo_memb, HE, C, N in S. cbn in S. injection S as <-. discriminate C'.
      * destruct (Ascii.eqb c "t"); [exists Tab|exists Text]; (split; [exact Q|left; auto]).
    + now left.
    + subst c. right. split; [exact P'|]. exists Tab. split; [exact Q|]. right. rewrite C'. auto.
    + right. split; [exact P'|]. rewrite HE in Q. exists Modifier. split; [exact Q|]. destruct (eo_not_dir c HE) as (_ & _ & _ & K). subst p'. split; [reflexivity|exact K].
  - destruct A as [C N]. apply andb_prop in Q. destruct Q as [Z Q]. apply negb_true_iff, Ascii.eqb_neq in Z.
    assert (NN : p_md p <> NUL) by (destruct N as [-> | ->]; discriminate).
    destruct (cmd_step c p P C Z ltac:(congruence)) as (p' & S & P' & R). exists p'. split; [exact S|]. destruct R as [[[C' N']|[R|(T & C' & N' & E)]]|(HE & K & R)].
    + right. split; [exact P'|]. exists Text. split; [exact Q|]. left. auto.
    + now left.
    + (* %Et is not %t *)
      subst c. exfalso. unfold step in S. change (memb "t" in_directives) with true in S. cbv iota in S. rewrite C in S. cbn [in_directive] in S.
      apply Ascii.eqb_neq in NN. rewrite NN in S. destruct (verb_fine "t" p P) as (p1 & V & P1). rewrite V in S. cbn [bind] in S. injection S as <-. rewrite C in C'. discriminate C'.
    + congruence.
  - apply andb_prop in Q. destruct Q as [D Q]. apply negb_true_iff in D. destruct A as [[C N]|(C & N & E)]; [now apply text_step|].
    destruct (end_step c p P C ltac:(unfold is_mod; tauto) E (fun _ => D)) as (p' & S & R). exists p'. split; [exact S|].
    destruct R as [R|(HE & _ & P' & R)]; [now left|]. right. split; [exact P'|]. destruct (eo_not_dir c HE) as (_ & HP & _ & K).
    apply Ascii.eqb_neq in HP. rewrite HP in Q. exists Text. split; [exact Q|]. right. subst p'. split; [reflexivity|]. split; [exact K|exact E].
Qed.
Lemma loop_inv fmt : forall p, linv fmt p -> exists p', loop w fmt p = Ok p' /\ linv [] p'.
Proof.
  induction fmt as [|c fmt IH]; intros p L; [exists p; auto|]. cbn [loop]. destruct (failb (p_is p)) eqn:F; [exists p; split; [reflexivity|now left]|].
  assert (NI : p_inw p = false) by (destruct L as [X|[P _]]; [congruence|apply P]). rewrite NI. cbn [andb].
  destruct (step_inv c fmt p F L) as (p' & S & L').
  replace (P (p_is p) (p_v p) (p_zone p) (p_cmd p) (p_md p) (p_w p) false) with p by (destruct p; cbn in *; now rewrite NI).
  rewrite S. cbn [bind]. now apply IH.
Qed.
Lemma plain_prefix fmt : forall q, plain_from q fmt = true -> plain_from q (c_str fmt) = true.
Proof.
  induction fmt as [|c fmt IH]; intros q H; [reflexivity|]. cbn [c_str]. destruct (Ascii.eqb c NUL); [reflexivity|].
  destruct q; cbn [plain_from] in *; rewrite ?andb_true_iff in *; intuition.
Qed.
Lemma front fmt f0 s : plain fmt -> from_stream w fmt f0 (stream s) = Throw RuntimeError \/
  exists v z s', vok v /\ from_stream w fmt f0 (stream s) =
    ('(x, wd, j) <- resolve_date v ;; H <- resolve_hour v ;; '(t, has) <- resolve_tod w v H j (f_tod f0) (f_has f0) ;;
     Ok (Parsed (Fields x (if (wd =? 8)%Z then f_wd f0 else weekday (uns wd)) t has) z (v Foff) s')).
Proof.
  intros HP. unfold from_stream. change (good (stream s)) with true. cbn [negb].
  destruct (loop_inv (c_str fmt) (P (stream s) init_vals [] false NUL (-1) false)) as (p & -> & L).
  { right. split; [constructor; [apply sok_str|intros g; now left|reflexivity|reflexivity]|]. exists Text. split; [now apply plain_prefix|]. left. split; reflexivity. }
  cbn [bind]. destruct L as [F|[PI _]].
  { left. rewrite (good_false _ F). cbn [andb bind]. rewrite F. reflexivity. }
  assert (X : exists s', (if good (p_is p) && p_cmd p
           then '(_, s1) <- read (RC "%" :: RI (p_w p) :: (if Ascii.eqb (p_md p) NUL then [] else [RC (p_md p)])) (p_is p) ;; Ok s1
           else Ok (p_is p)) = Ok s').
  { destruct (good (p_is p) && p_cmd p); [|eauto]. rewrite (i_w _ PI).
    destruct (read_sok (RC "%" :: RI (-1) :: (if Ascii.eqb (p_md p) NUL then [] else [RC (p_md p)])) ltac:(destruct (Ascii.eqb (p_md p) NUL); repeat constructor) (p_is p) (i_s _ PI)) as (l & s1 & -> & _ & _).
    cbn [bind]. eauto. }
  destruct X as [s' ->]. cbn [bind]. destruct (failb s'); [now left|]. right. exists (p_v p), (p_zone p), s'. split; [apply PI|reflexivity].
Qed.
End Loop.
