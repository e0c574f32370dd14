(** Formats with modifiers and unknown directives. *)
From Verif Require Import Base IntModel DateModel DateSpec DateProofs DateProofs2 FmtModel FmtSpec FmtProofs FmtProofs2 FmtProofs3 FmtProofs4 FmtProofs5 FmtProofs6 FmtSpec2.
Local Open Scope Z_scope.
Local Open Scope char_scope.

Lemma takes_EO m c : takes m c = true -> m = "E" \/ m = "O".
Proof.
  intros T. destruct (Ascii.eqb_spec m "E"); [now left|]. destruct (Ascii.eqb_spec m "O"); [now right|].
  exfalso. destruct m as [[] [] [] [] [] [] [] []]; try discriminate T; congruence.
Qed.
Lemma takes_directive m c : takes m c = true -> memb c directives = true /\ c <> "%".
Proof.
  intros T. destruct (takes_EO m c T) as [-> | ->]; cbn [takes] in T; memb_cases T; split; (reflexivity || discriminate).
Qed.
Lemma mod_takes w f ab off m neg c : takes m c = true -> c <> "z" ->
  directive w f ab off m neg c = directive w f ab off NUL neg c.
Proof.
  intros T Z. destruct (takes_EO m c T) as [-> | ->]; cbn [takes] in T; memb_cases T; try (now destruct Z); reflexivity.
Qed.
Lemma mod_not w f ab off m neg c : m = "E" \/ m = "O" -> takes m c = false -> memb c directives = true ->
  (exists v, extract_weekday f = Ok v) -> directive w f ab off m neg c = Ok (lit3 m c, neg).
Proof.
  intros M T D [v V]. destruct M as [-> | ->]; memb_cases D; try discriminate T; try reflexivity.
  unfold directive. rewrite V. reflexivity.
Qed.

Section Run.
Context (w : nat) (f : fields) (ab : option str) (off : option Z) (P : ascii -> Prop) (R Rm : ascii -> str).
Context (H : forall c, P c -> c <> "%" -> memb c directives = true /\ directive w f ab off NUL false c = Ok (R c, false)).
Context (HP : P "%" -> R "%" = !"%").
Context (HM : forall m c, takes m c = true -> P c -> directive w f ab off m false c = Ok (Rm c, false)).
Context (HW : exists v, extract_weekday f = Ok v).

Definition xstr (i : xitem) : str :=
  match i with
  | Plain i => item_str R i
  | Mod m c => if takes m c then Rm c else ["%"; m; c]
  | Unknown c => ["%"; c]
  end.
Definition xstr_of (l : list xitem) : str := concat (map xstr l).

Lemma run_cut s : cut s -> run w f ab off s false NUL false = Ok s.
Proof. intros [-> |[-> |[-> | ->]]]; reflexivity. Qed.
Lemma run_xitems l s : xcovered P l -> cut s -> run w f ab off (xfmt_of l ++ s) false NUL false = Ok (xstr_of l ++ s).
Proof.
  intros L C. induction L as [|i l I _ IH]; [now apply run_cut|].
  unfold xfmt_of, xstr_of in *. cbn [map concat]. rewrite <- !app_assoc.
  destruct i as [[c|c]|m c|c]; cbn [xshow show xstr item_str app].
  - cbn [run]. destruct I as [I1 I2].
    assert (Ascii.eqb c "%" = false) as E by now apply Ascii.eqb_neq. rewrite E.
    destruct (memb c directives); [rewrite IH; reflexivity|].
    destruct (Ascii.eqb c "E" || Ascii.eqb c "O"); rewrite IH; reflexivity.
  - cbn [run]. change (memb "%" directives) with false. cbn [Ascii.eqb Bool.eqb orb].
    destruct (Ascii.eqb_spec c "%") as [->|NE].
    + change (memb "%" directives) with false. cbn [Ascii.eqb Bool.eqb orb]. rewrite IH. cbn [bind].
      rewrite HP by exact I. reflexivity.
    + destruct (H c I NE) as (-> & ->). cbn [bind]. rewrite IH. reflexivity.
  - destruct I as (M & NC & I).
    assert (E : run w f ab off ("%" :: m :: c :: concat (map xshow l) ++ s) false NUL false
                = run w f ab off (c :: concat (map xshow l) ++ s) true m false).
    { destruct M as [-> | ->]; reflexivity. }
    rewrite E. clear E. cbn [run]. assert (EN : Ascii.eqb m NUL = false) by (destruct M as [-> | ->]; reflexivity).
    destruct (takes m c) eqn:T.
    + destruct (takes_directive m c T) as [-> _]. rewrite (HM m c T (I eq_refl)). cbn [bind]. rewrite IH. reflexivity.
    + destruct (memb c directives) eqn:D.
      * rewrite (mod_not w f ab off m false c M T D HW). cbn [bind]. rewrite IH. reflexivity.
      * rewrite EN. destruct (Ascii.eqb c "E" || Ascii.eqb c "O"); [rewrite IH; reflexivity|].
        destruct (Ascii.eqb_spec c "%") as [->|]; rewrite IH; reflexivity.
  - destruct I as (NC & I). unfold known in I.
    cbn [run]. change (memb "%" directives) with false. cbn [Ascii.eqb Bool.eqb orb].
    assert (D : memb c directives = false /\ Ascii.eqb c "E" = false /\ Ascii.eqb c "O" = false /\ Ascii.eqb c "%" = false).
    { repeat split; (match goal with |- ?x = false => destruct x eqn:E end; [exfalso|reflexivity]).
      - memb_cases E; discriminate I.
      - apply Ascii.eqb_eq in E. subst. discriminate I.
      - apply Ascii.eqb_eq in E. subst. discriminate I.
      - apply Ascii.eqb_eq in E. subst. discriminate I. }
    destruct D as (-> & -> & -> & ->). cbn [orb]. rewrite IH. reflexivity.
Qed.
Lemma c_str_cut s : cut s -> c_str s = s.
Proof. intros [-> |[-> |[-> | ->]]]; reflexivity. Qed.
Lemma c_str_xitems (NN : forall c, P c -> c <> NUL) l s : xcovered P l -> cut s -> c_str (xfmt_of l ++ s) = xfmt_of l ++ s.
Proof.
  intros L C. induction L as [|i l I _ IH]; [now apply c_str_cut|].
  assert (N1 : forall c r, c <> NUL -> c_str (c :: r) = c :: c_str r).
  { intros c r N. cbn [c_str]. destruct (Ascii.eqb_spec c NUL); [contradiction|reflexivity]. }
  assert (NP : "%" <> NUL) by discriminate.
  unfold xfmt_of in *. cbn [map concat]. rewrite <- !app_assoc.
  destruct i as [[c|c]|m c|c]; cbn [xshow show app].
  - destruct I as [_ I]. rewrite N1 by exact I. now rewrite IH.
  - rewrite !N1, IH by (auto; now apply NN). reflexivity.
  - destruct I as (M & NC & _). assert (m <> NUL) by (destruct M as [-> | ->]; discriminate).
    rewrite !N1, IH by auto. reflexivity.
  - destruct I as (NC & _). rewrite !N1, IH by auto. reflexivity.
Qed.
End Run.

Section Texts.
Context (Rel : ascii -> str -> Prop) (P : ascii -> Prop) (R Rm : ascii -> str).
Lemma xtexts_str : (forall c, P c -> Rel c (R c)) ->
  (forall m c, takes m c = true -> P c -> xtext Rel (Mod m c) (Rm c)) ->
  forall l, xcovered P l -> xtexts Rel l (xstr_of R Rm l).
Proof.
  intros A B l L. induction L as [|i l I _ IH]; [constructor|]. unfold xstr_of in *. cbn [map concat].
  constructor; [|exact IH]. destruct i as [[c|c]|m c|c]; cbn [xstr item_str].
  - constructor.
  - constructor. now apply A.
  - destruct I as (_ & _ & I). destruct (takes m c) eqn:T; [now apply (B m c T), I|now apply xt_bad].
  - constructor.
Qed.
Lemma str_xtexts : (forall c s, Rel c s -> s = R c) ->
  (forall m c s, takes m c = true -> xtext Rel (Mod m c) s -> s = Rm c) ->
  forall l s, xtexts Rel l s -> s = xstr_of R Rm l.
Proof.
  intros A B l s. induction 1 as [|i t l s T _ IH]; [reflexivity|]. unfold xstr_of in *. cbn [map concat]. rewrite <- IH. f_equal.
  destruct i as [[c|c]|m c|c]; cbn [xstr item_str].
  - inversion T; subst; reflexivity.
  - inversion T; subst. now apply A.
  - destruct (takes m c) eqn:E; [now apply (B m c t E)|].
    inversion T; subst; try congruence.
  - inversion T; subst; reflexivity.
Qed.
End Texts.

Lemma date_wd x : in_calendar x -> exists v, extract_weekday (fields_ymd x) = Ok v.
Proof.
  intros C. assert (D : directive 0 (fields_ymd x) None None NUL false "w" = Ok (date_str x "w", false)).
  { apply directive_date; [exact C|reflexivity|reflexivity|now left|discriminate]. }
  unfold directive in D. destruct (extract_weekday (fields_ymd x)) as [v|e| |]; [eauto|discriminate D..].
Qed.
