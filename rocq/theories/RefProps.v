(** C92: what optional and variant do with lvalues and rvalues. *)
From Coq Require Import PeanoNat.
From Verif Require Import Base.
From Verif Require ExpCatModel OptModel OptSpec VtModel VtSpec VtProofs VtProofs2 VtProps.
From Verif Require Import RefModel RefSpec.
Import ExpCatModel(cat(..), constant, ctors(..), copy, move, callable, make).

Section Optional.
Context {W X A V : Type}.
Local Notation fn := (callable (W:=W) (X:=X)).
Implicit Types (T : ctors W X A) (c d : cat) (o : @OptModel.opt A) (w : W) (v : V).

Lemma optional_some o a : is_optional o (Some a) -> o = live a.
Proof.
  intros [_ H]. unfold OptSpec.observe in H. destruct o as [[] [|x]]; cbn in H; try discriminate.
  now injection H as ->.
Qed.
Lemma optional_none o : is_optional o None -> o = OptModel.Opt false OptModel.Raw.
Proof.
  intros [[H1 H2] H]. unfold OptSpec.observe in H. destruct o as [[] [|x]]; cbn in *; try discriminate; try reflexivity.
  - destruct (H1 eq_refl) as [? Q]; discriminate Q.
  - discriminate (H2 (ex_intro _ x eq_refl)).
Qed.
Lemma live_is (a : A) : is_optional (live a) (Some a).
Proof. split; [|reflexivity]. split; intros _; [now exists a|reflexivity]. Qed.

(** What is given *o or o.value() gets it once, as an lvalue or rvalue like o (const rvalues: as a
    const lvalue), and changes the content of o unless o is const. *)
Theorem C92_access {Y} c (f : fn A Y) o a w a' w' r :
  is_optional o (Some a) -> f (gives c) a w = (a', w', r) ->
  exists o', is_optional o' (Some (after c a a')) /\
    use_star c f o w = (o', w', outcome_of r) /\ use_value c f o w = (o', w', outcome_of r).
Proof.
  intros H F. apply optional_some in H as ->.
  exists (live (after c a a')). split; [apply live_is|].
  unfold use_star, use_value, contained, live. cbn [OptModel.init_ OptModel.storage_].
  destruct c; cbn [star_ref gives constant after] in *; rewrite F; split; reflexivity.
Qed.
(** Without a value value() throws, *o is undefined; nothing is called. *)
Theorem C92_access_empty {Y} c (f : fn A Y) o w :
  is_optional o None -> use_value c f o w = (o, w, Bad) /\ use_star c f o w = (o, w, Undefined).
Proof. intros H. apply optional_none in H as ->. split; reflexivity. Qed.

(** value_or: an rvalue gives its value up, everything else keeps it.  The argument is used, as an
    lvalue or rvalue as it is, only when there is no value. *)
Theorem C92_value_or T left c d (conv : fn V A) o u v w :
  regular T left -> is_optional o u ->
  match u with
  | Some a => exists o', is_optional o' (Some (match c with Rvalue => left a | _ => a end)) /\
                value_or T c d conv o v w = (o', v, w, Value a)
  | None => forall v' w' r, conv d v w = (v', w', r) ->
              value_or T c d conv o v w = (o, after d v v', w', outcome_of r)
  end.
Proof.
  intros [Cp Mv] H. destruct u as [a|].
  - apply optional_some in H as ->. eexists. split; [apply live_is|].
    unfold value_or, contained, live. cbn [OptModel.init_ OptModel.storage_].
    destruct c; cbn [make constant]; rewrite ?Cp, ?Mv; reflexivity.
  - apply optional_none in H as ->. intros v' w' r F. unfold value_or. cbn [OptModel.init_]. rewrite F.
    destruct r; cbn [outcome_of]; [rewrite Mv|]; reflexivity.
Qed.
(** Whatever the element type's constructors do, and also when they throw: the argument is left
    alone when there is a value, ... *)
Theorem C92_argument_unused T c d d' (conv conv' : fn V A) o a v w :
  is_optional o (Some a) ->
  value_or T c d conv o v w = value_or T c d' conv' o v w /\ snd (fst (fst (value_or T c d conv o v w))) = v.
Proof.
  intros H. apply optional_some in H as ->. unfold value_or, live. cbn [OptModel.init_].
  destruct (contained _ _ _ w) as [[? ?] ?]. split; reflexivity.
Qed.
(** ... an optional that is not a non-const rvalue keeps its value, ... *)
Theorem C92_kept T c d (conv : fn V A) o u v w :
  c <> Rvalue -> is_optional o u ->
  fst (fst (fst (value_or T c d conv o v w))) = o /\
  fst (fst (use_star c (make T) o w)) = o /\ fst (fst (use_value c (make T) o w)) = o.
Proof.
  intros N H. destruct u as [a|]; [apply optional_some in H as -> | apply optional_none in H as ->].
  - unfold value_or, use_star, use_value, contained, live. cbn [OptModel.init_ OptModel.storage_].
    destruct c; try (now destruct N); cbn [star_ref make constant]; destruct (copy T a w) as [w' r]; repeat split.
  - repeat split. unfold value_or. cbn [OptModel.init_].
    destruct (conv d v w) as [[? ?] [|]]; [|reflexivity]. destruct (move T _ _) as [[? ?] ?]. reflexivity.
Qed.
(** ... no constructor is called for it but the copy constructor, and for a non-const rvalue none but
    the move constructor, so that types that can only be moved will do. *)
Theorem C92_copied cp mv mv' c d (conv : fn V A) o a v w :
  c <> Rvalue -> is_optional o (Some a) ->
  value_or (Ctors cp mv) c d conv o v w = value_or (Ctors cp mv') c d conv o v w /\
  use_star c (make (Ctors cp mv)) o w = use_star c (make (Ctors cp mv')) o w /\
  use_value c (make (Ctors cp mv)) o w = use_value c (make (Ctors cp mv')) o w.
Proof.
  intros N H. apply optional_some in H as ->. destruct c; try (now destruct N); repeat split.
Qed.
Theorem C92_moved cp cp' mv d (conv : fn V A) o v w :
  value_or (Ctors cp mv) Rvalue d conv o v w = value_or (Ctors cp' mv) Rvalue d conv o v w /\
  use_star Rvalue (make (Ctors cp mv)) o w = use_star Rvalue (make (Ctors cp' mv)) o w /\
  use_value Rvalue (make (Ctors cp mv)) o w = use_value Rvalue (make (Ctors cp' mv)) o w.
Proof. repeat split. Qed.
End Optional.

Section Variant.
Context {W X A : Type}.
Local Notation fn := (callable (W:=W) (X:=X)).
Implicit Types (c : cat) (o : @VtModel.vobj A) (w : W).

(** What is given get<k>(v) gets the value once, as an lvalue or rvalue, const or not, like v, and
    changes it unless v is const; the alternative stays.  If v holds something else, get throws and v
    is left alone, also when it is an rvalue. *)
Theorem C92_get {Y} (mv : nat -> A -> A) ts c k (f : fn A Y) o v w :
  VtSpec.coherent mv ts -> VtSpec.is_variant ts o v -> (k < length ts)%nat ->
  match v with
  | Some (k', x) =>
      if Nat.eqb k k' then
        forall x' w' r, f c x w = (x', w', r) ->
        exists o', VtSpec.is_variant ts o' (Some (k, after c x x')) /\
          use_get ts c k f o w = (o', w', outcome_of r)
      else use_get ts c k f o w = (o, w, Bad)
  | None => use_get ts c k f o w = (o, w, Bad)
  end.
Proof.
  intros Co V K. pose proof (VtProps.C73_holds_alternative mv ts Co o v k V K) as E. unfold use_get. rewrite E.
  destruct v as [[k' x]|]; cbn [VtSpec.holds_alt]; [|reflexivity].
  destruct (Nat.eqb_spec k k') as [<-|]; [|reflexivity].
  intros x' w' r F. destruct (VtProofs2.variant_some mv ts Co o k x V) as [_ ->].
  unfold VtModel.alt_value. cbn [VtModel.data VtModel.idx]. rewrite Nat.eqb_refl, F.
  eexists. split; [|reflexivity]. destruct (VtProofs2.variant_some mv ts Co _ k x V) as [K' _].
  assert (forall y : A, VtSpec.is_variant ts (VtModel.V (VtModel.store ts (Z.of_nat k)) (VtModel.Alt k y)) (Some (k, y))) as B.
  { intros y. apply (VtProofs2.obj_variant mv ts Co (Some (k, y))). intros ? ? Q. now injection Q as <- <-. }
  destruct c; cbn [constant after]; apply B.
Qed.

Lemma references_eq (vs : list (@operand A)) l :
  map (fun ca => (fst (snd ca), fst ca, snd (snd ca))) (combine (map category vs) l) = references vs l.
Proof.
  unfold references. revert l. induction vs as [|[[c ts] o] vs IH]; intros [|[k x] l]; cbn; try reflexivity.
  now rewrite IH.
Qed.
Lemma references_length (vs : list (@operand A)) l : length vs = length l -> length (references vs l) = length l.
Proof. intros E. unfold references. now rewrite map_length, combine_length, E, Nat.min_id. Qed.
Lemma Forall2_same_length {P Q} (R : P -> Q -> Prop) l m : Forall2 R l m -> length l = length m.
Proof. induction 1; cbn [length]; congruence. Qed.
Lemma assign_alts_after (vs : list (@operand A)) : forall l xs,
  contents vs (map Some l) -> length xs = length l -> contents (assign_alts vs xs) (contents_after vs l xs).
Proof.
  unfold contents, contents_after, VtSpec.variants.
  induction vs as [|[[c ts] o] vs IH]; intros [|[k x] l] [|x' xs] V E; cbn in *; try discriminate; try (now inversion V).
  inversion V as [|? ? ? ? ((mv & Co) & H) V']; subst. cbn [fst snd] in *. constructor; [|apply IH; [exact V'|now injection E]].
  destruct (VtProofs2.variant_some mv ts Co o k x H) as [K ->]. cbn [VtModel.data VtModel.idx].
  assert (forall y : A, VtSpec.is_variant ts (VtModel.V (VtModel.store ts (Z.of_nat k)) (VtModel.Alt k y)) (Some (k, y))) as B.
  { intros y. apply (VtProofs2.obj_variant mv ts Co (Some (k, y))). intros ? ? Q. now injection Q as <- <-. }
  destruct c; cbn [constant after fst snd]; (split; [now exists mv | apply B]).
Qed.

(** visit() calls the visitor once, with a reference to the value of each variant that is an lvalue or
    rvalue, const or not, like this variant, and the visitor changes those that are not const; no variant
    changes its alternative.  If a variant is valueless, visit throws, and nothing changes. *)
Theorem C92_visit {Y} (f : @visitor W X A Y) vs cs w :
  proper f -> contents vs cs ->
  match VtSpec.all_some cs with
  | Some l => forall xs w' r, f (references vs l) w = (xs, w', r) ->
      exists vs', contents vs' (contents_after vs l xs) /\ map category vs' = map category vs /\
        visit f vs w = (vs', w', outcome_of r)
  | None => visit f vs w = (vs, w, Bad)
  end.
Proof.
  intros P V. unfold visit. rewrite (VtProps.C73_visit _ _ cs w V). destruct (VtSpec.all_some cs) as [l|] eqn:E; [|reflexivity].
  intros xs w' r F. rewrite references_eq, F. apply VtProofs2.all_some_map in E. subst cs.
  assert (length vs = length l) as L.
  { apply Forall2_same_length in V. now rewrite !map_length in V. }
  exists (assign_alts vs xs). split; [|split; [|destruct r; reflexivity]].
  - apply assign_alts_after; [exact V|]. pose proof (P (references vs l) w) as Q. rewrite F in Q. cbn [fst] in Q.
    now rewrite Q, references_length.
  - clear. revert xs. induction vs as [|[[c ts] o] vs IH]; intros [|x xs]; cbn; try reflexivity. rewrite IH.
    f_equal. destruct (VtModel.data o); [reflexivity|]. now destruct (constant c).
Qed.
End Variant.

(** Texts; one that is moved from is empty.  The world counts copies. *)
Definition text : ctors nat nat str := Ctors (fun t w => (S w, inl t)) (fun t w => ([], w, inl t)).
Definition plain : ctors unit nat str := Ctors (fun t w => (w, inl t)) (fun t w => ([], w, inl t)).
(** Two alternatives that are strings: neither trivial nor noexcept to copy *)
Definition stringy : VtModel.alt_ty :=
  VtModel.AltTy VtModel.Available VtModel.Available VtModel.Available VtModel.Available VtModel.Available
    false true false true.
Definition two : list VtModel.alt_ty := [stringy; stringy].
(** A visitor that takes its arguments by value and returns the first *)
Definition take_first : @visitor nat nat str str := fun l w =>
  match l with
  | (_, c, a) :: r =>
      match make text c a w with (a', w', y) => (a' :: map snd r, w', y) end
  | [] => ([], w, inr 9)
  end.
Example C92_example :
  regular plain (fun _ => []) /\ is_optional (live !"abc") (Some !"abc") /\
  (* an lvalue is copied, an rvalue moved from; the argument stays what it was *)
  value_or text Lvalue Rvalue (make text) (live !"abc") !"default" 0
  = (live !"abc", !"default", 1, Value !"abc") /\
  value_or text Rvalue Rvalue (make text) (live !"abc") !"default" 0
  = (live [], !"default", 0, Value !"abc") /\
  (* an empty optional takes the argument: copied from an lvalue, moved from an rvalue *)
  value_or text Lvalue Lvalue (make text) (OptModel.Opt false OptModel.Raw) !"default" 0
  = (OptModel.Opt false OptModel.Raw, !"default", 1, Value !"default") /\
  value_or text Lvalue Rvalue (make text) (OptModel.Opt false OptModel.Raw) !"default" 0
  = (OptModel.Opt false OptModel.Raw, [], 0, Value !"default") /\
  (* T t(std::move(o).value()), and the same for a const o *)
  use_value Rvalue (make text) (live !"abc") 0 = (live [], 0, Value !"abc") /\
  use_value ConstRvalue (make text) (live !"abc") 0 = (live !"abc", 1, Value !"abc") /\
  (* get<1>(std::move(v)), get<0> throws; visit *)
  VtSpec.is_variant two (VtModel.V 1 (VtModel.Alt 1 !"abc")) (Some (1, !"abc")) /\
  VtSpec.coherent (fun _ (_ : str) => []) two /\
  use_get two Rvalue 1 (make text) (VtModel.V 1 (VtModel.Alt 1 !"abc")) 0
  = (VtModel.V 1 (VtModel.Alt 1 []), 0, Value !"abc") /\
  use_get two Rvalue 0 (make text) (VtModel.V 1 (VtModel.Alt 1 !"abc")) 0
  = (VtModel.V 1 (VtModel.Alt 1 !"abc"), 0, Bad) /\
  proper take_first /\
  visit take_first [(Rvalue, two, VtModel.V 1 (VtModel.Alt 1 !"abc")); (Rvalue, two, VtModel.V 0 (VtModel.Alt 0 !"x"))] 0
  = ([(Rvalue, two, VtModel.V 1 (VtModel.Alt 1 [])); (Rvalue, two, VtModel.V 0 (VtModel.Alt 0 !"x"))], 0, Value !"abc") /\
  visit take_first [(ConstLvalue, two, VtModel.V 1 (VtModel.Alt 1 !"abc"))] 0
  = ([(ConstLvalue, two, VtModel.V 1 (VtModel.Alt 1 !"abc"))], 1, Value !"abc").
Proof.
  repeat apply conj; try reflexivity; try (vm_compute; reflexivity); try discriminate.
  all: try (intros _; eexists; reflexivity).
  all: try (split; intros; reflexivity).
  - intros [|[|k]] t H; cbn in H; try (destruct k; discriminate H);
      injection H as <-; repeat split; try discriminate.
  - intros [|[[k c] a] r] w; [reflexivity|]. unfold take_first.
    destruct (make text c a w) as [[a' w'] y]. cbn. now rewrite map_length.
Qed.

Print Assumptions C92_value_or.
Print Assumptions C92_visit.
