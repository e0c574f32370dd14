(** Property C81 for all calendar types *)
From Verif Require Import Base IntModel DateModel DateSpec DateProofs DateProofs2 FmtModel FmtSpec FmtProofs FmtProofs2 FmtProofs3
  FmtProofs4 FmtProofs5 FmtProofs6 FmtSpec2 FmtProofs7 FmtProps2 SlashModel SlashSpec SlashProps2 SlashFmtModel SlashFmtSpec.
Local Open Scope Z_scope.

(** What the operator writes, without the remark *)
Definition wi_s (w i : Z) : str := weekday_s w ++ !"[" ++ dec i ++ !"]".
Definition wl_s (w : Z) : str := weekday_s w ++ !"[last]".
Definition text_s (v : val) : str :=
  match v with
  | VInt _ | VLast => []
  | VYear y => year_low y
  | VMonth m => month_s m
  | VDay d => pad 2 d
  | VWi w i => wi_s w i
  | VWl w => wl_s w
  | VYm y m => year_low y ++ !"/" ++ month_s m
  | VMd m d => month_s m ++ !"/" ++ pad 2 d
  | VMdl m => month_s m ++ !"/last"
  | VMw m w i => month_s m ++ !"/" ++ wi_s w i
  | VMwl m w => month_s m ++ !"/" ++ wl_s w
  | VYmd y m d => dec y ++ !"-" ++ pad 2 m ++ !"-" ++ pad 2 d
  | VYmdl y m => year_low y ++ !"/" ++ month_s m ++ !"/last"
  | VYmw y m w i => year_low y ++ !"/" ++ month_s m ++ !"/" ++ wi_s w i
  | VYmwl y m w => year_low y ++ !"/" ++ month_s m ++ !"/" ++ wl_s w
  end.

Lemma year_s y : signed 4 y (year_low y).
Proof. rewrite year_low_sgn. apply sgn_signed. lia. Qed.
Lemma wi_spelled w i : four_bits w -> four_bits i -> spelled (VWi w i) (wi_s w i).
Proof.
  unfold four_bits. intros W X. constructor; [apply weekday_s_text; lia|apply dec_padded; lia].
Qed.
Lemma wl_spelled w : byte w -> spelled (VWl w) (wl_s w).
Proof. unfold byte. intros W. constructor. apply weekday_s_text. lia. Qed.
Lemma month_spelled m : byte m -> spelled (VMonth m) (month_s m).
Proof. unfold byte. intros W. constructor. apply month_s_text. lia. Qed.
Lemma day_spelled m : byte m -> spelled (VDay m) (pad 2 m).
Proof. unfold byte. intros W. constructor. apply pad_padded; lia. Qed.
Lemma year_spelled y : spelled (VYear y) (year_low y).
Proof. constructor. apply year_s. Qed.
Lemma text_spelled v c : class v = Some c -> storable v -> spelled v (text_s v).
Proof.
  intros C S. destruct v; try discriminate C; cbn [storable text_s] in *; decompose [and] S;
    repeat first [ apply year_spelled | apply month_spelled; assumption | apply day_spelled; assumption
                 | apply wi_spelled; assumption | apply wl_spelled; assumption
                 | apply sp_ym | apply sp_md | apply sp_mdl | apply sp_mw | apply sp_mwl | apply sp_ymdl | apply sp_ymw | apply sp_ymwl ].
  apply sp_ymd; [rewrite dec_sgn; apply sgn_signed; lia|apply pad_padded; unfold byte in *; lia|apply pad_padded; unfold byte in *; lia].
Qed.

Lemma put_text v c b : class v = Some c -> storable v -> val_ok v = Some (Ok b) ->
  val_put v = Some (Ok (text_s v ++ (if b then [] else !" is not a valid " ++ c))).
Proof.
  intros C S E. destruct v; try discriminate C; injection C as <-; cbn [storable] in S; unfold byte, four_bits, short_ in S;
    cbn [val_put val_ok text_s] in *; unfold wdi_low, wdl_low, md_low, mdl_low, mw_low, mwl_low, wdi_low, wdl_low, month_put, ym_put, ymdl_put, ymw_put, wdi_low,
      day_put, day_low, year_put, ymd_put, wi_s, wl_s in *; cbn [ym_year ym_month w_year w_month w_day w_index yr mo dy] in *;
    rewrite ?month_low_s; cbn [bind]; rewrite ?SlashProps2.weekday_small by tauto; rewrite ?weekday_low_s by lia; cbn [bind].
  all: try (injection E as <-).
  all: try (injection E as ->; cbn [bind]).
  all: rewrite ?put_right_pad by lia; unfold remark; do 2 f_equal.
  all: cbn [app lit list_ascii_of_string]; repeat (rewrite <- app_assoc; cbn [app]); try reflexivity.
Qed.

(** Every calendar value is written as its parts; a value that no date fits is marked. *)
Theorem C81_streamed v c : class v = Some c -> storable v ->
  exists t s, val_put v = Some (Ok s) /\ spelled v t /\
    marked (exists x, in_calendar x /\ fits v x) c t s.
Proof.
  intros C S.
  destruct (C91_ok v S) as (b & E & B).
  - intros ->. discriminate C.
  - intros (n & ->). discriminate C.
  - exists (text_s v). eexists. split; [now apply (put_text v c b)|]. split; [now apply (text_spelled v c)|].
    now apply marked_if.
Qed.

Lemma wi_split w i w' i' r t : 0 <= w -> 0 <= w' -> wi_s w i ++ r = wi_s w' i' ++ t -> w = w' /\ i = i' /\ r = t.
Proof.
  intros W W' H. unfold wi_s in H. rewrite <- !app_assoc in H.
  apply weekday_split in H; [|lia|lia|stops_tac|stops_tac]. destruct H as [-> H]. apply app_inv_head in H.
  rewrite !dec_sgn in H. apply sgn_split in H; [|stops_tac|stops_tac].
  destruct H as [-> H]. apply app_inv_head in H. auto.
Qed.
Lemma wl_split w w' r t : 0 <= w -> 0 <= w' -> wl_s w ++ r = wl_s w' ++ t -> w = w' /\ r = t.
Proof.
  intros W W' H. unfold wl_s in H. rewrite <- !app_assoc in H.
  apply weekday_split in H; [|lia|lia|stops_tac|stops_tac]. destruct H as [-> H]. apply app_inv_head in H. auto.
Qed.
Lemma text_inj a b c r t : class a = Some c -> class b = Some c -> storable a -> storable b ->
  stops r -> stops t -> text_s a ++ r = text_s b ++ t -> a = b.
Proof.
  intros A B S T R R' H. destruct a, b; cbn [class] in A, B; try discriminate A; rewrite <- A in B; try discriminate B; clear A B;
    cbn [storable text_s] in *; unfold byte, four_bits in *.
  all: rewrite ?year_low_sgn, ?dec_sgn in H; repeat (rewrite <- app_assoc in H).
  all: repeat first
    [ apply sgn_split in H; [destruct H as [-> H]|first [assumption|stops_tac]|first [assumption|stops_tac]]
    | apply pad_split in H; [destruct H as [-> H]|lia|lia|first [assumption|stops_tac]|first [assumption|stops_tac]]
    | apply month_split in H; [destruct H as [-> H]|first [assumption|stops_tac]|first [assumption|stops_tac]]
    | apply wi_split in H; [destruct H as (-> & -> & H)|lia|lia]
    | apply wl_split in H; [destruct H as [-> H]|lia|lia]
    | apply app_inv_head in H ].
  all: reflexivity.
Qed.
(** Two values of one class that are written the same are the same. *)
Theorem C81_distinct a b c : class a = Some c -> class b = Some c -> storable a -> storable b ->
  val_put a = val_put b -> a = b.
Proof.
  intros A B S T H.
  destruct (C91_ok a S) as (x & E & _); [intros ->; discriminate A|intros (n & ->); discriminate A|].
  destruct (C91_ok b T) as (y & F & _); [intros ->; discriminate B|intros (n & ->); discriminate B|].
  rewrite (put_text a c x), (put_text b c y) in H by assumption. injection H as H.
  eapply text_inj; eauto; apply stops_remark; stops_tac.
Qed.

Example C81_classes_example :
  val_put (VMd 2 29) = Some (Ok (!"Feb/29")) /\ val_put (VMd 2 30) = Some (Ok (!"Feb/30 is not a valid month_day")) /\
  val_put (VMwl 12 5) = Some (Ok (!"Dec/Fri[last]")) /\ val_put (VMw 13 1 2) = Some (Ok (!"13/Mon[2] is not a valid month_weekday")) /\
  val_put (VYmwl 2024 2 0) = Some (Ok (!"2024/Feb/Sun[last]")) /\ storable (VYmwl 2024 2 0) /\
  class (VYmwl 2024 2 0) = Some (!"year_month_weekday_last").
Proof. repeat split; try reflexivity; unfold byte; lia. Qed.

Print Assumptions C81_streamed.
Print Assumptions C81_distinct.
