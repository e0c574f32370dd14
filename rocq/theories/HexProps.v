(** C21: hexdump shows every element at its offset.  C63: stream forwarders. *)
From Verif Require Import Base StrSpec StrProofs2 HexModel HexSpec HexProofs.
Open Scope outcome_scope.
Open Scope Z_scope.

(** The dump always succeeds. *)
Theorem C21_total : forall w data prompt,
  (0 < w)%nat -> exists out, hexdump w data prompt = Ok out.
Proof. intros w data prompt Hw. eexists. now apply hexdump_some. Qed.

(** Number of lines: one per started group of 16 shown elements, at least one, and one
    more for the truncation mark.  (A prompt that itself contains line breaks adds its
    own.) *)
Theorem C21_lines : forall w data prompt out,
  (0 < w)%nat -> newlines prompt = 0%nat -> hexdump w data prompt = Ok out ->
  newlines out = (line_count data + (if 16 * 1000 <? length data then 1 else 0))%nat.
Proof. exact hexdump_newlines. Qed.

(** Each line starts with the prompt (the first) or as many blanks (the others), followed
    by the offset of its first element in six hexadecimal digits and a colon. *)
Theorem C21_offset : forall w data prompt j,
  (0 < w)%nat -> (j < line_count data)%nat ->
  exists out, hexdump w data prompt = Ok out /\
    let start := (j * line_width (length prompt) w)%nat in
    sub start (length prompt) out
      = (if Nat.eqb j 0 then prompt else List.repeat " "%char (length prompt)) /\
    hex_field 6 (16 * Z.of_nat j) (sub (start + length prompt) 6 out) /\
    sub (start + length prompt + 6) 2 out = !": ".
Proof.
  intros w data prompt j Hw Hj.
  destruct (locate w data prompt j Hw Hj) as (_ & _ & _ & _ & _ & _ & Hj' & _).
  destruct (hex_line_parts w data prompt j Hw Hj) as (out & E & P1 & P2 & P3 & _).
  exists out. split; [exact E|]. split; [|split; [|exact P3]].
  - rewrite P1. now destruct j.
  - rewrite P2. apply hexn_field. change (16 ^ Z.of_nat 6) with 16777216. lia.
Qed.

(** Every shown element appears as 2*w hexadecimal digits followed by a blank at the
    place given by its index: line i / 16, column i mod 16. *)
Theorem C21_element : forall w data prompt i v,
  (0 < w)%nat -> (i < shown data)%nat -> nth_error data i = Some v ->
  exists out, hexdump w data prompt = Ok out /\
    let place := (i / 16 * line_width (length prompt) w + data_column (length prompt)
                  + i mod 16 * (2 * w + 1))%nat in
    hex_field (2 * w) (v mod 2 ^ (8 * Z.of_nat w)) (sub place (2 * w) out) /\
    sub (place + 2 * w) 1 out = !" ".
Proof.
  intros w data prompt i v Hw Hi Hv. pose proof (elem_line data i Hi) as Hl.
  destruct (hex_line_parts w data prompt (i / 16) Hw Hl) as (out & E & _ & _ & _ & P & _).
  exists out. split; [exact E|]. destruct (P (i mod 16)%nat v) as (P1 & P2).
  - pose proof (Nat.mod_upper_bound i 16). rewrite nth_firstn by lia. rewrite nth_skipn.
    rewrite <- Nat.div_mod by lia. exact Hv.
  - cbv zeta. rewrite P1, P2. split; [|reflexivity]. apply hexn_field. rewrite <- pow_16.
    apply Z.mod_pos_bound. apply Z.pow_pos_nonneg; lia.
Qed.

(** For one-byte elements a text column follows.  The row of digits is filled with blanks
    up to it, and it shows the line's elements as printable characters or dots. *)
Theorem C21_text : forall data prompt j,
  (j < line_count data)%nat ->
  exists out, hexdump 1 data prompt = Ok out /\
    let row := firstn 16 (skipn (16 * j) data) in
    let start := (j * line_width (length prompt) 1)%nat in
    let gap := (start + data_column (length prompt) + 3 * length row)%nat in
    sub gap (3 * (16 - length row) + 1) out = List.repeat " "%char (3 * (16 - length row) + 1) /\
    sub (start + text_column (length prompt) 1) (length row) out
      = map (fun v => printed (v mod 256)) row /\
    sub (start + text_column (length prompt) 1 + length row) 1 out = [chr 10].
Proof.
  intros data prompt j Hj.
  destruct (hex_line_parts 1 data prompt j ltac:(lia) Hj) as (out & E & _ & _ & _ & _ & P).
  exists out. split; [exact E|]. destruct (P eq_refl) as (P1 & P2 & P3).
  split; [exact P1|]. split; [exact P2|exact P3].
Qed.

(** The output consists of these parts only: its length is the sum of theirs. *)
Theorem C21_length : forall w data prompt out,
  (0 < w)%nat -> hexdump w data prompt = Ok out ->
  length out =
  (line_count data * (length prompt + 8 + 1)
   + (if Nat.eqb w 1 then line_count data * (16 * 3 + 1) + shown data
      else shown data * (2 * w + 1))
   + (if 16 * 1000 <? length data then length prompt + 22 else 0))%nat.
Proof.
  intros w data prompt out Hw H. rewrite (hexdump_length w data prompt out Hw H).
  unfold per_line, per_elem. destruct (Nat.eqb w 1); lia.
Qed.

(** Truncation: longer inputs are cut after 16000 elements and end with the mark; shorter
    inputs are shown completely and do not depend on anything else. *)
Theorem C21_truncated : forall w data prompt,
  (0 < w)%nat -> (16 * 1000 < length data)%nat ->
  exists full, hexdump w (firstn (16 * 1000) data) prompt = Ok full /\
    hexdump w data prompt =
      Ok (full ++ List.repeat " "%char (length prompt) ++ !"[output truncated...]" ++ [chr 10]).
Proof.
  intros w data prompt Hw Hl. eexists. split; [now apply hexdump_some|].
  rewrite hexdump_some by auto. f_equal. unfold trailer at 1.
  assert (Lf : length (firstn (16 * 1000) data) = (16 * 1000)%nat).
  { rewrite firstn_length. lia. }
  assert (T : trailer prompt (firstn (16 * 1000) data) = []).
  { unfold trailer. rewrite Lf, Nat.ltb_irrefl. reflexivity. }
  rewrite T, app_nil_r. destruct (Nat.ltb_spec (16 * 1000) (length data)); [|lia].
  f_equal. f_equal.
  assert (G : forall n k it, lines w prompt n k (firstn (16 * n) it) = lines w prompt n k it).
  { clear. induction n as [|n IH]; intros k it; [reflexivity|].
    cbn [lines]. replace (16 * S n)%nat with (16 + 16 * n)%nat by lia.
    destruct it as [|a it]; [now rewrite firstn_nil|].
    assert (N : exists b r, firstn (16 + 16 * n) (a :: it) = b :: r) by (cbn [plus firstn]; eauto).
    destruct N as (b & r & N). rewrite N. rewrite <- N. f_equal.
    - rewrite firstn_firstn, Nat.min_l by lia. reflexivity.
    - rewrite skipn_firstn_comm. replace (16 + 16 * n - 16)%nat with (16 * n)%nat by lia. apply IH. }
  symmetry. apply G.
Qed.

(** The data can be read back: equal dumps come from equal data (up to the cut). *)
Theorem C21_reconstruct : forall w d1 d2 prompt,
  (0 < w)%nat -> Forall (fits w) d1 -> Forall (fits w) d2 ->
  hexdump w d1 prompt = hexdump w d2 prompt ->
  firstn (16 * 1000) d1 = firstn (16 * 1000) d2 /\
  ((length d1 <= 16 * 1000)%nat <-> (length d2 <= 16 * 1000)%nat).
Proof. exact reconstruct. Qed.

Theorem C21_injective : forall w d1 d2 prompt,
  (0 < w)%nat -> Forall (fits w) d1 -> Forall (fits w) d2 -> (length d1 <= 16 * 1000)%nat ->
  hexdump w d1 prompt = hexdump w d2 prompt -> d1 = d2.
Proof.
  intros w d1 d2 prompt Hw F1 F2 L H.
  destruct (reconstruct w d1 d2 prompt Hw F1 F2 H) as (E & I).
  rewrite !firstn_all2 in E by lia. exact E.
Qed.

(** Signed elements are shown by their unsigned representation. *)
Theorem C21_sign : forall w data prompt,
  hexdump w data prompt = hexdump w (map (fun v => v mod 2 ^ (8 * Z.of_nat w)) data) prompt
  \/ w = 0%nat.
Proof.
  intros w data prompt. destruct w as [|w]; [now right|]. left. set (W := S w).
  rewrite !hexdump_some by (unfold W; lia). f_equal. set (f := fun v => v mod 2 ^ (8 * Z.of_nat W)).
  assert (HW : 0 < 2 ^ (8 * Z.of_nat W)) by (apply Z.pow_pos_nonneg; lia).
  assert (C : forall l, cells W (map f l) = cells W l).
  { intros l. unfold cells. induction l as [|v l IH]; [reflexivity|]. cbn [map flat_map].
    rewrite IH. f_equal. unfold cell, f. now rewrite Z.mod_mod by lia. }
  assert (X : forall l, map txt (map f l) = map txt l).
  { intros l. rewrite map_map. apply map_ext. intros v. unfold txt, f. f_equal.
    replace (2 ^ (8 * Z.of_nat W)) with (256 * 2 ^ (8 * Z.of_nat w)).
    - rewrite Z.rem_mul_r by lia. rewrite Z.add_mod by lia. rewrite Z.mul_comm, Z.mod_mul by lia.
      rewrite Z.add_0_r, !Z.mod_mod by lia. reflexivity.
    - unfold W. change 256 with (2 ^ 8). rewrite <- Z.pow_add_r by lia. f_equal. lia. }
  assert (Ln : forall k c, line W prompt k (map f c) = line W prompt k c).
  { intros k c. unfold line. rewrite C, X, map_length. reflexivity. }
  assert (G : forall n k it, lines W prompt n k (map f it) = lines W prompt n k it).
  { clear - Ln. induction n as [|n IH]; intros k it; [reflexivity|]. cbn [lines].
    rewrite firstn_map, skipn_map. rewrite IH, Ln. now destruct it. }
  rewrite G. unfold trailer. now rewrite map_length.
Qed.

(** Writing to a stream appends exactly the text hexdump() returns. *)
Theorem C21_stream : forall o w data prompt,
  (0 < w)%nat -> width o = 0%nat ->
  exists out o', hexdump w data prompt = Ok out /\
    hexdump_stream o w data prompt = Ok o' /\ text o' = text o ++ out.
Proof.
  intros o w data prompt Hw Ho. eexists _, _. split; [now apply hexdump_some|].
  split; [now apply hexdump_stream_some|]. reflexivity.
Qed.

(** Finding: the stream is left in hexadecimal mode with fill character 0, so that
    numbers written after the dump come out differently. *)
Theorem C21_stream_state_finding : forall o w data prompt,
  (0 < w)%nat -> width o = 0%nat ->
  exists o', hexdump_stream o w data prompt = Ok o' /\ hex o' = true /\ fill o' = "0"%char.
Proof.
  intros o w data prompt Hw Ho. eexists. split; [now apply hexdump_stream_some|]. split; reflexivity.
Qed.

(** Two bytes with a prompt; and 17 bytes, whose second line starts with blanks. *)
Example C21_example :
  hexdump 1 [65; 10] !"> " =
    Ok (!"> 000000: 41 0a                                            A." ++ [chr 10]) /\
  hexdump 2 [-1; 258] [] = Ok (!"000000: ffff 0102 " ++ [chr 10]) /\
  hexdump 4 [] [] = Ok (!"000000: " ++ [chr 10]) /\
  (let data := map Z.of_nat (seq 40 17) in
   line_count data = 2%nat /\ Forall (fits 1) data /\
   exists out, hexdump 1 data !"p" = Ok out /\
     sub (line_width 1 1) 12 out = !" 000010: 38 ").
Proof.
  split; [vm_compute; reflexivity|]. split; [vm_compute; reflexivity|].
  split; [vm_compute; reflexivity|]. cbv zeta.
  split; [vm_compute; reflexivity|]. split.
  - repeat constructor; discriminate.
  - eexists. split; [vm_compute; reflexivity|]. vm_compute. reflexivity.
Qed.

(** Beyond the limit: the hypotheses of C21_truncated can be met. *)
Example C21_truncated_example : exists data, (16 * 1000 < length data)%nat /\ Forall (fits 1) data.
Proof.
  exists (List.repeat 7 (S (16 * 1000))). split.
  - rewrite repeat_length. apply Nat.lt_succ_diag_r.
  - apply Forall_forall. intros x H. apply List.repeat_spec in H as ->. unfold fits. lia.
Qed.

(** ** C63 *)
Lemma forwarder_step m c o m' :
  (forall x d p, c x = Some (d, p) -> m x = Some (Fwd (It x 0) (It x (length d)) p d)) ->
  fstep m o = Some m' ->
  forall x d p, effect c o x = Some (d, p) -> m' x = Some (Fwd (It x 0) (It x (length d)) p d).
Proof.
  intros I H x d p E. destruct o as [a t cd cp|a b|a b|a b|a b|a]; cbn [fstep effect] in *.
  - destruct (m a); [discriminate|]. injection H as <-. unfold fwd_create, fset, cset in *.
    destruct (Nat.eqb_spec x a); [|now apply I]. injection E as <- <-. subst. reflexivity.
  - destruct (m a); [discriminate|]. destruct (m b) as [f|] eqn:Mb; [|discriminate]. injection H as <-.
    unfold fwd_copy_assign, fset, cset in *. destruct (Nat.eqb a b); [now apply I|].
    destruct (Nat.eqb_spec x a); [|now apply I]. apply I in E. rewrite Mb in E. injection E as ->.
    subst. reflexivity.
  - destruct (m a); [discriminate|]. destruct (m b) as [f|] eqn:Mb; [|discriminate]. injection H as <-.
    unfold fwd_move_assign, fset, cset in *. destruct (Nat.eqb a b); [now apply I|].
    destruct (Nat.eqb_spec x a).
    + apply I in E. rewrite Mb in E. injection E as ->. subst. reflexivity.
    + destruct (Nat.eqb x b); [discriminate|now apply I].
  - destruct (m a); [|discriminate]. destruct (m b) as [f'|] eqn:Mb; [|discriminate]. injection H as <-.
    unfold fwd_copy_assign, fset, cset in *. destruct (Nat.eqb a b); [now apply I|].
    destruct (Nat.eqb_spec x a); [|now apply I]. apply I in E. rewrite Mb in E. injection E as ->.
    subst. reflexivity.
  - destruct (m a); [|discriminate]. destruct (m b) as [f'|] eqn:Mb; [|discriminate]. injection H as <-.
    unfold fwd_move_assign, fset, cset in *. destruct (Nat.eqb a b); [now apply I|].
    destruct (Nat.eqb_spec x a).
    + apply I in E. rewrite Mb in E. injection E as ->. subst. reflexivity.
    + destruct (Nat.eqb x b); [discriminate|now apply I].
  - destruct (m a); [|discriminate]. injection H as <-. unfold fset, cset in *.
    destruct (Nat.eqb x a); [discriminate|now apply I].
Qed.

Lemma forwarder_inv ops : forall m c m',
  (forall x d p, c x = Some (d, p) -> m x = Some (Fwd (It x 0) (It x (length d)) p d)) ->
  fexec m ops = Some m' ->
  forall x d p, effects c ops x = Some (d, p) -> m' x = Some (Fwd (It x 0) (It x (length d)) p d).
Proof.
  induction ops as [|o ops IH]; intros m c m' I H; cbn [fexec effects] in *.
  - injection H as <-. exact I.
  - destruct (fstep m o) as [m1|] eqn:So; [|discriminate]. eapply IH; [|exact H].
    eapply forwarder_step; eauto.
Qed.

(** After any sequence of creations, copies, moves, assignments and destructions, printing
    a forwarder that holds a value writes the dump of the data it was created with; in
    particular its iterators never refer to a container that was moved away or
    destroyed. *)
Theorem C63_forwarder : forall ops m o w x data prompt,
  fexec no_forwarders ops = Some m -> effects no_contents ops x = Some (data, prompt) ->
  fwd_print o w m x = hexdump_stream o w data prompt.
Proof.
  intros ops m o w x data prompt H E.
  assert (I : m x = Some (Fwd (It x 0) (It x (length data)) prompt data)).
  { apply (forwarder_inv ops no_forwarders no_contents m); auto. discriminate. }
  unfold fwd_print. rewrite I. unfold range. cbn [owner begin_ end_ pos]. rewrite Nat.eqb_refl, I.
  cbn [cont_ fprompt]. rewrite Nat.leb_refl. cbn [Nat.leb andb skipn bind].
  now rewrite Nat.sub_0_r, firstn_all.
Qed.

(** The text written is that of hexdump() with the same arguments. *)
Theorem C63_forwarder_text : forall ops m o w x data prompt,
  (0 < w)%nat -> width o = 0%nat ->
  fexec no_forwarders ops = Some m -> effects no_contents ops x = Some (data, prompt) ->
  exists out o', hexdump w data prompt = Ok out /\ fwd_print o w m x = Ok o' /\
    text o' = text o ++ out.
Proof.
  intros ops m o w x data prompt Hw Ho H E.
  rewrite (C63_forwarder ops m o w x data prompt H E). now apply C21_stream.
Qed.

(** A forwarder is created, copied, the copy moved twice, and the originals destroyed. *)
Example C63_example :
  let ops := [FCreate 1 99 [104; 105] !">"; FCopyCtor 2 1; FMoveCtor 3 2; FDestroy 1;
              FCreate 1 98 [] []; FMoveAssign 1 3; FDestroy 2; FDestroy 3] in
  exists m, fexec no_forwarders ops = Some m /\
    effects no_contents ops 1%nat = Some ([104; 105], !">").
Proof. eexists. split; reflexivity. Qed.

Print Assumptions C21_reconstruct.
Print Assumptions C63_forwarder_text.
