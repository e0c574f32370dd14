(** C41: what a SlidingBufferExposed holds outside of the filled part after it has grown. *)
From Coq Require Import List Arith Lia Bool.
From Verif Require Import Base SbModel SbSpec.
Import ListNotations.

(** A buffer whose elements lie at the end of the container, from index [ib b] on, is grown.  Slots
    before them are untouched, slots that the elements leave hold moved-from elements, and new slots
    hold default-constructed elements. *)
Theorem C41_grown_slots : forall A (d : A) mv (b : sbuf A) new,
  full b = false -> ie b = 0 -> 0 < ib b < length (st b) -> length (st b) < new ->
  let b' := ex_resize d mv b new keep_front_elements in
  let gain := new - length (st b) in
  length (st b') = new /\
  (forall j, j < ib b -> nth_error (st b') j = nth_error (st b) j) /\
  (forall j, ib b <= j < length (st b) -> j < ib b + gain -> nth_error (st b') j = option_map mv (nth_error (st b) j)) /\
  (forall j, length (st b) <= j < ib b + gain -> nth_error (st b') j = Some d) /\
  (forall j, ib b <= j < length (st b) -> nth_error (st b') (j + gain) = nth_error (st b) j).
Proof.
  intros A d mv b new F E B L b' gain.
  assert (EB : st b' = move_backward d mv (vresize d (st b) new) (ib b) (length (st b)) new).
  { unfold b', ex_resize, capacity. rewrite F, E.
    rewrite (proj2 (Nat.ltb_lt 0 new)), (proj2 (Nat.eqb_neq new (length (st b)))), (proj2 (Nat.eqb_neq (ib b) 0)), (proj2 (Nat.ltb_lt (length (st b)) new)) by lia. reflexivity. }
  assert (NT : forall j, j < new -> nth_error (st b') j = Some (
     if Nat.leb (ib b + gain) j then nth (j - gain) (vresize d (st b) new) d
     else if Nat.leb (ib b) j && Nat.ltb j (length (st b)) then mv (nth j (vresize d (st b) new) d)
     else nth j (vresize d (st b) new) d)).
  { intros j J. rewrite EB. unfold move_backward. rewrite nth_error_map. 
    rewrite (nth_error_nth' _ 0) by (rewrite seq_length; exact J). rewrite seq_nth by exact J. reflexivity. }
  assert (OLD : forall j, j < length (st b) -> nth_error (st b) j = Some (nth j (vresize d (st b) new) d)).
  { intros j J. rewrite (nth_error_nth' _ d) by exact J. f_equal. unfold vresize. rewrite firstn_all2 by lia. now rewrite app_nth1. }
  split; [rewrite EB; unfold move_backward; now rewrite map_length, seq_length|].
  split; [|split; [|split]].
  - intros j J. rewrite NT, OLD by lia. rewrite (proj2 (Nat.leb_gt (ib b + gain) j)), (proj2 (Nat.leb_gt (ib b) j)) by lia. reflexivity.
  - intros j J G. rewrite NT, OLD by lia. rewrite (proj2 (Nat.leb_gt (ib b + gain) j)), (proj2 (Nat.leb_le (ib b) j)), (proj2 (Nat.ltb_lt j (length (st b)))) by lia. reflexivity.
  - intros j J. rewrite NT by lia. rewrite (proj2 (Nat.leb_gt (ib b + gain) j)), (proj2 (Nat.ltb_ge j (length (st b)))) by lia. rewrite andb_false_r.
    f_equal. unfold vresize. rewrite firstn_all2 by lia. rewrite app_nth2 by lia. apply nth_repeat.
  - intros j J. rewrite NT, OLD by lia. rewrite (proj2 (Nat.leb_le (ib b + gain) (j + gain))) by lia. do 2 f_equal. lia.
Qed.
(** Three elements at the end of five slots, grown to nine *)
Example C41_grown_slots_example :
  st (ex_resize 0 (fun x => x + 100) (SB 2 0 false [1; 2; 3; 4; 5]) 9 keep_front_elements) = [1; 2; 103; 104; 105; 0; 3; 4; 5].
Proof. reflexivity. Qed.
Print Assumptions C41_grown_slots.
